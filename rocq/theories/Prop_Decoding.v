(** Properties of src/decoding.py: C33 flattening, C34/C35 graph edges, C36 the graph
    given to pymatching, C37 counting correct shots, C38 the decoder's files. *)
From Coq Require Import QArith Lqa.
From Coq Require Import DecimalString DecimalNat Ascii.
From Verif Require Import Prelude Text Decoding.
Open Scope Z_scope.

(** ** C33: what the unrolled model says *)
(** Specification.  A model without blocks: *)
Fixpoint unroll (x : ditem) : list ditem :=
  match x with DRepeat n b => concat (repeat (flat_map unroll b) n) | _ => [x] end.
Definition unrolled (m : dmodel) : list ditem := flat_map unroll m.
(** Split at separators. *)
Fixpoint components (ts : list dtarget) : list (list dtarget) :=
  match ts with
  | [] => [[]]
  | DSep :: r => [] :: components r
  | t :: r => match components r with c :: cs => (t :: c) :: cs | [] => [] end
  end.
(** Total shifts made by a list of instructions. *)
Definition shift_of (x : ditem) : nat := match x with DShift _ k => k | _ => O end.
Definition coord_shift_of (j : nat) (x : ditem) : Q := match x with DShift a _ => nth j a 0%Q | _ => 0%Q end.
Definition total_shift (l : list ditem) : nat := fold_right (fun x n => (shift_of x + n)%nat) O l.
Definition total_coord_shift (j : nat) (l : list ditem) : Q := fold_left (fun q x => (q + coord_shift_of j x)%Q) l 0%Q.
(** What an instruction reports after the instructions [pre]. *)
Definition report (pre : list ditem) (x : ditem) : list event :=
  match x with
  | DError p ts => map (fun c => EError p (map (fun k => (k + total_shift pre)%nat) (det_ids c)) (obs_ids c)) (components ts)
  | DDetector a ids => map (fun k => ECoords (k + total_shift pre)%nat
                                    (map (fun j => (nth j a 0 + total_coord_shift j pre)%Q) (seq 0 (length a)))) ids
  | _ => []
  end.
Definition reports (l : list ditem) : list event :=
  flat_map (fun i => match nth_error l i with Some x => report (firstn i l) x | None => [] end) (seq 0 (length l)).
(** At most 100 arguments (stim itself allows 16). *)
Definition small_args (l : list ditem) : Prop :=
  forall x, In x l -> match x with DShift a _ | DDetector a _ => (length a <= 100)%nat | _ => True end.

(** Calling a handler on a list of events until it raises. *)
Fixpoint foldM {S} (h : S -> event -> res S) (l : list event) (s : S) : res S :=
  match l with [] => Ok s | e :: r => let! s := h s e in foldM h r s end.

Lemma foldM_app {S} (h : S -> event -> res S) a b s : foldM h (a ++ b) s = (let! s := foldM h a s in foldM h b s).
Proof. revert s. induction a as [|e a IH]; intros s; simpl; [reflexivity|]. destruct (h s e); simpl; auto. Qed.

Lemma error_targets_ok {S} (h : S -> event -> res S) p off ts dets frames s :
  error_targets h p off ts dets frames s =
  match components ts with
  | c :: cs => foldM h (EError p (dets ++ map (fun k => (k + off)%nat) (det_ids c)) (frames ++ obs_ids c)
                        :: map (fun c => EError p (map (fun k => (k + off)%nat) (det_ids c)) (obs_ids c)) cs) s
  | [] => Ok s
  end.
Proof.
  revert dets frames s. induction ts as [|t ts IH]; intros; simpl.
  - rewrite !app_nil_r. destruct (h s _); reflexivity.
  - assert (Hne : components ts <> []).
    { clear. destruct ts as [|t ts]; simpl; [discriminate|].
      induction ts as [|u ts IH] in t |- *; destruct t; simpl; try discriminate.
      all: specialize (IH u); simpl in IH; destruct (match u with DSep => _ | _ => _ end); auto; discriminate. }
    destruct t as [k|k|]; simpl.
    + rewrite IH. destruct (components ts) as [|c cs]; [congruence|]. simpl. now rewrite <- app_assoc.
    + rewrite IH. destruct (components ts) as [|c cs]; [congruence|]. simpl. now rewrite <- app_assoc.
    + rewrite !app_nil_r. destruct (h s _) as [s'|]; simpl; [|reflexivity].
      rewrite IH. destruct (components ts) as [|c cs]; [congruence|]. reflexivity.
Qed.

Lemma components_ne ts : components ts <> [].
Proof.
  induction ts as [|t ts IH]; simpl; [discriminate|].
  destruct t; destruct (components ts); try discriminate; congruence.
Qed.

Lemma error_targets_report {S} (h : S -> event -> res S) p off ts s :
  error_targets h p off ts [] [] s =
  foldM h (map (fun c => EError p (map (fun k => (k + off)%nat) (det_ids c)) (obs_ids c)) (components ts)) s.
Proof. rewrite error_targets_ok. pose proof (components_ne ts). destruct (components ts); [congruence|]. reflexivity. Qed.

Lemma add_prefix_length a c : length (add_prefix a c) = length c.
Proof. revert c. induction a as [|x a IH]; intros [|y c]; simpl; auto. Qed.
Lemma Qplus_0 q : (q + 0)%Q = q.
Proof. destruct q as [n d]. unfold Qplus. simpl. f_equal; [|lia]. rewrite Z.mul_1_r. lia. Qed.
Lemma add_prefix_nth a c j : (length a <= length c)%nat -> (j < length c)%nat ->
  nth j (add_prefix a c) 0%Q = (nth j c 0 + nth j a 0)%Q.
Proof.
  revert c j. induction a as [|x a IH]; intros [|y c] j H Hj; simpl in *; try lia.
  - destruct j; now rewrite Qplus_0.
  - destruct j; [reflexivity|]. apply IH; lia.
Qed.
Lemma plus_prefix_spec a c : (length a <= length c)%nat ->
  plus_prefix a c = map (fun j => (nth j a 0 + nth j c 0)%Q) (seq 0 (length a)).
Proof.
  revert c. induction a as [|x a IH]; intros [|y c] H; simpl in *; try lia; [reflexivity..|].
  f_equal. rewrite IH by lia. rewrite <- seq_shift, map_map. reflexivity.
Qed.

(** The state of the helper after the instructions [pre]. *)
Definition at_ (pre : list ditem) (off : nat) (c : list Q) : Prop :=
  off = total_shift pre /\ length c = 100%nat /\ forall j, (j < 100)%nat -> nth j c 0%Q = total_coord_shift j pre.

Lemma detector_ids_report {S} (h : S -> event -> res S) a off c ids pre s :
  (length a <= 100)%nat -> at_ pre off c -> detector_ids h a off c ids s = foldM h (report pre (DDetector a ids)) s.
Proof.
  intros Ha (-> & Hl & Hc). revert s. induction ids as [|k ids IH]; intros s; simpl; [reflexivity|].
  unfold with_offset. rewrite (proj2 (Nat.leb_le _ _)) by lia. simpl.
  rewrite plus_prefix_spec by lia.
  rewrite (map_ext_in _ (fun j => (nth j a 0 + total_coord_shift j pre)%Q)).
  2:{ intros j Hj%in_seq. rewrite Hc by lia. reflexivity. }
  destruct (h s _); simpl; auto.
Qed.

(** events of [l] coming after [pre] *)
Fixpoint after (pre : list ditem) (l : list ditem) : list event :=
  match l with [] => [] | x :: r => report pre x ++ after (pre ++ [x]) r end.
Lemma after_app pre a b : after pre (a ++ b) = after pre a ++ after (pre ++ a) b.
Proof. revert pre. induction a as [|x a IH]; intros pre; simpl; [now rewrite app_nil_r|]. rewrite IH, <- !app_assoc. reflexivity. Qed.
Lemma reports_after_gen pre l :
  after pre l = flat_map (fun i => match nth_error l i with Some x => report (pre ++ firstn i l) x | None => [] end) (seq 0 (length l)).
Proof.
  revert pre. induction l as [|x l IH]; intros pre; simpl; [reflexivity|].
  rewrite app_nil_r. f_equal. rewrite IH. rewrite <- seq_shift, !flat_map_concat_map, map_map. f_equal. apply map_ext. intros i. simpl.
  destruct (nth_error l i); [|reflexivity]. now rewrite <- app_assoc.
Qed.
Lemma reports_after l : reports l = after [] l.
Proof. unfold reports. now rewrite reports_after_gen. Qed.

Lemma total_shift_app a b : total_shift (a ++ b) = (total_shift a + total_shift b)%nat.
Proof. induction a as [|x a IH]; simpl; [reflexivity|]. rewrite IH. lia. Qed.

Lemma ditem_ind' (P : ditem -> Prop) :
  (forall p ts, P (DError p ts)) -> (forall a k, P (DShift a k)) -> (forall a ids, P (DDetector a ids)) ->
  (forall ids, P (DObservable ids)) -> (forall n b, (forall x, In x b -> P x) -> P (DRepeat n b)) -> forall x, P x.
Proof.
  intros H1 H2 H3 H4 H5. fix IH 1. intros [p ts|a k|a ids|ids|n b]; [apply H1|apply H2|apply H3|apply H4|].
  apply H5. induction b as [|y b IHb]; intros x; [intros []|]. intros [<-|Hx]; [apply IH|apply IHb, Hx].
Qed.

Definition runs_as {S} (h : S -> event -> res S) (f : fst_ -> res (@fst_ S)) (l : list ditem) : Prop :=
  forall pre off c s, at_ pre off c -> 
    match foldM h (after pre l) s with
    | Ok s' => exists off' c', f (off, c, s) = Ok (off', c', s') /\ at_ (pre ++ l) off' c'
    | Err e => f (off, c, s) = Err e
    end.

Lemma runs_seq {S} (h : S -> event -> res S) f g a b :
  runs_as h f a -> runs_as h g b -> runs_as h (fun st => let! st := f st in g st) (a ++ b).
Proof.
  intros Hf Hg pre off c s Hat. rewrite after_app, foldM_app. specialize (Hf pre off c s Hat).
  destruct (foldM h (after pre a) s) as [s1|e]; simpl.
  - destruct Hf as (o1 & c1 & -> & Hat1). simpl. specialize (Hg _ _ _ s1 Hat1).
    destruct (foldM h (after (pre ++ a) b) s1); [|exact Hg].
    destruct Hg as (o2 & c2 & E2 & Hat2). exists o2, c2. rewrite app_assoc. auto.
  - now rewrite Hf.
Qed.
Lemma runs_nil {S} (h : S -> event -> res S) : runs_as h (fun st => Ok st) [].
Proof. intros pre off c s Hat. simpl. exists off, c. rewrite app_nil_r. auto. Qed.
Lemma runs_ext {S} (h : S -> event -> res S) f g l : (forall st, f st = g st) -> runs_as h f l -> runs_as h g l.
Proof. intros E H pre off c s Hat. specialize (H pre off c s Hat). rewrite E in H. exact H. Qed.

Lemma at_same pre off c x : shift_of x = O -> (forall j, coord_shift_of j x = 0%Q) -> at_ pre off c -> at_ (pre ++ [x]) off c.
Proof.
  intros H1 H2 (-> & Hl & Hc). split; [|split; [assumption|]].
  - rewrite total_shift_app. simpl. lia.
  - intros j Hj. rewrite Hc by assumption. unfold total_coord_shift. rewrite fold_left_app. simpl. now rewrite H2, Qplus_0.
Qed.

Lemma helper_item_ok {S} (h : S -> event -> res S) x : small_args (unroll x) -> runs_as h (helper_item h x) (unroll x).
Proof.
  induction x as [p ts|a k|a ids|ids|n b IH] using ditem_ind'; intros Hsm.
  - intros pre off c s Hat. simpl. rewrite app_nil_r, error_targets_report. destruct Hat as (-> & Hat).
    destruct (foldM h _ s) as [s'|]; simpl; [|reflexivity]. exists (total_shift pre), c. split; [reflexivity|].
    apply at_same; auto. split; auto.
  - intros pre off c s (-> & Hl & Hc). simpl. unfold shift_coords.
    specialize (Hsm _ (or_introl eq_refl)). simpl in Hsm.
    rewrite (proj2 (Nat.leb_le _ _)) by lia. simpl. exists (total_shift pre + k)%nat, (add_prefix a c). split; [reflexivity|].
    split; [|split].
    + rewrite total_shift_app. simpl. lia.
    + now rewrite add_prefix_length.
    + intros j Hj. rewrite add_prefix_nth by lia. rewrite Hc by assumption.
      unfold total_coord_shift. rewrite fold_left_app. reflexivity.
  - intros pre off c s Hat. specialize (Hsm _ (or_introl eq_refl)). cbn [helper_item unroll after]. rewrite app_nil_r.
    rewrite (detector_ids_report h a off c ids pre s Hsm Hat).
    destruct (foldM h _ s) as [s'|]; simpl; [|reflexivity]. exists off, c. split; [reflexivity|]. apply at_same; auto.
  - intros pre off c s Hat. simpl. exists off, c. split; [reflexivity|]. apply at_same; auto.
  - assert (Hbody : n <> O -> runs_as h ((fix go (l : list ditem) (st : fst_) : res fst_ :=
                  match l with [] => Ok st | y :: r => let! st := helper_item h y st in go r st end) b) (flat_map unroll b)).
    { intros Hn.
      assert (Hb : forall y, In y b -> small_args (unroll y)).
      { intros y Hy z Hz. apply Hsm. simpl. destruct n; [congruence|]. simpl. apply in_app_iff. left.
        apply in_flat_map. eauto. }
      clear Hsm Hn. induction b as [|y b IHb].
      - apply runs_nil.
      - simpl. apply (runs_seq h (helper_item h y)).
        + apply IH; [now left|]. apply Hb. now left.
        + apply IHb; [intros z Hz; apply IH; now right|intros z Hz; apply Hb; now right]. }
    clear IH Hsm. cbn [unroll].
    induction n as [|n IHn].
    + apply (runs_ext h (fun st => Ok st)); [|apply runs_nil]. intros [[o c] s]. reflexivity.
    + simpl. specialize (Hbody ltac:(discriminate)).
      assert (IHn' : runs_as h (helper_item h (DRepeat n b)) (concat (repeat (flat_map unroll b) n))).
      { apply IHn. intros _. exact Hbody. }
      refine (runs_ext h _ _ _ _ (runs_seq h _ _ _ _ Hbody IHn')).
      intros [[o c] s]. simpl. destruct (_ b (o, c, s)) as [[[o1 c1] s1]|]; reflexivity.
Qed.

(** Every handler is called on exactly the reports of the unrolled model, in order. *)
Theorem C33_flatten : forall {S} (h : S -> event -> res S) (m : dmodel) (s : S),
  small_args (unrolled m) ->
  iter_flatten_model h m s = foldM h (reports (unrolled m)) s.
Proof.
  intros S h m s Hsm. rewrite reports_after. unfold iter_flatten_model.
  assert (Hsm' : small_args (unroll (DRepeat 1 m))) by (simpl; rewrite app_nil_r; exact Hsm).
  pose proof (helper_item_ok h (DRepeat 1 m) Hsm' [] O (repeat 0%Q 100) s) as H.
  assert (U : unroll (DRepeat 1 m) = unrolled m) by (simpl; apply app_nil_r). rewrite U in H.
  assert (Hat : at_ [] 0 (repeat 0%Q 100)).
  { split; [reflexivity|]. split; [apply repeat_length|]. intros j _. unfold total_coord_shift. cbn [fold_left].
    clear. generalize 100%nat. intros n. revert j. induction n as [|n IH]; intros [|j]; simpl; auto. }
  specialize (H Hat). destruct (foldM h (after [] (unrolled m)) s) as [s'|e].
  - destruct H as (o & c & -> & _). reflexivity.
  - now rewrite H.
Qed.
Print Assumptions C33_flatten.

(** With handlers that record their calls the recorded list is the specification. *)
Theorem C33_events : forall m : dmodel, small_args (unrolled m) ->
  iter_flatten_model (fun l e => Ok (l ++ [e])) m [] = Ok (reports (unrolled m)).
Proof.
  intros m H. rewrite C33_flatten by assumption. generalize (reports (unrolled m)). intros l.
  enough (G : forall a, foldM (fun l e => Ok (l ++ [e])) l a = Ok (a ++ l)) by apply G.
  clear. induction l as [|e l IH]; intros a; simpl; [now rewrite app_nil_r|].
  rewrite IH, <- app_assoc. reflexivity.
Qed.
Print Assumptions C33_events.

Definition ex_model : dmodel :=
  [ DError (1#10) [DDet 0; DObs 0; DSep; DDet 1];
    DRepeat 2 [DError (1#5) [DDet 0; DDet 1]; DShift [0; 1]%Q 1; DRepeat 2 [DShift [] 2; DDetector [5; 6; 7]%Q [0%nat]]];
    DError (1#10) [DDet 0] ].
Example C33_example :
  small_args (unrolled ex_model) /\
  iter_flatten_model (fun l e => Ok (l ++ [e])) ex_model [] =
  Ok [ EError (1#10) [0%nat] [0%nat]; EError (1#10) [1%nat] [];
       EError (1#5) [0%nat; 1%nat] []; ECoords 3 [5; 7; 7]%Q; ECoords 5 [5; 7; 7]%Q;
       EError (1#5) [5%nat; 6%nat] []; ECoords 8 [5; 8; 7]%Q; ECoords 10 [5; 8; 7]%Q;
       EError (1#10) [10%nat] [] ].
Proof.
  split; [|reflexivity].
  intros x Hx. simpl in Hx. repeat (destruct Hx as [<-|Hx]; [simpl; try exact Logic.I; lia|]). destruct Hx.
Qed.

(** ** C34, C35: the edges of the graph *)
(** Specification.  The probability that an odd number of independent events occur: sum
    over all outcomes. *)
Fixpoint outcomes (n : nat) : list (list bool) :=
  match n with O => [[]] | S n => map (cons true) (outcomes n) ++ map (cons false) (outcomes n) end.
Fixpoint outcome_prob (ps : list Q) (o : list bool) : Q :=
  match ps, o with p :: ps, b :: o => ((if b then p else 1 - p) * outcome_prob ps o)%Q | _, _ => 1%Q end.
Definition odd (o : list bool) : bool := Nat.odd (count_true o).
Definition qsum (l : list Q) : Q := fold_right Qplus 0%Q l.
Definition prob_odd (ps : list Q) : Q := qsum (map (outcome_prob ps) (filter odd (outcomes (length ps)))).

(** The errors of an event list that hit the pair {u, v}: nonzero probability, one
    symptom (paired with the boundary n) or two. *)
Definition pair_eqb (u v x y : nat) : bool := ((u =? x) && (v =? y) || (u =? y) && (v =? x))%nat.
Definition errors_on (n u v : nat) (l : list event) : list (Q * list nat) :=
  flat_map (fun e => match e with
    | EError p [x] f => if negb (Qeq_bool p 0) && pair_eqb u v x n then [(p, f)] else []
    | EError p [x; y] f => if negb (Qeq_bool p 0) && pair_eqb u v x y then [(p, f)] else []
    | _ => [] end) l.
(** Same frame changes, as sets. *)
Definition frames_eq (a b : list nat) : Prop := forall k, In k a <-> In k b.
(** Probabilities in [0, 1). *)
Definition uncertain (l : list event) : Prop := forall p d f, In (EError p d f) l -> (0 <= p /\ p < 1)%Q.
(** At most two symptoms. *)
Definition graphlike (l : list event) : Prop := forall p d f, In (EError p d f) l -> ~ (p == 0)%Q -> (length d <= 2)%nat.

Lemma qsum_app a b : (qsum (a ++ b) == qsum a + qsum b)%Q.
Proof. unfold qsum. induction a as [|x a IH]; simpl; [ring|]. rewrite IH. ring. Qed.
Lemma qsum_scale c l : (qsum (map (fun x => c * x) l) == c * qsum l)%Q.
Proof. unfold qsum. induction l as [|x l IH]; simpl; [ring|]. rewrite IH. ring. Qed.
Definition prob_even (ps : list Q) : Q := qsum (map (outcome_prob ps) (filter (fun o => negb (odd o)) (outcomes (length ps)))).
Lemma filter_map {A B} (f : A -> B) p l : filter p (map f l) = map f (filter (fun x => p (f x)) l).
Proof. induction l as [|x l IH]; simpl; [reflexivity|]. destruct (p (f x)); simpl; now rewrite IH. Qed.
Lemma odd_cons b o : odd (b :: o) = xorb b (odd o).
Proof. unfold odd, count_true. simpl. destruct b; simpl; [|now destruct (Nat.odd _)]. rewrite Nat.odd_succ, <- Nat.negb_odd. now destruct (Nat.odd _). Qed.
Lemma filter_ext_eq {A} (f g : A -> bool) l : (forall x, f x = g x) -> filter f l = filter g l.
Proof. intros H. induction l as [|x l IH]; simpl; [reflexivity|]. now rewrite H, IH. Qed.
Lemma qsum_map_scale {A} c (f : A -> Q) l : (qsum (map (fun x => c * f x) l) == c * qsum (map f l))%Q.
Proof. rewrite <- qsum_scale, map_map. reflexivity. Qed.
Lemma prob_odd_cons p ps : (prob_odd (p :: ps) == p * prob_even ps + (1 - p) * prob_odd ps)%Q.
Proof.
  unfold prob_odd, prob_even. simpl. rewrite filter_app, map_app, qsum_app, !filter_map, !map_map. simpl.
  rewrite (filter_ext_eq _ (fun o => negb (odd o))) by (intros; rewrite odd_cons; reflexivity).
  rewrite (filter_ext_eq (fun o => odd (false :: o)) odd) by (intros; rewrite odd_cons; now destruct (odd x)).
  rewrite (qsum_map_scale p), (qsum_map_scale (1 - p)). reflexivity.
Qed.
Lemma prob_even_cons p ps : (prob_even (p :: ps) == p * prob_odd ps + (1 - p) * prob_even ps)%Q.
Proof.
  unfold prob_odd, prob_even. simpl. rewrite filter_app, map_app, qsum_app, !filter_map, !map_map. simpl.
  rewrite (filter_ext_eq _ odd) by (intros; rewrite odd_cons; now destruct (odd x)).
  rewrite (filter_ext_eq (fun o => negb (odd (false :: o))) (fun o => negb (odd o))) by (intros; rewrite odd_cons; now destruct (odd x)).
  rewrite (qsum_map_scale p), (qsum_map_scale (1 - p)). reflexivity.
Qed.
Lemma prob_total ps : (prob_even ps + prob_odd ps == 1)%Q.
Proof.
  induction ps as [|p ps IH]; [reflexivity|]. rewrite prob_even_cons, prob_odd_cons.
  setoid_replace (prob_even ps) with (1 - prob_odd ps)%Q by (rewrite <- IH; ring). ring.
Qed.
Lemma prob_odd_step p ps : (prob_odd (p :: ps) == p * (1 - prob_odd ps) + prob_odd ps * (1 - p))%Q.
Proof. rewrite prob_odd_cons. setoid_replace (prob_even ps) with (1 - prob_odd ps)%Q by (rewrite <- (prob_total ps); ring). ring. Qed.
(** closed form *)
Definition bias (ps : list Q) : Q := fold_right (fun p q => ((1 - 2 * p) * q)%Q) 1%Q ps.
Lemma prob_odd_bias ps : (1 - 2 * prob_odd ps == bias ps)%Q.
Proof. induction ps as [|p ps IH]; [reflexivity|]. rewrite prob_odd_step. cbn [bias fold_right]. fold (bias ps). rewrite <- IH. ring. Qed.
Lemma bias_perm a b : Permutation a b -> (bias a == bias b)%Q.
Proof.
  induction 1; cbn [bias fold_right]; fold bias in *; try reflexivity.
  - fold (bias l) (bias l'). now rewrite IHPermutation.
  - fold (bias l). ring.
  - etransitivity; eassumption.
Qed.
Lemma prob_odd_perm a b : Permutation a b -> (prob_odd a == prob_odd b)%Q.
Proof.
  intros H%bias_perm. rewrite <- !prob_odd_bias in H.
  setoid_replace (prob_odd a) with ((1 - (1 - 2 * prob_odd a)) / 2)%Q by field.
  rewrite H. field.
Qed.

(** *** Association lists *)
Lemma eqk_spec a b : eqk a b = true <-> a = b.
Proof.
  destruct a as [a1 a2], b as [b1 b2]. unfold eqk. simpl. rewrite andb_true_iff, !Nat.eqb_eq. split; [intros []; congruence|intros [= -> ->]; auto].
Qed.
Lemma assoc_put {K V} (eqb : K -> K -> bool) (H : forall a b, eqb a b = true <-> a = b) k (v : V) l k' :
  assoc eqb k' (put eqb k v l) = if eqb k' k then Some v else assoc eqb k' l.
Proof.
  induction l as [|[k0 v0] l IH]; simpl; [reflexivity|].
  destruct (eqb k k0) eqn:E; simpl.
  - apply H in E. subst k0. now destruct (eqb k' k).
  - rewrite IH. destruct (eqb k' k0) eqn:E0; [|reflexivity]. apply H in E0. subst k0.
    destruct (eqb k' k) eqn:E1; [|reflexivity]. apply H in E1. subst. rewrite (proj2 (H k k) eq_refl) in E. discriminate.
Qed.
Lemma assoc_app_new {K V} (eqb : K -> K -> bool) (H : forall a b, eqb a b = true <-> a = b) k (v : V) l k' :
  assoc eqb k l = None -> assoc eqb k' (l ++ [(k, v)]) = if eqb k' k then Some v else assoc eqb k' l.
Proof.
  intros Hn. induction l as [|[k0 v0] l IH]; simpl in *; [reflexivity|].
  destruct (eqb k k0) eqn:E; [discriminate|]. rewrite IH by assumption.
  destruct (eqb k' k0) eqn:E0; [|reflexivity]. apply H in E0. subst k0.
  destruct (eqb k' k) eqn:E1; [|reflexivity]. apply H in E1. subst. rewrite (proj2 (H k k) eq_refl) in E. discriminate.
Qed.
Lemma assoc_filter {V} k (l : list (nat * nat * V)) k' :
  assoc eqk k' (filter (fun '(k0, _) => negb (eqk k k0)) l) = if eqk k' k then None else assoc eqk k' l.
Proof.
  induction l as [|[k0 v0] l IH]; [simpl; now destruct (eqk k' k)|].
  cbn [filter]. destruct (eqk k k0) eqn:E; simpl; rewrite IH.
  - apply eqk_spec in E. subst k0. now destruct (eqk k' k).
  - destruct (eqk k' k0) eqn:E0; [|reflexivity]. apply eqk_spec in E0. subst k0.
    destruct (eqk k' k) eqn:E1; [|reflexivity]. apply eqk_spec in E1. subst. rewrite (proj2 (eqk_spec k k) eq_refl) in E. discriminate.
Qed.
Lemma ekey_pair u v x y : eqk (ekey u v) (ekey x y) = pair_eqb u v x y.
Proof.
  unfold ekey, pair_eqb, eqk. destruct (Nat.leb_spec u v), (Nat.leb_spec x y); simpl.
  all: destruct (Nat.eqb_spec u x), (Nat.eqb_spec v y), (Nat.eqb_spec u y), (Nat.eqb_spec v x); subst; simpl; try reflexivity; try lia.
Qed.
Lemma pair_sym u v x y : pair_eqb u v x y = pair_eqb x y u v.
Proof. unfold pair_eqb. rewrite (Nat.eqb_sym u x), (Nat.eqb_sym v y), (Nat.eqb_sym u y), (Nat.eqb_sym v x). f_equal. apply andb_comm. Qed.

Lemma touch_edges u g : g_edges (touch_node u g) = g_edges g.
Proof. unfold touch_node. now destruct (node_data g u). Qed.
Lemma edge_touch u g x y : edge_data (touch_node u g) x y = edge_data g x y.
Proof. unfold edge_data. now rewrite touch_edges. Qed.
Lemma node_touch u g k : node_data (touch_node u g) k = if (k =? u)%nat then Some match node_data g u with Some a => a | None => mkN false None end else node_data g k.
Proof.
  unfold touch_node. destruct (node_data g u) as [a|] eqn:E.
  - destruct (Nat.eqb_spec k u); subst; auto.
  - unfold node_data in *. simpl. rewrite (assoc_app_new _ Nat.eqb_eq) by assumption. reflexivity.
Qed.
Lemma edge_add u v w q p g x y :
  edge_data (add_edge u v w q p g) x y =
  if pair_eqb x y u v then
    Some (mkE w (match q with Some _ => q | None => match edge_data g u v with Some a => e_qubit_id a | None => None end end)
                (match p with Some _ => p | None => match edge_data g u v with Some a => e_prob a | None => None end end))
  else edge_data g x y.
Proof.
  unfold add_edge. rewrite !edge_touch. unfold edge_data at 1. simpl. rewrite (assoc_put _ eqk_spec), !touch_edges, ekey_pair. reflexivity.
Qed.
Lemma edge_remove u v g x y : edge_data (remove_edge u v g) x y = if pair_eqb x y u v then None else edge_data g x y.
Proof. unfold edge_data, remove_edge. cbn [g_edges]. rewrite assoc_filter, ekey_pair. reflexivity. Qed.
Lemma edge_coords u c g x y : edge_data (add_coords u c g) x y = edge_data g x y.
Proof. reflexivity. Qed.

Lemma same_set_spec a b : same_set a b = true <-> frames_eq a b.
Proof.
  unfold same_set, frames_eq. rewrite andb_true_iff, !forallb_forall.
  assert (E : forall x l, existsb (Nat.eqb x) l = true <-> In x l).
  { intros x l. rewrite existsb_exists. split; [intros (y & Hy & ->%Nat.eqb_eq); auto|intros H; exists x; split; auto; apply Nat.eqb_refl]. }
  split.
  - intros [H1 H2] k. split; intros Hk; [apply E, H1, Hk|apply E, H2, Hk].
  - intros H. split; intros x Hx; apply E, H, Hx.
Qed.

(** *** The history of one pair *)
Definition estep (o : option (Q * list nat)) (e : Q * list nat) : option (Q * list nat) :=
  let '(p, f) := e in
  match o with
  | None => Some (p, f)
  | Some (q, f') => if same_set f' f then Some ((p * (1 - q) + q * (1 - p))%Q, f) else Some (p, f)
  end.
Definition ehist (es : list (Q * list nat)) : option (Q * list nat) := fold_left estep es None.
Definition eattr_of (x : Q * list nat) : eattr := mkE (LogOdds ((1 - fst x) / fst x)) (Some (snd x)) (Some (fst x)).
Definition tracks (n : nat) (done : list event) (g : graph) : Prop :=
  forall u v, edge_data g u v = option_map eattr_of (ehist (errors_on n u v done)).
Definition in01 (p : Q) : Prop := (0 < p /\ p < 1)%Q.

Lemma combine_in01 p q : in01 p -> in01 q -> in01 (p * (1 - q) + q * (1 - p)).
Proof.
  intros [A1 A2] [B1 B2].
  assert (0 < p * (1 - q))%Q by (apply Qmult_lt_0_compat; lra). 
  assert (0 < q * (1 - p))%Q by (apply Qmult_lt_0_compat; lra).
  assert (0 < p * q)%Q by (apply Qmult_lt_0_compat; lra).
  assert (0 < (1 - p) * (1 - q))%Q by (apply Qmult_lt_0_compat; lra).
  split; [lra|].
  assert (E : ((p * (1 - q) + q * (1 - p)) == 1 - (p * q + (1 - p) * (1 - q)))%Q) by ring.
  rewrite E. lra.
Qed.

Lemma errors_on_app n u v a b : errors_on n u v (a ++ b) = errors_on n u v a ++ errors_on n u v b.
Proof. apply flat_map_app. Qed.
Lemma ehist_app a b : ehist (a ++ b) = fold_left estep b (ehist a).
Proof. apply fold_left_app. Qed.
Lemma uncertain_on n u v l e : uncertain l -> In e (errors_on n u v l) -> in01 (fst e).
Proof.
  intros H (x & Hx & He)%in_flat_map. destruct x as [p d f|]; [|destruct He].
  specialize (H _ _ _ Hx).
  assert (G : negb (Qeq_bool p 0) = true -> in01 p).
  { intros E%negb_true_iff. apply Qeq_bool_neq in E. split; [|tauto]. destruct H as [H _].
    apply Qle_lteq in H. destruct H as [H|H]; [exact H|]. exfalso. apply E. now rewrite H. }
  destruct d as [|a [|b [|c d]]]; try destruct He; destruct (negb (Qeq_bool p 0)); simpl in He; try destruct He.
  all: destruct (pair_eqb _ _ _ _); [|destruct He]; destruct He as [<-|[]]; simpl; auto.
Qed.
Lemma estep_in01 o e q f : (forall q f, o = Some (q, f) -> in01 q) -> in01 (fst e) -> estep o e = Some (q, f) -> in01 q.
Proof.
  destruct e as [p f0]. simpl. intros Ho Hp. destruct o as [[q0 f1]|].
  - destruct (same_set f1 f0); intros [= <- <-]; [apply combine_in01; eauto|auto].
  - intros [= <- <-]. auto.
Qed.
Lemma ehist_in01 es : (forall e, In e es -> in01 (fst e)) -> forall q f, ehist es = Some (q, f) -> in01 q.
Proof.
  induction es as [|e es IH] using rev_ind; intros H q f; [discriminate|].
  rewrite ehist_app. simpl. apply estep_in01; [apply IH; intros; apply H, in_or_app; auto|].
  apply H, in_or_app. right. now left.
Qed.
Lemma log_odds_ok p : in01 p -> log_odds p = Ok (LogOdds ((1 - p) / p)).
Proof.
  intros [H1 H2]. unfold log_odds.
  destruct (Qeq_bool p 0) eqn:E. { apply Qeq_bool_eq in E. exfalso. rewrite E in H1. discriminate. }
  destruct (Qle_bool _ 0) eqn:E1; [|reflexivity]. apply Qle_bool_iff in E1. exfalso.
  assert (0 < (1 - p) / p)%Q. { apply Qlt_shift_div_l; [assumption|]. lra. } lra.
Qed.

Lemma handler_edge n g done p u v f :
  tracks n done g -> uncertain done -> in01 p ->
  exists g', (let! (p, g) :=
      match edge_data g u v with
      | None => Ok (p, g)
      | Some a =>
          let! old_p := match e_prob a with Some q => Ok q | None => Err KeyError end in
          let! old_frames := match e_qubit_id a with Some l => Ok l | None => Err KeyError end in
          if same_set old_frames f then Ok ((p * (1 - old_p) + old_p * (1 - p))%Q, remove_edge u v g) else Ok (p, g)
      end in
    let! w := log_odds p in
    Ok (add_edge u v w (Some f) (Some p) g)) = Ok g' /\
  forall x y, edge_data g' x y = if pair_eqb x y u v then option_map eattr_of (estep (ehist (errors_on n u v done)) (p, f)) else edge_data g x y.
Proof.
  intros Ht Hu Hp. pose proof (Ht u v) as E.
  destruct (ehist (errors_on n u v done)) as [[q f0]|] eqn:Eh; simpl in E; rewrite E; cbn [bind eattr_of e_prob e_qubit_id fst snd].
  - assert (Hq : in01 q). { eapply ehist_in01; [|exact Eh]. intros e He. eapply uncertain_on; eauto. }
    cbn [estep]. destruct (same_set f0 f); cbn [bind].
    + rewrite log_odds_ok by (apply combine_in01; assumption). cbn [bind].
      eexists; split; [reflexivity|]. intros x y. rewrite edge_add.
      destruct (pair_eqb x y u v) eqn:Ep; [reflexivity|]. rewrite edge_remove, Ep. reflexivity.
    + rewrite log_odds_ok by assumption. cbn [bind].
      eexists; split; [reflexivity|]. intros x y. rewrite edge_add. now destruct (pair_eqb x y u v).
  - rewrite log_odds_ok by assumption. cbn [bind].
      eexists; split; [reflexivity|]. intros x y. rewrite edge_add. now destruct (pair_eqb x y u v).
Qed.

Lemma pair_key x y u v : pair_eqb x y u v = true -> forall a b, pair_eqb x y a b = pair_eqb u v a b.
Proof.
  unfold pair_eqb. rewrite orb_true_iff, !andb_true_iff, !Nat.eqb_eq. intros [[-> ->]|[-> ->]] a b; [reflexivity|].
  rewrite orb_comm. f_equal; apply andb_comm.
Qed.
Lemma errors_on_key n x y u v l : pair_eqb x y u v = true -> errors_on n x y l = errors_on n u v l.
Proof.
  intros H. unfold errors_on. rewrite !flat_map_concat_map. f_equal. apply map_ext. intros [p [|a [|b [|c d]]] f|]; try reflexivity;
  now rewrite (pair_key _ _ _ _ H).
Qed.

Lemma handler_tracks n done g e :
  tracks n done g -> uncertain (done ++ [e]) -> graphlike [e] ->
  exists g', graph_handler n g e = Ok g' /\ tracks n (done ++ [e]) g'.
Proof.
  intros Ht Hu Hg.
  assert (Hd : uncertain done) by (intros p d f H; eapply Hu, in_or_app; left; exact H).
  assert (Same : (forall u v, errors_on n u v [e] = []) -> forall g', (forall u v, edge_data g' u v = edge_data g u v) -> tracks n (done ++ [e]) g').
  { intros H g' Hg' u v. rewrite Hg', errors_on_app, H, app_nil_r. apply Ht. }
  destruct e as [p d f|k c]; simpl; unfold handle_error.
  2:{ eexists; split; [reflexivity|]. apply Same; auto. }
  destruct (Qeq_bool p 0) eqn:Ep.
  { eexists; split; [reflexivity|]. apply Same; auto. intros u v. simpl.
    destruct d as [|a [|b [|c d]]]; try reflexivity; now rewrite Ep. }
  assert (Hp : in01 p).
  { destruct (Hu p d f) as [H1 H2]; [apply in_or_app; right; now left|]. split; [|assumption].
    apply Qeq_bool_neq in Ep. apply Qle_lteq in H1. destruct H1 as [H1|H1]; [exact H1|]. exfalso. apply Ep. now rewrite H1. }
  assert (Hl : (length d <= 2)%nat) by (eapply Hg; [now left|]; now apply Qeq_bool_neq).
  assert (Step : forall u v, (forall x y, errors_on n x y [EError p d f] = if pair_eqb x y u v then [(p, f)] else []) ->
     forall g', (forall x y, edge_data g' x y = if pair_eqb x y u v then option_map eattr_of (estep (ehist (errors_on n u v done)) (p, f)) else edge_data g x y) ->
     tracks n (done ++ [EError p d f]) g').
  { intros u v H g' Hg' x y. rewrite Hg', errors_on_app, H. destruct (pair_eqb x y u v) eqn:E.
    - rewrite ehist_app, (errors_on_key _ _ _ _ _ _ E). reflexivity.
    - rewrite app_nil_r. apply Ht. }
  destruct d as [|a [|b [|c d]]]; simpl in Hl; [| | |lia].
  - eexists; split; [reflexivity|]. apply Same; auto.
  - cbn [bind]. destruct (handler_edge n g done p a n f Ht Hd Hp) as (g' & E & Hg'). exists g'. split; [exact E|].
    apply (Step a n); [|exact Hg']. intros x y. simpl. rewrite Ep. simpl. now destruct (pair_eqb x y a n).
  - cbn [bind]. destruct (handler_edge n g done p a b f Ht Hd Hp) as (g' & E & Hg'). exists g'. split; [exact E|].
    apply (Step a b); [|exact Hg']. intros x y. simpl. rewrite Ep. simpl. now destruct (pair_eqb x y a b).
Qed.

Lemma foldM_tracks n l : forall done g, tracks n done g -> uncertain (done ++ l) -> graphlike l ->
  exists g', foldM (graph_handler n) l g = Ok g' /\ tracks n (done ++ l) g'.
Proof.
  induction l as [|e l IH]; intros done g Ht Hu Hg.
  - exists g. rewrite app_nil_r. auto.
  - assert (E : done ++ e :: l = (done ++ [e]) ++ l) by now rewrite <- app_assoc.
    destruct (handler_tracks n done g e Ht) as (g1 & E1 & Ht1).
    { intros p d f H. eapply Hu. rewrite E. apply in_or_app. left. exact H. }
    { intros p d f [H|[]]. eapply Hg. left. exact H. }
    destruct (IH (done ++ [e]) g1 Ht1) as (g2 & E2 & Ht2).
    { now rewrite <- E. } { intros p d f H. eapply Hg. right. exact H. }
    exists g2. simpl. rewrite E1. simpl. rewrite E. auto.
Qed.

(** the history of a pair whose errors all change the same frames *)
Lemma ehist_run es0 q0 f0 : forall es, (forall e, In e es -> frames_eq f0 (snd e)) ->
  exists q f, fold_left estep es (Some (q0, f0)) = Some (q, f) /\ frames_eq f0 f /\
    (q == prob_odd (rev (map fst es) ++ es0))%Q \/ ~ (q0 == prob_odd es0)%Q.
Proof.
  intros es. destruct (Qeq_dec q0 (prob_odd es0)) as [E|E].
  2:{ intros _. exists 0%Q, []. now right. }
  revert q0 f0 es0 E. induction es as [|[p f1] es IH]; intros q0 f0 es0 E H.
  - exists q0, f0. left. split; [reflexivity|]. split; [intros k; tauto|exact E].
  - cbn [fold_left estep]. assert (F : frames_eq f0 f1) by (apply (H (p, f1)); now left).
    rewrite (proj2 (same_set_spec _ _) F).
    destruct (IH (p * (1 - q0) + q0 * (1 - p))%Q f1 (p :: es0)) as (q & f & G).
    + rewrite prob_odd_step, E. reflexivity.
    + intros e He k. rewrite <- (F k). apply (H e (or_intror He)).
    + destruct G as [(G1 & G2 & G3)|G]; [|exfalso; apply G; rewrite prob_odd_step, E; reflexivity].
      exists q, f. left. split; [exact G1|]. split; [intros k; rewrite (F k); apply G2|].
      cbn [map rev fst]. rewrite <- app_assoc. exact G3.
Qed.

Lemma estep_frames o e : exists q, estep o e = Some (q, snd e).
Proof. destruct e as [p f]. destruct o as [[q f']|]; simpl; [destruct (same_set f' f)|]; eauto. Qed.
Lemma prob_odd_1 p : (prob_odd [p] == p)%Q.
Proof. unfold prob_odd. simpl. unfold qsum. simpl. ring. Qed.

(** [run] is the maximal block of errors at the end of [es] with equal frame changes. *)
Definition last_run (es run : list (Q * list nat)) : Prop :=
  exists pre, es = pre ++ run /\ run <> [] /\
    (forall a b, In a run -> In b run -> frames_eq (snd a) (snd b)) /\
    (forall pre' e, pre = pre' ++ [e] -> forall r, In r run -> ~ frames_eq (snd e) (snd r)).

Lemma ehist_last_run es run : last_run es run ->
  exists q f, ehist es = Some (q, f) /\ (q == prob_odd (map fst run))%Q /\ forall r, In r run -> frames_eq (snd r) f.
Proof.
  intros (pre & -> & Hne & Hsame & Hpre). destruct run as [|[p f0] run]; [congruence|].
  assert (E : estep (ehist pre) (p, f0) = Some (p, f0)).
  { destruct pre as [|e pre _] using rev_ind; [reflexivity|].
    rewrite ehist_app. simpl. destruct (estep_frames (ehist pre) e) as (q & ->). simpl.
    destruct (same_set (snd e) f0) eqn:S; [|reflexivity]. apply same_set_spec in S. exfalso.
    exact (Hpre pre e eq_refl (p, f0) (or_introl eq_refl) S). }
  rewrite ehist_app. cbn [fold_left]. rewrite E.
  destruct (ehist_run [p] p f0 run) as (q & f & G).
  { intros e He. apply (Hsame (p, f0) e); [now left|now right]. }
  destruct G as [(G1 & G2 & G3)|G]; [|exfalso; apply G; now rewrite prob_odd_1].
  exists q, f. split; [exact G1|]. split.
  - rewrite G3. apply prob_odd_perm. cbn [map fst]. symmetry. etransitivity; [apply Permutation_cons_append|]. apply Permutation_app_tail, Permutation_rev.
  - intros r Hr k. rewrite <- (G2 k). apply (Hsame r (p, f0) Hr (or_introl eq_refl)).
Qed.

Lemma nx_tracks m : small_args (unrolled m) -> uncertain (reports (unrolled m)) -> graphlike (reports (unrolled m)) ->
  exists g, detector_error_model_to_nx_graph m = Ok g /\ tracks (num_detectors m) (reports (unrolled m)) g.
Proof.
  intros Hs Hu Hg. unfold detector_error_model_to_nx_graph. rewrite C33_flatten by assumption.
  apply (foldM_tracks (num_detectors m) (reports (unrolled m)) []); auto. intros u v. reflexivity.
Qed.

(** An edge is present exactly when some error of nonzero probability hits the pair; if
    its errors all change the same frames, the edge carries the probability that an odd
    number of them occurs, the log of its odds as weight, and those frames. *)
Theorem C34_edge_probability : forall (m : dmodel),
  let l := reports (unrolled m) in
  small_args (unrolled m) -> uncertain l -> graphlike l ->
  exists g, detector_error_model_to_nx_graph m = Ok g /\
  forall u v, let es := errors_on (num_detectors m) u v l in
    (edge_data g u v = None <-> es = []) /\
    ((forall a b, In a es -> In b es -> frames_eq (snd a) (snd b)) -> es <> [] ->
     exists p f, edge_data g u v = Some (mkE (LogOdds ((1 - p) / p)) (Some f) (Some p)) /\
       (p == prob_odd (map fst es))%Q /\ forall e, In e es -> frames_eq (snd e) f).
Proof.
  intros m l Hs Hu Hg. destruct (nx_tracks m Hs Hu Hg) as (g & Eg & Ht). exists g. split; [exact Eg|].
  intros u v es. specialize (Ht u v). fold l in Ht. fold es in Ht. split.
  - rewrite Ht. destruct es as [|e es'] using rev_ind; [tauto|]. rewrite ehist_app. simpl.
    destruct (estep_frames (ehist es') e) as (q & ->). simpl. split; [discriminate|]. intros H. now apply app_eq_nil in H as [_ H].
  - intros Hsame Hne. destruct (ehist_last_run es es) as (q & f & E & E1 & E2).
    { exists []. repeat split; auto; try (apply Hsame; assumption). intros pre' e H. destruct pre'; discriminate. }
    rewrite E in Ht. exists q, f. auto.
Qed.
Print Assumptions C34_edge_probability.

(** The order of the errors does not matter. *)
Theorem C34_order_irrelevant : forall (m1 m2 : dmodel) g1 g2 u v p1 p2 f1 f2 w1 w2,
  let l1 := reports (unrolled m1) in let l2 := reports (unrolled m2) in
  small_args (unrolled m1) -> small_args (unrolled m2) -> uncertain l1 -> graphlike l1 ->
  Permutation l1 l2 -> num_detectors m1 = num_detectors m2 ->
  (forall a b, In a (errors_on (num_detectors m1) u v l1) -> In b (errors_on (num_detectors m1) u v l1) -> frames_eq (snd a) (snd b)) ->
  detector_error_model_to_nx_graph m1 = Ok g1 -> detector_error_model_to_nx_graph m2 = Ok g2 ->
  edge_data g1 u v = Some (mkE w1 f1 (Some p1)) -> edge_data g2 u v = Some (mkE w2 f2 (Some p2)) -> (p1 == p2)%Q.
Proof.
  intros m1 m2 g1 g2 u v p1 p2 f1 f2 w1 w2 l1 l2 Hs1 Hs2 Hu Hg HP En Hsame E1 E2 A1 A2.
  destruct (C34_edge_probability m1 Hs1 Hu Hg) as (h1 & G1 & D1). rewrite E1 in G1. injection G1 as <-.
  assert (Hu2 : uncertain l2) by (intros p d f H; eapply Hu, Permutation_in; [symmetry; exact HP|exact H]).
  assert (Hg2 : graphlike l2) by (intros p d f H; eapply Hg, Permutation_in; [symmetry; exact HP|exact H]).
  destruct (C34_edge_probability m2 Hs2 Hu2 Hg2) as (h2 & G2 & D2). rewrite E2 in G2. injection G2 as <-.
  assert (HPe : Permutation (errors_on (num_detectors m1) u v l1) (errors_on (num_detectors m2) u v l2)).
  { rewrite En. apply Permutation_flat_map. exact HP. }
  specialize (D1 u v). specialize (D2 u v). cbv zeta in D1, D2. fold l1 in D1. fold l2 in D2.
  destruct D1 as [N1 D1], D2 as [N2 D2].
  assert (Hne : errors_on (num_detectors m1) u v l1 <> []) by (intros H; apply N1 in H; congruence).
  destruct (D1 Hsame Hne) as (p & f & F1 & Q1 & _).
  destruct D2 as (p' & f' & F2 & Q2 & _).
  { intros a b Ha Hb. apply Hsame; eapply Permutation_in; [symmetry; exact HPe| |symmetry; exact HPe|]; assumption. }
  { intros H. apply N2 in H. congruence. }
  rewrite A1 in F1. rewrite A2 in F2. injection F1 as _ _ ->. injection F2 as _ _ ->.
  rewrite Q1, Q2. apply prob_odd_perm, Permutation_map, HPe.
Qed.
Print Assumptions C34_order_irrelevant.

(** A model with an error of more than two symptoms is rejected. *)
Theorem C34_rejected : forall m : dmodel,
  let l := reports (unrolled m) in
  small_args (unrolled m) -> uncertain l -> ~ graphlike l ->
  detector_error_model_to_nx_graph m = Err NotImplementedError.
Proof.
  intros m l Hs Hu Hn. unfold detector_error_model_to_nx_graph. rewrite C33_flatten by assumption. fold l.
  assert (H : exists a p d f b, l = a ++ EError p d f :: b /\ graphlike a /\ ~ (p == 0)%Q /\ (2 < length d)%nat).
  { clear Hs Hu. clearbody l. induction l as [|e l IH]; [exfalso; apply Hn; intros p d f []|].
    assert (D : graphlike [e] \/ exists p d f, e = EError p d f /\ ~ (p == 0)%Q /\ (2 < length d)%nat).
    { destruct e as [p d f|]; [|left; intros p d f [|[]]; discriminate].
      destruct (Qeq_dec p 0) as [E|E]; [left; intros p0 d0 f0 [[= <- <- <-]|[]]; intros HH; contradiction|].
      destruct (le_lt_dec (length d) 2); [left; intros p0 d0 f0 [[= <- <- <-]|[]]; intros HH; assumption|].
      right. exists p, d, f. auto. }
    destruct D as [D|(p & d & f & -> & H1 & H2)].
    - assert (Hg' : ~ graphlike l).
      { intros Hg. apply Hn. intros p d f [H|H]; [eapply D; left; exact H|eapply Hg; exact H]. }
      destruct (IH Hg') as (a & p & d & f & b & -> & Ga & H).
      exists (e :: a), p, d, f, b. split; [reflexivity|]. split; [|exact H].
      intros p' d' f' [H'|H']; [eapply D; left; exact H'|eapply Ga; exact H'].
    - exists [], p, d, f, l. repeat split; auto. intros p' d' f' []. }
  destruct H as (a & p & d & f & b & E & Ga & Hp & Hd). rewrite E, foldM_app.
  destruct (foldM_tracks (num_detectors m) a [] (mkG [(num_detectors m, mkN true (Some [-1; -1; -1]%Q))] [])) as (g & -> & _).
  { intros u v. reflexivity. } { intros p0 d0 f0 H. eapply Hu. rewrite E. apply in_or_app. left. exact H. } { exact Ga. }
  cbn [bind foldM graph_handler]. unfold handle_error.
  destruct (Qeq_bool p 0) eqn:E0; [apply Qeq_bool_eq in E0; contradiction|].
  destruct d as [|d1 [|d2 [|d3 d]]]; simpl in Hd; try lia. reflexivity.
Qed.
Print Assumptions C34_rejected.

Definition ex_graph_model : dmodel :=
  [ DError (1#10) [DDet 0; DDet 1; DObs 0]; DError 0 [DDet 0; DDet 1; DDet 2]; DError (1#5) [DObs 0];
    DError (1#5) [DDet 1; DDet 0; DObs 0; DSep; DDet 2]; DError (1#2) [DDet 2; DObs 1] ].
Lemma ex_graph_hyps : small_args (unrolled ex_graph_model) /\ uncertain (reports (unrolled ex_graph_model)) /\ graphlike (reports (unrolled ex_graph_model)).
Proof.
  split; [|split].
  - intros x Hx. simpl in Hx. repeat (destruct Hx as [<-|Hx]; [exact Logic.I|]). destruct Hx.
  - intros p d f Hx. simpl in Hx. repeat (destruct Hx as [[= <- <- <-]|Hx]; [split; [discriminate|reflexivity]|]). destruct Hx.
  - intros p d f Hx Hp. simpl in Hx. repeat (destruct Hx as [[= <- <- <-]|Hx]; [simpl; try lia; exfalso; apply Hp; reflexivity|]). destruct Hx.
Qed.
Example C34_example :
  errors_on 3 0 1 (reports (unrolled ex_graph_model)) = [((1#10)%Q, [0%nat]); ((1#5)%Q, [0%nat])] /\
  num_detectors ex_graph_model = 3%nat /\
  match detector_error_model_to_nx_graph ex_graph_model with
  | Ok g => option_map e_prob (edge_data g 1 0) = Some (Some (650#2500)%Q) /\ edge_data g 1 2 = None /\
            option_map e_qubit_id (edge_data g 3 2) = Some (Some [1%nat])
  | Err _ => False
  end.
Proof. repeat split; vm_compute; reflexivity. Qed.

(** A certain error (p = 1) that is the first on its pair makes the code take the
    logarithm of zero: acceptance then depends on the order of the errors. *)
Example C34_certain_error :
  detector_error_model_to_nx_graph [DError 1 [DDet 0]; DError (1#2) [DDet 0]] = Err ValueError /\
  is_ok (detector_error_model_to_nx_graph [DError (1#2) [DDet 0]; DError 1 [DDet 0]]) = true.
Proof. split; vm_compute; reflexivity. Qed.

(** ** C35 *)
(** What the code does when the frame changes differ: the last block of errors with equal
    frame changes decides, everything before it is forgotten. *)
Theorem C35_last_wins : forall (m : dmodel) u v run,
  let l := reports (unrolled m) in
  small_args (unrolled m) -> uncertain l -> graphlike l ->
  last_run (errors_on (num_detectors m) u v l) run ->
  exists g p f, detector_error_model_to_nx_graph m = Ok g /\
    edge_data g u v = Some (mkE (LogOdds ((1 - p) / p)) (Some f) (Some p)) /\
    (p == prob_odd (map fst run))%Q /\ forall r, In r run -> frames_eq (snd r) f.
Proof.
  intros m u v run l Hs Hu Hg Hr. destruct (nx_tracks m Hs Hu Hg) as (g & Eg & Ht).
  destruct (ehist_last_run _ _ Hr) as (q & f & E & E1 & E2).
  specialize (Ht u v). fold l in Ht. rewrite E in Ht. exists g, q, f. auto.
Qed.
Print Assumptions C35_last_wins.

(** The comment's claim is false: the second of two errors replaces the first. *)
Theorem C35_keeps_first_refuted : exists (m : dmodel) p1 f1 p2 f2,
  let l := reports (unrolled m) in
  small_args (unrolled m) /\ uncertain l /\ graphlike l /\
  errors_on (num_detectors m) 0 1 l = [(p1, f1); (p2, f2)] /\ ~ frames_eq f1 f2 /\ ~ (p1 == p2)%Q /\
  exists g, detector_error_model_to_nx_graph m = Ok g /\
    option_map e_qubit_id (edge_data g 0 1) = Some (Some f2) /\ option_map e_prob (edge_data g 0 1) = Some (Some p2).
Proof.
  exists [DError (1#10) [DDet 0; DDet 1; DObs 0]; DError (1#5) [DDet 0; DDet 1]], (1#10)%Q, [0%nat], (1#5)%Q, [].
  split; [|split; [|split; [|split; [|split; [|split]]]]].
  - intros x Hx. simpl in Hx. repeat (destruct Hx as [<-|Hx]; [exact Logic.I|]). destruct Hx.
  - intros p d f Hx. simpl in Hx. repeat (destruct Hx as [[= <- <- <-]|Hx]; [split; [discriminate|reflexivity]|]). destruct Hx.
  - intros p d f Hx Hp. simpl in Hx. repeat (destruct Hx as [[= <- <- <-]|Hx]; [simpl; lia|]). destruct Hx.
  - vm_compute. reflexivity.
  - intros H. apply (H 0%nat). now left.
  - discriminate.
  - eexists. split; [vm_compute; reflexivity|]. split; vm_compute; reflexivity.
Qed.
Print Assumptions C35_keeps_first_refuted.

(** ** C36 *)
Definition dets_of (e : event) : list nat := match e with EError _ d _ => d | ECoords d _ => [d] end.

Lemma count_unroll x : forall st, count_item x st = fold_left (fun st y => count_item y st) (unroll x) st.
Proof.
  induction x as [p ts|a k|a ids|ids|n b IH] using ditem_ind'; intros st; try reflexivity.
  assert (Hb : forall st, fold_left (fun st y => count_item y st) b st = fold_left (fun st y => count_item y st) (flat_map unroll b) st).
  { induction b as [|y b IHb]; intros st'; simpl; [reflexivity|]. rewrite fold_left_app, <- IH by now left.
    apply IHb. intros z Hz. apply IH. now right. }
  destruct st as [m off]. cbn [count_item unroll]. generalize (m, off). clear m off.
  induction n as [|n IHn]; intros st; [reflexivity|].
  change (concat (repeat (flat_map unroll b) (S n))) with (flat_map unroll b ++ concat (repeat (flat_map unroll b) n)).
  rewrite fold_left_app, <- Hb, <- IHn.
  clear. revert st. induction n as [|n IHn]; intros st; [reflexivity|].
  change (Nat.iter (S (S n)) ?f st) with (f (Nat.iter (S n) f st)). rewrite IHn. reflexivity.
Qed.

Lemma above_le k l : In k l -> (k < above l)%nat.
Proof. induction l as [|x l IH]; [intros []|]. change (above (x :: l)) with (Nat.max (S x) (above l)). intros [->|H]; [lia|]. apply IH in H. lia. Qed.

Definition flat (x : ditem) : Prop := match x with DRepeat _ _ => False | _ => True end.
Lemma unroll_flat x : forall y, In y (unroll x) -> flat y.
Proof.
  induction x as [p ts|a k|a ids|ids|n b IH] using ditem_ind'; intros y; simpl; try (intros [<-|[]]; exact Logic.I).
  intros (c & Hc & Hy)%in_concat. apply repeat_spec in Hc. subst c. apply in_flat_map in Hy as (z & Hz & Hy). eauto.
Qed.
Lemma components_dets ts c k : In c (components ts) -> In k (det_ids c) -> In k (det_ids ts).
Proof.
  revert c. induction ts as [|t ts IH]; intros c; simpl.
  - intros [<-|[]] [].
  - destruct t as [j|j|].
    + destruct (components ts) as [|c0 cs]; [intros []|]. intros [<-|H] Hk; simpl in *; [destruct Hk as [->|Hk]; [now left|right; eapply IH; eauto]|right; eapply IH; eauto].
    + destruct (components ts) as [|c0 cs]; [intros []|]. intros [<-|H] Hk; simpl in *; eapply IH; eauto.
    + intros [<-|H] Hk; [destruct Hk|eauto].
Qed.
Lemma count_flat_mono l : (forall x, In x l -> flat x) -> forall st, (fst st <= fst (fold_left (fun st y => count_item y st) l st))%nat.
Proof.
  induction l as [|x l IH]; intros Hf [m off]; simpl; [lia|].
  etransitivity; [|apply IH; intros; apply Hf; now right].
  specialize (Hf x (or_introl eq_refl)). destruct x; simpl in *; try lia; destruct Hf.
Qed.
Lemma after_ids l : (forall x, In x l -> flat x) -> forall pre m e k, In e (after pre l) -> In k (dets_of e) ->
  (k < fst (fold_left (fun st y => count_item y st) l (m, total_shift pre)))%nat.
Proof.
  induction l as [|x l IH]; intros Hf pre m e k He Hk; [destruct He|].
  cbn [after] in He. apply in_app_or in He.
  assert (Hfl : forall y, In y l -> flat y) by (intros; apply Hf; now right).
  cbn [fold_left]. destruct He as [He|He].
  - eapply Nat.lt_le_trans; [|apply count_flat_mono; exact Hfl].
    specialize (Hf x (or_introl eq_refl)). destruct x as [p ts|a j|a ids|ids|n b]; simpl in He; try destruct He; try destruct Hf.
    + apply in_map_iff in He as (c & <- & Hc). simpl in Hk. apply in_map_iff in Hk as (i & <- & Hi).
      cbn [count_item fst]. enough (i + total_shift pre < above (map (fun k => (k + total_shift pre)%nat) (det_ids ts)))%nat by lia.
      apply above_le. apply (in_map (fun k => (k + total_shift pre)%nat)). eapply components_dets; eauto.
    + apply in_map_iff in He as (i & <- & Hi). destruct Hk as [<-|[]].
      cbn [count_item fst]. enough (i + total_shift pre < above (map (fun k => (k + total_shift pre)%nat) ids))%nat by lia.
      apply above_le. apply (in_map (fun k => (k + total_shift pre)%nat)). exact Hi.
  - specialize (IH Hfl (pre ++ [x])). 
    assert (E : exists m', count_item x (m, total_shift pre) = (m', total_shift (pre ++ [x]))).
    { rewrite total_shift_app. specialize (Hf x (or_introl eq_refl)). destruct x; simpl; try (eexists; f_equal; lia). destruct Hf. }
    destruct E as (m' & ->). eapply IH; eauto.
Qed.
(** Reported detector ids are below num_detectors. *)
Lemma reports_ids m e k : In e (reports (unrolled m)) -> In k (dets_of e) -> (k < num_detectors m)%nat.
Proof.
  rewrite reports_after. intros He Hk. unfold num_detectors. rewrite count_unroll.
  assert (U : unroll (DRepeat 1 m) = unrolled m) by (simpl; apply app_nil_r). rewrite U.
  apply (after_ids (unrolled m)) with (pre := []) (e := e); auto.
  intros x Hx. apply in_flat_map in Hx as (y & _ & Hx). eapply unroll_flat; eauto.
Qed.

(** nodes and edges of the graph stay at or below the boundary *)
Definition below (n : nat) (g : graph) : Prop :=
  (forall k, node_data g k <> None -> (k <= n)%nat) /\ (forall u v, edge_data g u v <> None -> (u <= n)%nat /\ (v <= n)%nat).
Lemma below_touch n u g : (u <= n)%nat -> below n g -> below n (touch_node u g).
Proof.
  intros Hu [H1 H2]. split.
  - intros k. rewrite node_touch. destruct (Nat.eqb_spec k u); [lia|apply H1].
  - intros x y. rewrite edge_touch. apply H2.
Qed.
Lemma add_edge_nodes u v w q p g : g_nodes (add_edge u v w q p g) = g_nodes (touch_node v (touch_node u g)).
Proof. reflexivity. Qed.
Lemma below_add n u v w q p g : (u <= n)%nat -> (v <= n)%nat -> below n g -> below n (add_edge u v w q p g).
Proof.
  intros Hu Hv Hb. split.
  - intros k. unfold node_data. rewrite add_edge_nodes. apply (below_touch n v _ Hv (below_touch n u _ Hu Hb)).
  - intros x y. rewrite edge_add. destruct (pair_eqb x y u v) eqn:E; [|apply Hb]. intros _.
    unfold pair_eqb in E. rewrite orb_true_iff, !andb_true_iff, !Nat.eqb_eq in E. lia.
Qed.
Lemma below_handler n g e g' : below n g -> (forall k, In k (dets_of e) -> (k <= n)%nat) -> graph_handler n g e = Ok g' -> below n g'.
Proof.
  intros Hb Hk. destruct e as [p d f|k c]; simpl.
  - unfold handle_error. destruct (Qeq_bool p 0); [intros [= <-]; exact Hb|].
    assert (G : forall u v, (u <= n)%nat -> (v <= n)%nat ->
      (let! (p, g) :=
      match edge_data g u v with
      | None => Ok (p, g)
      | Some a =>
          let! old_p := match e_prob a with Some q => Ok q | None => Err KeyError end in
          let! old_frames := match e_qubit_id a with Some l => Ok l | None => Err KeyError end in
          if same_set old_frames f then Ok ((p * (1 - old_p) + old_p * (1 - p))%Q, remove_edge u v g) else Ok (p, g)
      end in
      let! w := log_odds p in Ok (add_edge u v w (Some f) (Some p) g)) = Ok g' -> below n g').
    { intros u v Hu Hv.
      assert (Hr : below n (remove_edge u v g)).
      { split; [apply Hb|]. intros x y. rewrite edge_remove. destruct (pair_eqb x y u v); [congruence|apply Hb]. }
      destruct (edge_data g u v) as [a|]; cbn [bind].
      - destruct (e_prob a); cbn [bind]; [|discriminate]. destruct (e_qubit_id a); cbn [bind]; [|discriminate].
        destruct (same_set l f); cbn [bind]; destruct (log_odds _); cbn [bind]; try discriminate; intros [= <-]; apply below_add; auto.
      - destruct (log_odds _); cbn [bind]; try discriminate; intros [= <-]; apply below_add; auto. }
    destruct d as [|a [|b [|c d]]]; cbn [bind]; [intros [= <-]; exact Hb| | |discriminate].
    + apply G; [apply Hk; now left|lia].
    + apply G; apply Hk; simpl; auto.
  - intros [= <-]. specialize (Hk k (or_introl eq_refl)). split; [|apply Hb].
    intros j. unfold node_data, add_coords. cbn [g_nodes]. rewrite (assoc_put _ Nat.eqb_eq). destruct (Nat.eqb_spec j k); [lia|apply Hb].
Qed.
Lemma below_fold n l : forall g g', below n g -> (forall e k, In e l -> In k (dets_of e) -> (k <= n)%nat) -> foldM (graph_handler n) l g = Ok g' -> below n g'.
Proof.
  induction l as [|e l IH]; intros g g' Hb Hk; simpl; [intros [= <-]; exact Hb|].
  destruct (graph_handler n g e) as [g1|] eqn:E; [|discriminate]. apply IH.
  - eapply below_handler; eauto. intros k. apply Hk. now left.
  - intros e' k He'. apply Hk. now right.
Qed.

(** Specification: two nodes joined by an edge; walks. *)
Definition adjacent (g : graph) (u v : nat) : Prop := edge_data g u v <> None.
Inductive walk (g : graph) : nat -> nat -> Prop :=
| walk_nil u : walk g u u
| walk_cons u v w : adjacent g u v -> walk g v w -> walk g u w.
Definition nodes (g : graph) (k : nat) : Prop := node_data g k <> None.

Lemma fold_touch ks : forall g, 
  (forall x y, edge_data (fold_left (fun g k => touch_node k g) ks g) x y = edge_data g x y) /\
  (forall k, nodes (fold_left (fun g k => touch_node k g) ks g) k <-> nodes g k \/ In k ks) /\
  (forall k a, node_data g k = Some a -> node_data (fold_left (fun g k => touch_node k g) ks g) k = Some a).
Proof.
  induction ks as [|k0 ks IH]; intros g; simpl; [repeat split; auto; intros [H|[]]; exact H|].
  destruct (IH (touch_node k0 g)) as (I1 & I2 & I3). split; [|split].
  - intros x y. rewrite I1. apply edge_touch.
  - intros k. rewrite I2. unfold nodes. rewrite node_touch. destruct (Nat.eqb_spec k k0) as [->|Hne].
    + split; auto. intros _. left. discriminate.
    + split; [intros [H|H]; auto|intros [H|[H|H]]; auto; congruence].
  - intros k a H. apply I3. rewrite node_touch. destruct (Nat.eqb_spec k k0) as [->|]; [now rewrite H|exact H].
Qed.
Lemma nodes_add u v w q p g k : nodes (add_edge u v w q p g) k <-> nodes g k \/ k = u \/ k = v.
Proof.
  unfold nodes, node_data. rewrite add_edge_nodes. fold (node_data (touch_node v (touch_node u g)) k). fold (node_data g k).
  rewrite !node_touch. destruct (Nat.eqb_spec k v) as [->|]; [split; auto; discriminate|].
  destruct (Nat.eqb_spec k u) as [->|]; [split; auto; discriminate|]. split; auto. intros [H|[H|H]]; auto; contradiction.
Qed.
Lemma node_add_keep u v w q p g k a : node_data g k = Some a -> node_data (add_edge u v w q p g) k = Some a.
Proof.
  intros H. unfold node_data. rewrite add_edge_nodes. fold (node_data (touch_node v (touch_node u g)) k).
  destruct (fold_touch [u; v] g) as (_ & _ & F). exact (F k a H).
Qed.
Lemma fold_spandrels z ks : ~ In z ks -> forall g,
  let h := fold_left (fun g k => add_edge k z Huge None None g) ks g in
  (forall k, nodes h k <-> nodes g k \/ In k ks \/ (k = z /\ ks <> [])) /\
  (forall k a, node_data g k = Some a -> node_data h k = Some a) /\
  (forall x y, x <> z -> y <> z -> edge_data h x y = edge_data g x y) /\
  (forall k, In k ks -> adjacent h k z) /\
  (forall x y, adjacent g x y -> adjacent h x y) /\
  (forall x y, (exists a, edge_data h x y = Some a /\ e_weight a <> Huge) -> edge_data h x y = edge_data g x y).
Proof.
  induction ks as [|k0 ks IH]; intros Hz g; simpl.
  - repeat split; auto; tauto.
  - assert (Hz0 : k0 <> z) by (intros ->; apply Hz; now left).
    assert (Hz1 : ~ In z ks) by (intros H; apply Hz; now right).
    set (g1 := add_edge k0 z Huge None None g). destruct (IH Hz1 g1) as (I1 & I2 & I3 & I4 & I5 & I6).
    assert (E1 : forall x y, pair_eqb x y k0 z = false -> edge_data g1 x y = edge_data g x y).
    { intros x y E. unfold g1. rewrite edge_add, E. reflexivity. }
    assert (A1 : adjacent g1 k0 z).
    { unfold adjacent, g1. rewrite edge_add. unfold pair_eqb. rewrite !Nat.eqb_refl. discriminate. }
    split; [|split; [|split; [|split; [|split]]]].
    + intros k. rewrite I1. unfold g1. rewrite nodes_add. split.
      * intros [[H|[H|H]]|[H|[H1 H2]]]; auto. right. right. split; [exact H|discriminate]. right. right. split; [exact H1|discriminate].
      * intros [H|[[H|H]|[H _]]]; auto.
    + intros k a H. apply I2. apply node_add_keep, H.
    + intros x y Hx Hy. rewrite I3 by assumption. apply E1. unfold pair_eqb.
      apply Nat.eqb_neq in Hx, Hy. now rewrite Hx, Hy, !andb_false_r.
    + intros k [<-|Hk]; [apply I5, A1|apply I4, Hk].
    + intros x y H. apply I5. unfold adjacent, g1 in *. rewrite edge_add. destruct (pair_eqb x y k0 z); [discriminate|exact H].
    + intros x y (a & Ha & Hw). rewrite I6 by eauto. unfold g1. rewrite edge_add.
      destruct (pair_eqb x y k0 z) eqn:E; [|reflexivity]. exfalso. apply Hw.
      rewrite I6 in Ha by eauto. unfold g1 in Ha. rewrite edge_add, E in Ha. injection Ha as <-. reflexivity.
Qed.

Lemma walk_app g u v w : walk g u v -> walk g v w -> walk g u w.
Proof. induction 1; auto. intros. econstructor; eauto. Qed.
Lemma adjacent_sym g u v : adjacent g u v -> adjacent g v u.
Proof.
  unfold adjacent, edge_data. replace (ekey v u) with (ekey u v); auto.
  apply eqk_spec. rewrite ekey_pair. unfold pair_eqb. rewrite !Nat.eqb_refl. now rewrite orb_true_r.
Qed.
Lemma walk_sym g u v : walk g u v -> walk g v u.
Proof.
  induction 1 as [|u v w Ha Hw IH]; [constructor|].
  eapply walk_app; [exact IH|]. econstructor; [apply adjacent_sym, Ha|constructor].
Qed.

(** The graph given to pymatching: nodes 0..num_detectors+1, connected, with every edge
    and node attribute of the plain graph, every observable on some edge, and no edges
    with a finite weight added. *)
Theorem C36_pymatching_graph : forall (m : dmodel) g,
  small_args (unrolled m) -> detector_error_model_to_nx_graph m = Ok g ->
  exists h, detector_error_model_to_pymatching_graph m = Ok h /\
    (forall k, nodes h k <-> (k <= num_detectors m + 1)%nat) /\
    (forall u v, nodes h u -> nodes h v -> walk h u v) /\
    (forall k a, node_data g k = Some a -> node_data h k = Some a) /\
    (forall u v a, edge_data g u v = Some a -> edge_data h u v = Some a) /\
    (forall u v a, edge_data h u v = Some a -> edge_data g u v = Some a \/ e_weight a = Huge) /\
    (forall o, (o < num_observables m)%nat -> exists u v a ids, edge_data h u v = Some a /\ e_qubit_id a = Some ids /\ In o ids).
Proof.
  intros m g Hs Eg. unfold detector_error_model_to_pymatching_graph. rewrite Eg. cbn [bind].
  assert (Hb : below (num_detectors m) g).
  { unfold detector_error_model_to_nx_graph in Eg. rewrite C33_flatten in Eg by assumption.
    eapply below_fold; [| |exact Eg].
    - split.
      + intros k. unfold node_data. cbn [g_nodes assoc]. destruct (Nat.eqb_spec k (num_detectors m)); [lia|congruence].
      + intros u v H. exfalso. apply H. reflexivity.
    - intros e k He Hk. pose proof (reports_ids m e k He Hk). lia. }
  set (n := num_detectors m) in *. 
  set (g1 := fold_left (fun g k => touch_node k g) (seq 0 n) g).
  destruct (fold_touch (seq 0 n) g) as (T1 & T2 & T3). fold g1 in T1, T2, T3.
  set (g2 := touch_node (n + 1) g1).
  set (g3 := fold_left (fun g k => add_edge k (n + 1)%nat Huge None None g) (seq 0 (n + 1)) g2).
  destruct (fold_spandrels (n + 1) (seq 0 (n + 1))) with (g := g2) as (S1 & S2 & S3 & S4 & S5 & S6).
  { rewrite in_seq. lia. }
  fold g3 in S1, S2, S3, S4, S5, S6.
  set (h := add_edge n (n + 1) Huge (Some (seq 0 (num_observables m))) None g3).
  exists h. split; [reflexivity|].
  assert (E2 : forall x y, edge_data g2 x y = edge_data g x y) by (intros; unfold g2; rewrite edge_touch; apply T1).
  assert (Hn : forall k, nodes h k <-> (k <= n + 1)%nat).
  { intros k. unfold h. rewrite nodes_add, S1, in_seq. 
    assert (N2 : nodes g2 k -> (k <= n + 1)%nat).
    { unfold nodes, g2. rewrite node_touch. destruct (Nat.eqb_spec k (n + 1)); [lia|].
      intros H. apply (proj1 (T2 k)) in H. destruct H as [H|H]; [apply Hb in H; lia|apply in_seq in H; lia]. }
    split; [intros [[H|[H|[H _]]]|H]; [auto|lia..]|].
    intros H. destruct (Nat.eq_dec k (n + 1)); [auto|]. left. right. left. lia. }
  assert (Hz : forall k, (k <= n + 1)%nat -> walk h k (n + 1)%nat).
  { intros k Hk. destruct (Nat.eq_dec k (n + 1)) as [->|]; [constructor|].
    econstructor; [|constructor]. unfold adjacent, h. rewrite edge_add. destruct (pair_eqb _ _ _ _); [discriminate|].
    apply S4. apply in_seq. lia. }
  split; [exact Hn|]. split; [|split; [|split; [|split]]].
  - intros u v Hu%Hn Hv%Hn. apply (walk_app h u (n + 1)%nat v); [apply Hz, Hu|].
    apply walk_sym, Hz, Hv.
  - intros k a H. apply node_add_keep, S2. unfold g2. rewrite node_touch. rewrite (T3 k a H).
    destruct (Nat.eqb_spec k (n + 1)) as [->|]; [|reflexivity].
    exfalso. assert (n + 1 <= n)%nat by (apply Hb; rewrite H; discriminate). lia.
  - intros u v a H. assert (Huv : (u <= n)%nat /\ (v <= n)%nat) by (apply Hb; rewrite H; discriminate).
    unfold h. rewrite edge_add. 
    replace (pair_eqb u v n (n + 1)) with false by (unfold pair_eqb; symmetry; rewrite (proj2 (Nat.eqb_neq u (n + 1))), (proj2 (Nat.eqb_neq v (n + 1))) by lia; now rewrite andb_false_r).
    rewrite S3 by lia. rewrite E2. exact H.
  - intros u v a. unfold h. rewrite edge_add. destruct (pair_eqb u v n (n + 1)); [intros [= <-]; right; reflexivity|].
    intros H. assert (D : e_weight a = Huge \/ e_weight a <> Huge) by (destruct (e_weight a); [right; discriminate|left; reflexivity]).
    destruct D as [D|D]; [right; exact D|]. left. rewrite S6 in H by eauto. rewrite E2 in H. exact H.
  - intros o Ho. exists n, (n + 1)%nat. unfold h. rewrite edge_add. unfold pair_eqb. rewrite !Nat.eqb_refl. cbn [andb orb].
    eexists _, _. split; [reflexivity|]. split; [reflexivity|]. apply in_seq. lia.
Qed.
Print Assumptions C36_pymatching_graph.

Example C36_example :
  match detector_error_model_to_pymatching_graph ex_graph_model with
  | Ok h => map fst (g_nodes h) = [3; 0; 1; 2; 4]%nat /\ num_observables ex_graph_model = 2%nat /\
            option_map e_qubit_id (edge_data h 4 3) = Some (Some [0; 1]%nat) /\ length (g_edges h) = 6%nat
  | Err _ => False
  end.
Proof. repeat split; vm_compute; reflexivity. Qed.

(** ** C37 *)
(** Specification: the k-th shot is right when the prediction equals the observable part
    of the sample. *)
Definition right_shots (num_dets : nat) (samples predictions : list (list bool)) (k : nat) : Prop :=
  exists s p, nth_error samples k = Some s /\ nth_error predictions k = Some p /\ p = skipn num_dets s.

Lemma bits_eqb_spec a b : bits_eqb a b = true <-> a = b.
Proof.
  unfold bits_eqb. revert b. induction a as [|x a IH]; intros [|y b]; simpl; try (split; [discriminate|discriminate]); [tauto|].
  specialize (IH b). rewrite andb_true_iff in IH. rewrite !andb_true_iff. destruct IH as [I1 I2]. split.
  - intros (H1 & H2 & H3). apply eqb_prop in H2. f_equal; auto.
  - intros [= -> ->]. destruct (I2 eq_refl). rewrite eqb_reflx. auto.
Qed.

Lemma count_filter l : forall m, count_true l = length (filter (fun k => nth (k - m) l false) (seq m (length l))).
Proof.
  unfold count_true. induction l as [|b l IH]; intros m; [reflexivity|]. cbn [length seq filter]. rewrite Nat.sub_diag. change (nth 0 (b :: l) false) with b.
  assert (E : filter (fun k => nth (k - m) (b :: l) false) (seq (S m) (length l)) = filter (fun k => nth (k - S m) l false) (seq (S m) (length l))).
  { apply filter_ext_in. intros k Hk%in_seq. replace (k - m)%nat with (S (k - S m)) by lia. reflexivity. }
  rewrite E. destruct b; simpl; now rewrite (IH (S m)).
Qed.

(** The returned number counts the right shots; the decoder was given exactly the detector
    columns, and the flags its name stands for. *)
Theorem C37_counts : forall num_dets num_obs model_counts sample pymatching internal num_shots decoder samples predictions,
  (model_counts = None \/ model_counts = Some (num_dets, num_obs)) ->
  sample num_shots = Ok samples -> rect samples -> a_cols samples = (num_dets + num_obs)%nat -> length (a_rows samples) = num_shots ->
  let det_samples := mkA (map (firstn num_dets) (a_rows samples)) num_dets in
  (decoder = "pymatching"%string /\ pymatching det_samples false = Ok predictions \/
   decoder = "internal"%string /\ internal det_samples false = Ok predictions \/
   decoder = "internal_correlated"%string /\ internal det_samples true = Ok predictions) ->
  length (a_rows predictions) = num_shots -> a_cols predictions = num_obs ->
  exists c right,
    sample_decode_count_correct num_dets num_obs model_counts sample pymatching internal num_shots decoder = Ok c /\
    c = length right /\ NoDup right /\ (c <= num_shots)%nat /\
    forall k, In k right <-> right_shots num_dets (a_rows samples) (a_rows predictions) k.
Proof.
  intros nd no mc sample pm int ns dec [rows cols] [prows pcols] Hmc Es Hrect Hcols Hlen ds Hdec Hpl Hpc.
  simpl in Hcols, Hlen, Hpl, Hpc. subst cols pcols ns.
  assert (Eds : (if (no =? 0)%nat then mkA rows (nd + no) else mkA (map (drop_last no) rows) (nd + no - no)) = ds).
  { destruct (Nat.eqb_spec no 0) as [->|Hno]; unfold ds; simpl.
    - rewrite Nat.add_0_r. f_equal. symmetry. rewrite <- (map_id rows) at 2. apply map_ext_in. intros r Hr. apply firstn_all2. rewrite (Hrect r Hr). simpl. lia.
    - f_equal; [|lia]. apply map_ext_in. intros r Hr. unfold drop_last. rewrite (Hrect r Hr). simpl. f_equal. lia. }
  assert (Eos : (if (no =? 0)%nat then mkA (map (fun _ => []) rows) 0 else mkA (map (take_last no) rows) (Nat.min no (nd + no))) = mkA (map (skipn nd) rows) no).
  { destruct (Nat.eqb_spec no 0) as [->|Hno].
    - f_equal. apply map_ext_in. intros r Hr. symmetry. apply skipn_all2. rewrite (Hrect r Hr). simpl. lia.
    - f_equal; [|lia]. apply map_ext_in. intros r Hr. unfold take_last. rewrite (Hrect r Hr). simpl. f_equal. lia. }
  set (flags := map (fun '(p, o) => bits_eqb p o) (combine prows (map (skipn nd) rows))).
  assert (Hfl : length flags = length rows) by (unfold flags; rewrite map_length, combine_length, map_length; lia).
  exists (count_true flags), (filter (fun k => nth (k - 0) flags false) (seq 0 (length flags))).
  split.
  - unfold sample_decode_count_correct.
    assert (Tail : forall (ui co : bool), (if ui then int else pm) ds co = Ok (mkA prows no) ->
      (let! _ := match mc with
            | None => Ok tt
            | Some (d, o) => let! _ := assert_ (d =? nd)%nat in assert_ (o =? no)%nat
            end in
  let! samples := sample (length rows) in
  let det_samples := if (no =? 0)%nat then samples else mkA (map (drop_last no) (a_rows samples)) (a_cols samples - no) in
  let obs_samples := if (no =? 0)%nat then mkA (map (fun _ => []) (a_rows samples)) 0
                     else mkA (map (take_last no) (a_rows samples)) (Nat.min no (a_cols samples)) in
  let! _ := assert_ (length (a_rows obs_samples) =? length (a_rows det_samples))%nat in
  let! _ := assert_ (a_cols obs_samples =? no)%nat in
  let! _ := assert_ (a_cols det_samples =? nd)%nat in
  let! predictions := (if ui then int else pm) det_samples co in
  let! _ := assert_ ((length (a_rows predictions) =? length (a_rows obs_samples))%nat && (a_cols predictions =? a_cols obs_samples)%nat) in
  Ok (count_true (map (fun '(p, o) => bits_eqb p o) (combine (a_rows predictions) (a_rows obs_samples))))) = Ok (count_true flags)).
    { intros ui co Hd.
      assert (Em : match mc with None => Ok tt | Some (d, o) => let! _ := assert_ (d =? nd)%nat in assert_ (o =? no)%nat end = Ok tt).
      { destruct Hmc as [->| ->]; [reflexivity|]. now rewrite !Nat.eqb_refl. }
      rewrite Em, Es. cbn [bind a_rows a_cols]. cbv zeta. rewrite Eds, Eos. cbn [a_rows a_cols]. unfold ds at 1 2. cbn [a_rows a_cols].
      rewrite !map_length, !Nat.eqb_refl. cbn [bind assert_]. rewrite Hd. cbn [bind a_rows a_cols].
      rewrite Hpl, !Nat.eqb_refl. reflexivity. }
    destruct Hdec as [[-> Hd]|[[-> Hd]|[-> Hd]]]; simpl (String.eqb _ _); cbn [bind]; cbv beta iota.
    + exact (Tail false false Hd).
    + exact (Tail true false Hd).
    + exact (Tail true true Hd).
  - rewrite <- count_filter. split; [reflexivity|]. split; [apply NoDup_filter, seq_NoDup|]. split.
    + rewrite <- Hfl. unfold count_true. clear. induction flags as [|[] l IH]; simpl; lia.
    + intros k. rewrite filter_In, in_seq, Nat.sub_0_r. unfold right_shots. cbn [a_rows].
      assert (D : forall s p, nth_error rows k = Some s -> nth_error prows k = Some p -> nth k flags false = bits_eqb p (skipn nd s)).
      { unfold flags. clear. revert prows k. induction rows as [|r rows IH]; intros [|p0 prows] [|k] s p; simpl; try discriminate.
        - intros [= ->] [= ->]. reflexivity.
        - apply IH. }
      split.
      * intros [[_ Hk] Hn]. destruct (nth_error rows k) as [s|] eqn:E1; [|apply nth_error_None in E1; lia].
        destruct (nth_error prows k) as [p|] eqn:E2; [|apply nth_error_None in E2; lia].
        exists s, p. split; [reflexivity|]. split; [reflexivity|]. rewrite (D s p) in Hn by reflexivity. apply bits_eqb_spec, Hn.
      * intros (s & p & E1 & E2 & Hp). split.
        -- split; [lia|]. rewrite Hfl. simpl. apply nth_error_Some. congruence.
        -- rewrite (D s p E1 E2). apply bits_eqb_spec, Hp.
Qed.
Print Assumptions C37_counts.

(** Unknown names are rejected whatever the sampler does. *)
Theorem C37_unknown_decoder : forall num_dets num_obs model_counts sample pymatching internal num_shots decoder,
  ~ In decoder ["pymatching"; "internal"; "internal_correlated"]%string ->
  sample_decode_count_correct num_dets num_obs model_counts sample pymatching internal num_shots decoder = Err NotImplementedError.
Proof.
  intros nd no mc sample pm int ns dec H. unfold sample_decode_count_correct.
  destruct (String.eqb_spec dec "pymatching") as [->|]; [exfalso; apply H; simpl; auto|].
  destruct (String.eqb_spec dec "internal") as [->|]; [exfalso; apply H; simpl; auto|].
  destruct (String.eqb_spec dec "internal_correlated") as [->|]; [exfalso; apply H; simpl; auto|]. reflexivity.
Qed.
Print Assumptions C37_unknown_decoder.

(** Predictions of another shape are rejected. *)
Theorem C37_shape : forall num_dets num_obs model_counts sample pymatching internal num_shots decoder samples c,
  sample num_shots = Ok samples ->
  sample_decode_count_correct num_dets num_obs model_counts sample pymatching internal num_shots decoder = Ok c ->
  a_cols samples = (num_dets + num_obs)%nat /\
  exists f d predictions, In f [pymatching; internal] /\ f d (decoder =? "internal_correlated")%string = Ok predictions /\
    length (a_rows predictions) = length (a_rows samples) /\ a_cols predictions = num_obs.
Proof.
  intros nd no mc sample pm int ns dec samples c Es. unfold sample_decode_count_correct.
  set (choice := if (dec =? "pymatching")%string then _ else _).
  assert (Hch : forall ui co, choice = Ok (ui, co) -> co = (dec =? "internal_correlated")%string).
  { unfold choice. intros ui co. destruct (String.eqb_spec dec "pymatching") as [->|]; [intros [= <- <-]; reflexivity|].
    destruct (String.eqb_spec dec "internal") as [->|]; [intros [= <- <-]; reflexivity|].
    destruct (dec =? "internal_correlated")%string; [intros [= <- <-]; reflexivity|discriminate]. }
  destruct choice as [[ui co]|]; [|discriminate]. specialize (Hch ui co eq_refl). subst co. cbn [bind].
  destruct (match mc with None => _ | Some _ => _ end); [|discriminate]. cbn [bind]. rewrite Es. cbn [bind]. cbv zeta.
  set (os := if (no =? 0)%nat then mkA (map (fun _ => []) (a_rows samples)) 0 else _).
  set (ds := if (no =? 0)%nat then samples else _).
  destruct (assert_ (length (a_rows os) =? _)%nat); [|discriminate]. cbn [bind].
  destruct (a_cols os =? no)%nat eqn:E1; [|discriminate]. cbn [bind assert_].
  destruct (a_cols ds =? nd)%nat eqn:E2; [|discriminate]. cbn [bind assert_].
  destruct ((if ui then int else pm) ds _) as [p|] eqn:E3; [|discriminate]. cbn [bind].
  destruct (_ && _) eqn:E4; [|discriminate]. intros _.
  apply Nat.eqb_eq in E1, E2. apply andb_true_iff in E4 as [E4 E5]. apply Nat.eqb_eq in E4, E5.
  assert (Hos : length (a_rows os) = length (a_rows samples)) by (unfold os; destruct (no =? 0)%nat; cbn [a_rows]; apply map_length).
  split.
  - unfold os in E1. unfold ds in E2. destruct (Nat.eqb_spec no 0) as [->|Hno]; cbn [a_cols] in *; [lia|].
    destruct (Nat.le_gt_cases no (a_cols samples)); lia.
  - exists (if ui then int else pm), ds, p. split; [destruct ui; simpl; auto|]. split; [exact E3|]. split; congruence.
Qed.
Print Assumptions C37_shape.

Example C37_example :
  let samples := mkA [[true; false; true; false]; [false; false; true; true]; [true; true; false; false]] 4 in
  sample_decode_count_correct 2 2 None (fun _ => Ok samples) (fun d _ => Ok (mkA (map (fun r => [true; false]) (a_rows d)) 2)) (fun _ _ => Err RuntimeError) 3 "pymatching" = Ok 1%nat /\
  sample_decode_count_correct 4 0 None (fun _ => Ok samples) (fun d _ => Err RuntimeError) (fun d _ => Ok (mkA (map (fun r => []) (a_rows d)) 0)) 3 "internal" = Ok 3%nat.
Proof. split; vm_compute; reflexivity. Qed.

(** pymatching is given the shot's detection events followed by a zero for the boundary. *)
Theorem C37_pymatching_input : forall matcher dem num_dets num_obs ds g,
  detector_error_model_to_pymatching_graph dem = Ok g -> rect ds -> a_cols ds = num_dets ->
  (forall r, In r (a_rows ds) -> length (matcher g (r ++ [false])) = num_obs) ->
  decode_using_pymatching matcher dem num_dets num_obs ds false =
  Ok (mkA (map (fun r => matcher g (r ++ [false])) (a_rows ds)) num_obs).
Proof.
  intros matcher dem nd no [rows cols] g Eg Hr Hc Hm. simpl in Hc. subst cols. unfold decode_using_pymatching.
  rewrite Eg. cbn [bind a_cols]. rewrite Nat.eqb_refl. cbn [bind assert_ a_rows].
  rewrite (mapM_ok _ (fun r => matcher g (r ++ [false]))); [reflexivity|].
  intros r Hin. specialize (Hr r Hin). specialize (Hm r Hin). simpl in Hr.
  assert (E : clear_last (np_resize r (nd + 1)) = r ++ [false]).
  { assert (L : length (np_resize r (nd + 1)) = (nd + 1)%nat).
    { destruct r; unfold np_resize; [now rewrite repeat_length|rewrite map_length; apply seq_length]. }
    assert (F : firstn nd (np_resize r (nd + 1)) = r).
    { destruct r as [|b r]; [simpl in Hr; now subst nd|].
      unfold np_resize. rewrite firstn_map, <- Hr. 
      replace (firstn (length (b :: r)) (seq 0 (length (b :: r) + 1))) with (seq 0 (length (b :: r))).
      2:{ rewrite seq_app, firstn_app, seq_length, Nat.sub_diag, firstn_O, app_nil_r. symmetry. apply firstn_all2. rewrite seq_length. lia. }
      apply nth_ext with (d := false) (d' := false); [now rewrite map_length, seq_length|].
      intros k Hk. rewrite map_length, seq_length in Hk.
      rewrite (nth_indep _ false (nth (0 mod length (b :: r)) (b :: r) false)) by now rewrite map_length, seq_length.
      rewrite (map_nth (fun k => nth (k mod length (b :: r)) (b :: r) false)), seq_nth by assumption.
      now rewrite Nat.mod_small by lia. }
    unfold clear_last. destruct (np_resize r (nd + 1)) as [|x xs] eqn:En; [simpl in L; lia|].
    f_equal. rewrite removelast_firstn_len, L. replace (Nat.pred (nd + 1)) with nd by lia. exact F. }
  rewrite E. unfold fit. rewrite Hm, Nat.eqb_refl. reflexivity.
Qed.
Print Assumptions C37_pymatching_input.
Example C37_pymatching_example :
  decode_using_pymatching (fun _ r => [nth 1 r false; nth 3 r true]) ex_graph_model 3 2 (mkA [[true; false; true]; [false; true; true]] 3) false =
  Ok (mkA [[false; false]; [true; false]] 2).
Proof. vm_compute. reflexivity. Qed.

(** ** C38 *)
(** Specification: a reader of the dets format. *)
Definition read_detector (tok : string) : option nat :=
  match tok with
  | String "D" digits => option_map Nat.of_uint (NilZero.uint_of_string digits)
  | _ => None
  end.
Fixpoint sequence {A} (l : list (option A)) : option (list A) :=
  match l with [] => Some [] | None :: _ => None | Some x :: r => option_map (cons x) (sequence r) end.
Definition read_shot (line : string) : option (list nat) :=
  match split " " line with
  | tok :: toks => if (tok =? "shot")%string then sequence (map read_detector toks) else None
  | [] => None
  end.
(** every line ends with a newline *)
Definition read_shots (file : string) : option (list (list nat)) :=
  let ls := split (ascii_of_nat 10) file in
  if (last ls "x" =? "")%string then sequence (map read_shot (removelast ls)) else None.
(** [l] lists the positions of the true entries in increasing order *)
Definition fired (row : list bool) (l : list nat) : Prop :=
  StronglySorted lt l /\ forall k, In k l <-> nth k row false = true.

Lemma decimal_free c k : nondigit c -> free c (decimal k).
Proof.
  intros H. unfold decimal, NilZero.string_of_uint. destruct (Nat.to_uint k) eqn:E; try apply uint_free; auto.
  cbn [free]. split; [|exact Logic.I]. apply H. cbn [In]. tauto.
Qed.
Lemma read_decimal k : option_map Nat.of_uint (NilZero.uint_of_string (decimal k)) = Some k.
Proof.
  unfold decimal. rewrite NilZero.usu; [simpl; f_equal; apply DecimalNat.Unsigned.of_to|].
  rewrite <- (DecimalNat.Unsigned.of_to k). 
  intros H. pose proof (DecimalNat.Unsigned.to_of (Nat.to_uint k)) as T. rewrite DecimalNat.Unsigned.of_to in *. rewrite H in T. discriminate.
Qed.

Lemma line_tokens pre ks : free " " pre ->
  split " " (pre ++ String.concat "" (map (fun k => " D" ++ decimal k)%string ks)) = pre :: map (fun k => "D" ++ decimal k)%string ks.
Proof.
  revert pre. induction ks as [|k ks IH]; intros pre Hp.
  - simpl. rewrite sapp_nil. now apply split_free.
  - cbn [map]. rewrite concat_cons.
    change ((" D" ++ decimal k) ++ ?r)%string with (String " " (("D" ++ decimal k) ++ r)%string).
    rewrite split_join by assumption. f_equal. apply IH.
    simpl. split; [reflexivity|]. apply decimal_free, nondigit_space.
Qed.
Lemma sequence_some {A B} (f : A -> option B) (g : A -> B) l : (forall x, In x l -> f x = Some (g x)) -> sequence (map f l) = Some (map g l).
Proof. induction l as [|x l IH]; simpl; intros H; [reflexivity|]. rewrite H by auto. rewrite IH by auto. reflexivity. Qed.

Lemma nonzero_fired row : fired row (nonzero row).
Proof.
  unfold nonzero.
  enough (G : forall m, StronglySorted lt (map fst (filter snd (combine (seq m (length row)) row))) /\
    forall k, In k (map fst (filter snd (combine (seq m (length row)) row))) <-> (m <= k)%nat /\ nth (k - m) row false = true).
  { destruct (G O) as [G1 G2]. split; [exact G1|]. intros k. rewrite G2, Nat.sub_0_r. split; [tauto|]. intros H. split; [lia|exact H]. }
  induction row as [|b row IH]; intros m; simpl.
  - split; [constructor|]. intros k. destruct (k - m)%nat; split; try intros []; discriminate.
  - destruct (IH (S m)) as [I1 I2].
    assert (T : forall k, (S m <= k)%nat -> nth (k - m) (b :: row) false = nth (k - S m) row false).
    { intros k Hk. replace (k - m)%nat with (S (k - S m)) by lia. reflexivity. }
    assert (Z : forall k, (m <= k)%nat /\ nth (k - m) (b :: row) false = true <-> (k = m /\ b = true) \/ (S m <= k)%nat /\ nth (k - S m) row false = true).
    { intros k. destruct (Nat.eq_dec k m) as [->|Hne].
      - rewrite Nat.sub_diag. cbn [nth]. split; [intros [_ H]; auto|intros [[_ H]|[H _]]; [auto|lia]].
      - split.
        + intros [H1 H2]. right. split; [lia|]. now rewrite <- T by lia.
        + intros [[H _]|[H1 H2]]; [contradiction|]. split; [lia|]. now rewrite T by lia. }
    destruct b; simpl.
    + split.
      * constructor; [exact I1|]. apply Forall_forall. intros k Hk%I2. lia.
      * intros k. change (match (k - m)%nat with O => true | S i => nth i row false end) with (nth (k - m) (true :: row) false).
        rewrite Z. rewrite I2. split; [intros [->|H]; auto|intros [[-> _]|H]; auto].
    + split; [exact I1|]. intros k.
      change (match (k - m)%nat with O => false | S i => nth i row false end) with (nth (k - m) (false :: row) false).
      rewrite Z, I2. split; [auto|intros [[_ H]|H]; [discriminate|auto]].
Qed.

(** Reading the written shots file back gives, shot by shot, exactly the fired detectors. *)
Theorem C38_shots_file : forall a : array, exists shots,
  read_shots (shots_file a) = Some shots /\ Forall2 fired (a_rows a) shots.
Proof.
  intros [rows cols]. exists (map nonzero rows). cbn [a_rows]. split.
  2:{ induction rows as [|r rows IH]; constructor; [apply nonzero_fired|exact IH]. }
  unfold read_shots, shots_file. cbn [a_rows].
  set (body := fun r => ("shot" ++ String.concat "" (map (fun k => " D" ++ decimal k)%string (nonzero r)))%string).
  assert (Fb : forall r, free (ascii_of_nat 10) (body r)).
  { intros r. unfold body. apply free_app; [repeat split; reflexivity|].
    induction (nonzero r) as [|k ks IH]; [exact Logic.I|]. cbn [map]. rewrite concat_cons. apply free_app; [|exact IH].
    apply free_app; [repeat split; reflexivity|]. apply decimal_free, nondigit_newline. }
  assert (E : split (ascii_of_nat 10) (String.concat "" (map shot_line rows)) = map body rows ++ [""%string]).
  { induction rows as [|r rows IH]; [reflexivity|]. cbn [map]. rewrite concat_cons.
    replace (shot_line r) with (body r ++ newline)%string by (unfold shot_line, body; now rewrite sapp_assoc).
    rewrite sapp_assoc. rewrite newline_app.
    rewrite split_join by apply Fb. rewrite IH. reflexivity. }
  rewrite E, last_last, removelast_last. simpl (_ =? _)%string. cbv iota.
  rewrite map_map. apply sequence_some. intros r _. unfold read_shot, body.
  rewrite line_tokens by (repeat split; reflexivity). simpl (_ =? _)%string. cbv iota.
  rewrite map_map. rewrite <- (map_id (nonzero r)) at 2. apply sequence_some. intros k _. apply (read_decimal k).
Qed.
Print Assumptions C38_shots_file.

(** Specification of the predictions format: one line of 0s and 1s per shot. *)
Definition bit_string (row : list bool) : string := String.concat "" (map (fun b : bool => if b then "1" else "0")%string row).
Definition predictions_file (rows : list (list bool)) : string := String.concat "" (map (fun r => (bit_string r ++ newline)%string) rows).

Lemma read_bits_app row rest : read_bits (length row) (bit_string row ++ rest) = Ok (row, rest).
Proof.
  unfold bit_string. induction row as [|b row IH]; [reflexivity|].
  cbn [map length]. rewrite concat_cons, sapp_assoc. destruct b; simpl; rewrite IH; reflexivity.
Qed.
Lemma read_bits_eof n : read_bits n "" = Ok (repeat false n, ""%string).
Proof. induction n as [|n IH]; [reflexivity|]. simpl. rewrite IH. reflexivity. Qed.
Lemma read_bits_inv n f row x rest : read_bits n f = Ok (row, String x rest) -> length row = n /\ f = (bit_string row ++ String x rest)%string.
Proof.
  revert f row. induction n as [|n IH]; intros f row; simpl.
  - intros [= <- ->]. auto.
  - destruct f as [|c f].
    + simpl. rewrite read_bits_eof. discriminate.
    + assert (G : forall b : bool, (if b then "1" else "0")%char = c ->
        (let! (bs, f0) := read_bits n f in Ok (b :: bs, f0)) = Ok (row, String x rest) -> length row = S n /\ String c f = (bit_string row ++ String x rest)%string).
      { intros b Hb. destruct (read_bits n f) as [[bs f1]|] eqn:E; [|discriminate]. simpl. intros [= <- ->].
        destruct (IH _ _ E) as [H1 ->]. split; [simpl; now rewrite H1|]. unfold bit_string. cbn [map]. rewrite concat_cons, sapp_assoc. destruct b; now subst c. }
      destruct (Ascii.eqb_spec c "0") as [->|]; [exact (G false eq_refl)|].
      destruct (Ascii.eqb_spec c "1") as [->|]; [exact (G true eq_refl)|discriminate].
Qed.

(** Written predictions are read back exactly, also when something follows them. *)
Theorem C38_predictions_read : forall rows num_obs rest, (forall r, In r rows -> length r = num_obs) ->
  read_predictions (length rows) num_obs (predictions_file rows ++ rest) = Ok rows.
Proof.
  intros rows no rest H. unfold predictions_file. induction rows as [|r rows IH]; [reflexivity|].
  cbn [map length read_predictions]. rewrite concat_cons, !sapp_assoc. rewrite <- (H r (or_introl eq_refl)) at 1.
  rewrite read_bits_app. cbn [bind]. rewrite newline_app. cbv iota.
  rewrite Ascii.eqb_refl. rewrite IH; [reflexivity|]. intros; apply H; now right.
Qed.
Print Assumptions C38_predictions_read.

(** Whatever is accepted starts with the right number of well formed lines, which are the
    rows returned: short files, missing newlines and other characters are rejected. *)
Theorem C38_predictions_accepted : forall shots num_obs f rows, read_predictions shots num_obs f = Ok rows ->
  length rows = shots /\ (forall r, In r rows -> length r = num_obs) /\ exists rest, f = (predictions_file rows ++ rest)%string.
Proof.
  intros shots no. induction shots as [|n IH]; intros f rows; cbn [read_predictions].
  - intros [= <-]. split; [reflexivity|]. split; [intros r []|]. exists f. reflexivity.
  - destruct (read_bits no f) as [[row f1]|] eqn:E; [|discriminate]. cbn [bind]. destruct f1 as [|c f1]; [discriminate|].
    destruct (Ascii.eqb_spec c (ascii_of_nat 10)) as [->|]; [|discriminate].
    destruct (read_predictions n no f1) as [rows'|] eqn:E1; [|discriminate]. cbn [bind]. intros [= <-].
    destruct (IH _ _ E1) as (L & R & rest & ->). apply read_bits_inv in E as [Lr ->].
    split; [simpl; now rewrite L|]. split; [intros r [<-|Hr]; auto|]. exists rest.
    unfold predictions_file. cbn [map]. rewrite concat_cons, !sapp_assoc. reflexivity.
Qed.
Print Assumptions C38_predictions_accepted.

(** Extra content after the last line is not noticed, so "any other file is rejected" is
    false of the code. *)
Theorem C38_other_shapes_rejected_refuted : exists shots num_obs f rows,
  read_predictions shots num_obs f = Ok rows /\ f <> predictions_file rows.
Proof. exists 1%nat, 2%nat, ("10" ++ newline ++ "junk")%string, [[true; false]]. split; [reflexivity|discriminate]. Qed.
Print Assumptions C38_other_shapes_rejected_refuted.

(** The whole call: the rows returned are those of the file the binary wrote for the
    written shots. *)
Theorem C38_internal_decoder : forall binary num_dets num_obs ds correlated answer,
  a_cols ds = num_dets -> length answer = length (a_rows ds) -> (forall r, In r answer -> length r = num_obs) ->
  binary (shots_file ds) correlated = predictions_file answer ->
  decode_using_internal_decoder (Some binary) num_dets num_obs ds correlated = Ok (mkA answer num_obs).
Proof.
  intros binary nd no ds co answer Hc Hl Hr Hb. unfold decode_using_internal_decoder. rewrite Hc, Nat.eqb_refl. cbn [bind assert_].
  rewrite Hb, <- Hl. rewrite <- (sapp_nil (predictions_file answer)). rewrite C38_predictions_read by assumption. reflexivity.
Qed.
Print Assumptions C38_internal_decoder.

Example C38_example :
  shots_file (mkA [[false; true; false; true]; [false; false; false; false]; repeat false 12 ++ [true]] 4) =
    ("shot D1 D3" ++ newline ++ "shot" ++ newline ++ "shot D12" ++ newline)%string /\
  read_shots ("shot D1 D3" ++ newline ++ "shot" ++ newline) = Some [[1; 3]; []]%nat /\
  read_predictions 2 2 ("01" ++ newline ++ "11" ++ newline) = Ok [[false; true]; [true; true]] /\
  read_predictions 2 2 ("01" ++ newline ++ "11") = Err AssertionError /\
  read_predictions 2 2 ("01" ++ newline ++ "2" ++ newline) = Err AssertionError.
Proof. repeat split; vm_compute; reflexivity. Qed.
