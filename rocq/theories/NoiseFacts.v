(** noisy_circuit, moment by moment. *)
From Coq Require Import QArith.
From Verif Require Import Prelude Layout Tracker Stim Circuit Noise.
Open Scope Z_scope.

Section ItemInd.
  Variable P : item -> Prop.
  Hypothesis HI : forall i, P (I i).
  Hypothesis HR : forall k body, (forall x, In x body -> P x) -> P (Rep k body).
  Fixpoint item_ind' (x : item) : P x :=
    match x with
    | I i => HI i
    | Rep k body =>
        HR k body ((fix go (l : list item) : forall x, In x l -> P x :=
          match l with
          | [] => fun x (H : In x []) => match H with end
          | y :: r => fun x H => match H with or_introl E => eq_ind y P (item_ind' y) x E | or_intror H => go r x H end
          end) body)
    end.
End ItemInd.

Local Opaque in_names.
(** The loop of noisy_circuit as a function on its own. *)
Fixpoint noisy_list (nm : noise_model) (ancilla : nat) (qubits : list nat) (l : list item) (st : nstate) : res nstate :=
  match l with
  | [] => Ok st
  | y :: r =>
      let! st' :=
        match y with
        | I op => noisy_instr nm ancilla qubits op st
        | Rep k _ =>
            let st := flush nm qubits st in
            let! c := noisy_body nm qubits y in
            Ok (mkNS (n_result st ++ circuit_mul c k) (n_pre st) (n_mid st) (n_post st) (n_used st) (n_mr st))
        end in
      noisy_list nm ancilla qubits r st'
  end.
Lemma noisy_body_eq nm qubits k body :
  noisy_body nm qubits (Rep k body) =
  let! st := noisy_list nm (circuit_num_qubits body) qubits body ns_init in Ok (n_result (flush nm qubits st)).
Proof.
  cbn [noisy_body]. f_equal. generalize (circuit_num_qubits body). intros a. generalize ns_init. induction body as [|y r IH]; intros st; [reflexivity|].
  cbn [noisy_list]. destruct y as [i|k' b].
  - destruct (noisy_instr nm a qubits i st) as [st'|e]; [cbn [bind]; apply IH | reflexivity].
  - match goal with |- bind ?x _ = bind ?y _ => change y with x; destruct x; [cbn [bind]; apply IH | reflexivity] end.
Qed.

(** ** Specification: the pieces of a circuit
    The circuit's instructions in order, with loops unrolled, cut at TICKs and at
    loop boundaries; each piece comes with one more than the largest qubit of its
    block. *)
Definition is_tick_name (i : instr) : bool := (iname i =? "TICK")%string.
Fixpoint pieces_item (x : item) : list (nat * list instr) :=
  match x with
  | I _ => []
  | Rep k body =>
      concat (repeat
        ((fix cut (now : list instr) (l : list item) {struct l} : list (nat * list instr) :=
            match l with
            | [] => [(circuit_num_qubits body, now)]
            | I i :: r => if is_tick_name i then (circuit_num_qubits body, now) :: (circuit_num_qubits body, [i]) :: cut [] r else cut (now ++ [i]) r
            | (Rep _ _ as y) :: r => (circuit_num_qubits body, now) :: pieces_item y ++ cut [] r
            end) [] body) (Z.to_nat k))
  end.
Definition pieces (c : circuit) : list (nat * list instr) := pieces_item (Rep 1 c).
Fixpoint cut (a : nat) (now : list instr) (l : list item) : list (nat * list instr) :=
  match l with
  | [] => [(a, now)]
  | I i :: r => if is_tick_name i then (a, now) :: (a, [i]) :: cut a [] r else cut a (now ++ [i]) r
  | (Rep _ _ as y) :: r => (a, now) :: pieces_item y ++ cut a [] r
  end.
Lemma pieces_item_eq k body : pieces_item (Rep k body) = concat (repeat (cut (circuit_num_qubits body) [] body) (Z.to_nat k)).
Proof.
  cbn [pieces_item]. do 2 f_equal. generalize (circuit_num_qubits body). intros a.
  match goal with |- ?F [] body = cut a [] body => assert (K : forall b now, F now b = cut a now b); [|apply K] end.
  intros b. induction b as [|[i|k' b'] r IH]; intros now; [reflexivity | |].
  - cbn [cut]. destruct (is_tick_name i); [do 2 f_equal|]; apply IH.
  - cbn [cut]. do 2 f_equal. apply IH.
Qed.
Lemma pieces_eq c : pieces c = cut (circuit_num_qubits c) [] c.
Proof. unfold pieces. rewrite pieces_item_eq. change (Z.to_nat 1) with 1%nat. cbn [repeat concat]. apply app_nil_r. Qed.

(** The pieces make up the circuit. *)
Lemma concat_repeat_map {A B} (f : list A -> list B) (l : list A) n : (forall a b, f (a ++ b) = f a ++ f b) -> f [] = [] ->
  f (concat (repeat l n)) = concat (repeat (f l) n).
Proof. intros Ha Hn. induction n as [|n IH]; [exact Hn|]. cbn [repeat concat]. now rewrite Ha, IH. Qed.
Definition contents (l : list (nat * list instr)) : list instr := flat_map snd l.
Lemma contents_pieces_item x : match x with I _ => True | Rep _ _ => contents (pieces_item x) = flatten_item x end.
Proof.
  induction x as [i|k body IH] using item_ind'; [exact Logic.I|]. rewrite pieces_item_eq. cbn [flatten_item].
  rewrite (concat_repeat_map contents) by (try reflexivity; intros; apply flat_map_app). do 2 f_equal.
  assert (K : forall a now, contents (cut a now body) = now ++ flat_map flatten_item body).
  { intros a. induction body as [|[i|k' b] r IHr]; intros now; cbn [cut flat_map].
    - unfold contents. cbn. reflexivity.
    - destruct (is_tick_name i).
      + unfold contents in *. cbn [flat_map snd]. rewrite IHr by (intros; apply IH; now right). reflexivity.
      + rewrite IHr by (intros; apply IH; now right). cbn [flatten_item]. now rewrite <- app_assoc.
    - unfold contents in *. cbn [flat_map snd]. rewrite flat_map_app, IHr by (intros; apply IH; now right). rewrite (IH (Rep k' b)) by now left. reflexivity. }
  apply K.
Qed.
Lemma contents_pieces c : contents (pieces c) = flatten c.
Proof.
  unfold pieces. rewrite (contents_pieces_item (Rep 1 c)). cbn [flatten_item]. change (Z.to_nat 1) with 1%nat. cbn [repeat concat]. apply app_nil_r.
Qed.

(** ** One piece *)
Fixpoint gather (nm : noise_model) (a : nat) (m : list instr) : res (circuit * circuit * circuit) :=
  match m with
  | [] => Ok ([], [], [])
  | op :: r =>
      let! p := op_strength nm op in
      let! (pre, mid, post) := noisy_op nm op p a in
      let! (pre', mid', post') := gather nm a r in
      Ok (pre ++ pre', mid ++ mid', post ++ post')
  end.
Definition tq (op : instr) : list nat := if in_names (iname op) ANNOTATION_OPS then [] else tqubits (itargets op).
Definition is_mr (op : instr) : bool := in_names (iname op) MEASURE_OPS || in_names (iname op) RESET_OPS.
Definition used (m : list instr) : list nat := flat_map tq m.
Definition mrd (m : list instr) : list nat := flat_map (fun op => if is_mr op then tq op else []) m.
Definition piece_out (nm : noise_model) (a : nat) (qubits : list nat) (m : list instr) : res circuit :=
  if match m with [i] => is_tick_name i | _ => false end then Ok (map I m)
  else let! (pre, mid, post) := gather nm a m in
       Ok (n_result (flush nm qubits (mkNS [] pre mid post (used m) (mrd m)))).

Lemma gather_snoc nm a m op : gather nm a (m ++ [op]) =
  let! (pre, mid, post) := gather nm a m in
  let! p := op_strength nm op in
  let! (pre', mid', post') := noisy_op nm op p a in Ok (pre ++ pre', mid ++ mid', post ++ post').
Proof.
  induction m as [|x m IH].
  - cbn [app gather bind]. destruct (op_strength nm op) as [p|e]; [|reflexivity]. cbn [bind]. destruct (noisy_op nm op p a) as [[[x y] z]|e]; [|reflexivity]. cbn [bind]. now rewrite !app_nil_r.
  - cbn [app gather]. destruct (op_strength nm x) as [p|e]; [|reflexivity]. cbn [bind]. destruct (noisy_op nm x p a) as [[[x1 y1] z1]|e]; [|reflexivity]. cbn [bind].
    rewrite IH. destruct (gather nm a m) as [[[x2 y2] z2]|e]; [|reflexivity]. cbn [bind].
    destruct (op_strength nm op) as [q|e]; [|reflexivity]. cbn [bind]. destruct (noisy_op nm op q a) as [[[x3 y3] z3]|e]; [|reflexivity]. cbn [bind]. now rewrite !app_assoc.
Qed.

(** The loop's state in the middle of a piece. *)
Record mid_state (nm : noise_model) (a : nat) (r0 : circuit) (m : list instr) (st : nstate) : Prop := {
  ms_res : n_result st = r0;
  ms_gather : gather nm a m = Ok (n_pre st, n_mid st, n_post st);
  ms_used : forall q, In q (n_used st) <-> In q (used m);
  ms_mr : forall q, In q (n_mr st) <-> In q (mrd m) }.

Lemma in_union a b q : In q (union a b) <-> In q a \/ In q b.
Proof.
  unfold union. rewrite in_app_iff, filter_In, negb_true_iff, memb_false, nodup_In. destruct (in_dec Nat.eq_dec q a); tauto.
Qed.
Lemma memb_ext q a b : (In q a <-> In q b) -> memb q a = memb q b.
Proof. intros H. destruct (memb q a) eqn:E, (memb q b) eqn:F; try reflexivity; rewrite ?memb_In, ?memb_false in *; tauto. Qed.
Lemma sorted_diff_ext qubits a b : (forall q, In q a <-> In q b) -> sorted_diff qubits a = sorted_diff qubits b.
Proof. intros H. unfold sorted_diff. f_equal. apply filter_ext. intros q. now rewrite (memb_ext q a b). Qed.
Lemma nonempty_ext {A} (a b : list A) : (forall q, In q a <-> In q b) -> nonempty a = nonempty b.
Proof.
  intros H. destruct a as [|x a], b as [|y b]; try reflexivity; exfalso; [apply (proj2 (H y)); now left | apply (proj1 (H x)); now left].
Qed.
Lemma mid_nonempty nm op p a x y z : noisy_op nm op p a = Ok (x, y, z) -> y = [] -> x = [] /\ z = [].
Proof.
  unfold noisy_op. intros H Ey. assert (K : forall args, append_operation [] (iname op) (itargets op) args <> []) by (intros; cbn; discriminate).
  destruct (Qlt_bool 0 p); [|injection H as <- <- <-; exfalso; eapply K; eauto].
  destruct (in_names (iname op) ANY_CLIFFORD_1_OPS); [injection H as <- <- <-; exfalso; eapply K; eauto|].
  destruct (in_names (iname op) ANY_CLIFFORD_2_OPS); [injection H as <- <- <-; exfalso; eapply K; eauto|].
  destruct (in_names (iname op) RESET_OPS || in_names (iname op) MEASURE_OPS); [injection H as <- <- <-; exfalso; eapply K; eauto|].
  destruct (iname op =? "MPP")%string; [|discriminate].
  destruct (triples (itargets op)) as [tri|]; [|discriminate].
  destruct (assert_ _); [|discriminate]. cbn [bind] in H. destruct (assert_ _); [|discriminate]. cbn [bind] in H.
  destruct (use_correlated nm); injection H as <- <- <-; [auto|]. exfalso; eapply K; eauto.
Qed.
Lemma gather_nonempty nm a m : forall x y z, gather nm a m = Ok (x, y, z) -> y = [] -> x = [] /\ z = [].
Proof.
  induction m as [|op m IH]; intros x y z H Ey; cbn [gather] in H; [injection H as <- <- <-; auto|].
  destruct (op_strength nm op) as [p|]; [|discriminate]. cbn [bind] in H. destruct (noisy_op nm op p a) as [[[x1 y1] z1]|] eqn:En; [|discriminate]. cbn [bind] in H.
  destruct (gather nm a m) as [[[x2 y2] z2]|] eqn:Eg; [|discriminate]. cbn [bind] in H. injection H as <- <- <-.
  apply app_eq_nil in Ey. destruct Ey as [E1 E2]. destruct (mid_nonempty _ _ _ _ _ _ _ En E1) as [-> ->]. destruct (IH _ _ _ eq_refl E2) as [-> ->]. auto.
Qed.

Definition not_tick (m : list instr) : Prop := Forall (fun i => is_tick_name i = false) m.
Lemma piece_out_run nm a qubits m : not_tick m -> piece_out nm a qubits m =
  let! (pre, mid, post) := gather nm a m in Ok (n_result (flush nm qubits (mkNS [] pre mid post (used m) (mrd m)))).
Proof. intros H. unfold piece_out. destruct m as [|i [|j m]]; try reflexivity. inversion H; subst. now rewrite H2. Qed.

(** Flushing ends a piece. *)
Lemma flush_mid nm a qubits r0 m st : mid_state nm a r0 m st -> not_tick m ->
  exists o, piece_out nm a qubits m = Ok o /\ n_result (flush nm qubits st) = r0 ++ o.
Proof.
  intros [Er Eg Hu Hm] Ht. rewrite piece_out_run, Eg by exact Ht. cbn [bind]. eexists. split; [reflexivity|].
  unfold flush. cbn [n_mid n_pre n_post n_used n_mr n_result]. destruct (nonempty (n_mid st)); cbn [n_result]; [|now rewrite app_nil_r].
  rewrite (sorted_diff_ext qubits _ _ Hu), (sorted_diff_ext qubits _ _ Hm), (nonempty_ext _ _ Hu), (nonempty_ext _ _ Hm), Er. reflexivity.
Qed.

Lemma flush_next nm a qubits r0 m st o : mid_state nm a r0 m st -> not_tick m -> piece_out nm a qubits m = Ok o ->
  mid_state nm a (r0 ++ o) [] (flush nm qubits st).
Proof.
  intros H Ht Eo. destruct (flush_mid nm a qubits r0 m st H Ht) as (o' & Eo' & Ef). assert (o' = o) by congruence. subst o'.
  destruct H as [Er Eg Hu Hm]. unfold flush in *. destruct (n_mid st) as [|x md] eqn:Em; cbn [nonempty n_result] in *.
  - destruct (gather_nonempty nm a m _ _ _ Eg eq_refl) as [E1 E2].
    assert (K : forall op, In op m -> tq op = []).
    { clear -Eg Em. revert Eg. generalize (n_pre st), (n_post st). induction m as [|op m IH]; intros x z Eg op' Hin; [destruct Hin|].
      cbn [gather] in Eg. destruct (op_strength nm op) as [p|]; [|discriminate]. cbn [bind] in Eg. destruct (noisy_op nm op p a) as [[[x1 y1] z1]|] eqn:En; [|discriminate]. cbn [bind] in Eg.
      destruct (gather nm a m) as [[[x2 y2] z2]|] eqn:Eg2; [|discriminate]. cbn [bind] in Eg. injection Eg as <- Ey <-.
      apply app_eq_nil in Ey. destruct Ey as [-> ->]. destruct Hin as [<-|Hin]; [|eapply IH; eauto].
      assert (K : forall args, append_operation [] (iname op) (itargets op) args <> []) by (intros; cbn; discriminate).
      unfold noisy_op in En. destruct (Qlt_bool 0 p); [|injection En as _ En _; exfalso; eapply K; eauto].
      destruct (in_names (iname op) ANY_CLIFFORD_1_OPS); [injection En as _ En _; exfalso; eapply K; eauto|].
      destruct (in_names (iname op) ANY_CLIFFORD_2_OPS); [injection En as _ En _; exfalso; eapply K; eauto|].
      destruct (in_names (iname op) RESET_OPS || in_names (iname op) MEASURE_OPS); [injection En as _ En _; exfalso; eapply K; eauto|].
      destruct (iname op =? "MPP")%string; [|discriminate].
      destruct (triples (itargets op)) as [tri|] eqn:Et; [|discriminate].
      destruct (assert_ _); [|discriminate]. cbn [bind] in En. destruct (assert_ _); [|discriminate]. cbn [bind] in En.
      destruct (use_correlated nm); injection En as _ En _; [|exfalso; eapply K; eauto].
      destruct tri as [|[[t1 t2] t3] tri]; [|exfalso; cbn [flat_map] in En; apply app_eq_nil in En; destruct En as [En _]; revert En; clear; unfold parity_measurement_with_correlated_measurement_noise, append_operation].
      - destruct (itargets op) as [|? [|? [|? ?]]] eqn:Ei; try discriminate; [unfold tq; rewrite Ei; now destruct (in_names _ _)|].
        cbn [triples] in Et. destruct (triples l); discriminate.
      - generalize (fold_left (fun c e => append_instr c (mkI (canon "CORRELATED_ERROR") e [Mix p 5])) (correlated_errors (target_value t1) (target_value t3) a) (couple t3 a (couple t1 a (append_instr [] (mkI (canon "R") (qs [a]) []))))).
        intros l. destruct l as [|x [|y l]]; cbn [append_instr]; [discriminate | |]; destruct x; try discriminate. destruct (_ && _ && _); discriminate. }
    assert (Ku : used m = []) by (unfold used; clear -K; induction m as [|op m IH]; [reflexivity|]; cbn [flat_map]; rewrite (K op), IH by (try (now left); intros; apply K; now right); reflexivity).
    assert (Kr : mrd m = []) by (unfold mrd; clear -K; induction m as [|op m IH]; [reflexivity|]; cbn [flat_map]; rewrite (K op), IH by (try (now left); intros; apply K; now right); now destruct (is_mr op)).
    rewrite Ku in Hu. rewrite Kr in Hm. split; auto. rewrite E1, E2, Em. reflexivity.
  - split; auto; cbn; tauto.
Qed.
Lemma mid_step nm a qubits r0 m st op st' : is_tick_name op = false -> mid_state nm a r0 m st -> noisy_instr nm a qubits op st = Ok st' -> mid_state nm a r0 (m ++ [op]) st'.
Proof.
  intros Ht [Er Eg Hu Hm] H. unfold noisy_instr in H. unfold is_tick_name in Ht. rewrite Ht in H.
  destruct (op_strength nm op) as [p|] eqn:Ep; [|discriminate]. cbn [bind] in H. destruct (noisy_op nm op p a) as [[[x y] z]|] eqn:En; [|discriminate]. cbn [bind] in H. injection H as <-.
  split; cbn [n_result n_pre n_mid n_post n_used n_mr].
  - exact Er.
  - rewrite gather_snoc, Eg. cbn [bind]. rewrite Ep. cbn [bind]. rewrite En. reflexivity.
  - intros q. rewrite in_union, Hu. unfold used. rewrite flat_map_app, in_app_iff. cbn [flat_map]. rewrite app_nil_r. fold (tq op). tauto.
  - intros q. unfold mrd. rewrite flat_map_app, in_app_iff. cbn [flat_map]. rewrite app_nil_r. change (in_names (iname op) MEASURE_OPS || in_names (iname op) RESET_OPS) with (is_mr op). fold (tq op). unfold mrd in Hm. destruct (is_mr op); [rewrite in_union|]; rewrite Hm; cbn [In]; tauto.
Qed.

(** ** The whole circuit: piece by piece. *)
Definition piece_rel (nm : noise_model) (qubits : list nat) (p : nat * list instr) (o : list instr) : Prop :=
  exists c, piece_out nm (fst p) qubits (snd p) = Ok c /\ o = flatten c.
Lemma Forall2_app_r {A B} (R : A -> B -> Prop) l1 l2 o1 o2 : Forall2 R l1 o1 -> Forall2 R l2 o2 -> Forall2 R (l1 ++ l2) (o1 ++ o2).
Proof. apply Forall2_app. Qed.
Lemma Forall2_repeat {A B} (R : A -> B -> Prop) l o n : Forall2 R l o -> Forall2 R (concat (repeat l n)) (concat (repeat o n)).
Proof. intros H. induction n as [|n IH]; [constructor|]. cbn [repeat concat]. now apply Forall2_app_r. Qed.
Lemma mid_start nm a r0 : mid_state nm a r0 [] (mkNS r0 [] [] [] [] []).
Proof. split; cbn; tauto || reflexivity. Qed.
Lemma flatten_mul' c k : flatten (circuit_mul c k) = concat (repeat (flatten c) (Z.to_nat k)).
Proof.
  destruct (Z_le_gt_dec 0 k) as [H|H]; [now apply flatten_mul|]. unfold circuit_mul. destruct (Z.eqb_spec k 0); [lia|]. destruct (Z.eqb_spec k 1); [lia|].
  unfold flatten at 1. cbn [flat_map flatten_item]. rewrite app_nil_r. reflexivity.
Qed.

Lemma append_tick c : append_operation c "TICK" [] [] = c ++ [I (mkI "TICK" [] [])].
Proof. unfold append_operation. now rewrite append_nf. Qed.

(** All instructions written in a circuit, those of loop bodies once. *)
Fixpoint instrs_item (x : item) : list instr := match x with I i => [i] | Rep _ body => flat_map instrs_item body end.
Definition instrs (c : circuit) : list instr := flat_map instrs_item c.
(** stim's TICK has no targets and no arguments. *)
Definition plain_tick (i : instr) : Prop := iname i = "TICK"%string -> i = mkI "TICK" [] [].

Lemma noisy_list_pieces nm a qubits (l : list item) :
  (forall x, In x l -> forall c, noisy_body nm qubits x = Ok c -> match x with I _ => True | Rep k _ => exists outs, Forall2 (piece_rel nm qubits) (pieces_item x) outs /\ flatten (circuit_mul c k) = concat outs end) ->
  (forall i, In i (instrs l) -> plain_tick i) ->
  forall r0 m st st', not_tick m -> mid_state nm a r0 m st -> noisy_list nm a qubits l st = Ok st' ->
  exists outs, Forall2 (piece_rel nm qubits) (cut a m l) outs /\ flatten (n_result (flush nm qubits st')) = flatten r0 ++ concat outs.
Proof.
  induction l as [|x l IH]; intros Hx Ht r0 m st st' Hm Hs H; cbn [noisy_list] in H.
  - injection H as <-. destruct (flush_mid nm a qubits r0 m st Hs Hm) as (o & Eo & Er). exists [flatten o]. split.
    + constructor; [|constructor]. exists o. auto.
    + rewrite Er, flatten_app. cbn [concat]. now rewrite app_nil_r.
  - assert (Hx' : forall y, In y l -> forall c, noisy_body nm qubits y = Ok c -> match y with I _ => True | Rep k _ => exists outs, Forall2 (piece_rel nm qubits) (pieces_item y) outs /\ flatten (circuit_mul c k) = concat outs end) by (intros; apply Hx; auto; now right).
    assert (Ht' : forall i, In i (instrs l) -> plain_tick i) by (intros i Hi; apply Ht; unfold instrs; cbn [flat_map]; apply in_or_app; now right).
    specialize (IH Hx' Ht'). destruct x as [op|k body].
    + cbn [cut]. destruct (is_tick_name op) eqn:Et.
      * unfold noisy_instr in H. unfold is_tick_name in Et. rewrite Et in H. cbn [bind] in H. apply String.eqb_eq in Et.
        destruct (flush_mid nm a qubits r0 m st Hs Hm) as (o & Eo & Er). pose proof (flush_next nm a qubits r0 m st o Hs Hm Eo) as Hn.
        assert (Hop : op = mkI "TICK" [] []) by (apply Ht; [cbn; now left | exact Et]).
        destruct (fun K => IH (r0 ++ o ++ [I op]) [] _ st' (Forall_nil _) K H) as (outs & F & E).
        { destruct Hn as [N1 N2 N3 N4]. split; cbn [n_result n_pre n_mid n_post n_used n_mr]; auto. rewrite append_tick, N1, Hop, <- app_assoc. reflexivity. }
        exists (flatten o :: [op] :: outs). split.
        -- constructor; [exists o; auto|]. constructor; [|exact F]. exists [I op]. split; [|reflexivity]. unfold piece_out. cbn [snd]. unfold is_tick_name. now rewrite Et.
        -- rewrite E. rewrite !flatten_app. cbn [concat]. rewrite <- !app_assoc. reflexivity.
      * destruct (noisy_instr nm a qubits op st) as [st1|] eqn:E1; [|discriminate]. cbn [bind] in H.
        apply (IH r0 (m ++ [op]) st1 st'); [|eapply mid_step; eauto | exact H]. apply Forall_app. split; [exact Hm | now constructor].
    + cbn [cut]. destruct (noisy_body nm qubits (Rep k body)) as [c|] eqn:Ec; [|discriminate]. cbn [bind] in H.
      destruct (flush_mid nm a qubits r0 m st Hs Hm) as (o & Eo & Er). pose proof (flush_next nm a qubits r0 m st o Hs Hm Eo) as Hn.
      destruct (Hx (Rep k body) (or_introl eq_refl) c Ec) as (o2 & F2 & E2).
      destruct (fun K => IH (r0 ++ o ++ circuit_mul c k) [] _ st' (Forall_nil _) K H) as (outs & F & E).
      { destruct Hn as [N1 N2 N3 N4]. split; cbn [n_result n_pre n_mid n_post n_used n_mr]; auto. now rewrite N1, <- app_assoc. }
      exists (flatten o :: o2 ++ outs). split.
      * constructor; [exists o; auto|]. now apply Forall2_app.
      * rewrite E, !flatten_app, E2. cbn [concat]. rewrite concat_app, <- !app_assoc. reflexivity.
Qed.
Lemma noisy_body_pieces nm qubits x : (forall i, In i (instrs_item x) -> plain_tick i) -> forall c, noisy_body nm qubits x = Ok c ->
  match x with I _ => True | Rep k _ => exists outs, Forall2 (piece_rel nm qubits) (pieces_item x) outs /\ flatten (circuit_mul c k) = concat outs end.
Proof.
  induction x as [i|k body IH] using item_ind'; [auto|]. intros Ht c H. rewrite noisy_body_eq in H.
  destruct (noisy_list nm (circuit_num_qubits body) qubits body ns_init) as [st|] eqn:E; [|discriminate]. cbn [bind] in H. injection H as <-.
  assert (Hin : forall x, In x body -> forall c, noisy_body nm qubits x = Ok c ->
    match x with I _ => True | Rep k _ => exists outs, Forall2 (piece_rel nm qubits) (pieces_item x) outs /\ flatten (circuit_mul c k) = concat outs end).
  { intros x Hx. apply IH; [exact Hx|]. intros i Hi. apply Ht. cbn [instrs_item]. apply in_flat_map. eauto. }
  destruct (noisy_list_pieces nm (circuit_num_qubits body) qubits body Hin Ht [] [] ns_init st ltac:(constructor) (mid_start nm _ []) E) as (outs & F & Ef).
  exists (concat (repeat outs (Z.to_nat k))). rewrite pieces_item_eq. split; [now apply Forall2_repeat|].
  rewrite flatten_mul', Ef. cbn [app]. change (flatten [] ++ concat outs) with (concat outs).
  clear. induction (Z.to_nat k) as [|n IH]; [reflexivity|]. cbn [repeat concat]. now rewrite IH, concat_app.
Qed.
(** A successful noisy_circuit treats every piece separately. *)
Theorem noisy_circuit_pieces nm c c' : (forall i, In i (instrs c) -> plain_tick i) -> noisy_circuit nm c = Ok c' ->
  exists outs, Forall2 (piece_rel nm (seq 0 (circuit_num_qubits c))) (pieces c) outs /\ flatten c' = concat outs.
Proof.
  intros Ht H. destruct (noisy_body_pieces nm (seq 0 (circuit_num_qubits c)) (Rep 1 c) Ht c' H) as (outs & F & E).
  exists outs. split; [exact F|]. rewrite flatten_mul' in E. change (Z.to_nat 1) with 1%nat in E. cbn [repeat concat] in E. now rewrite app_nil_r in E.
Qed.

(** noisy_circuit succeeds when every instruction is supported, and otherwise
    raises what the first unsupported one raises. *)
Definition op_ok (nm : noise_model) (op : instr) : res unit :=
  if is_tick_name op then Ok tt else
  let! p := op_strength nm op in let! _ := noisy_op nm op p 0 in Ok tt.
Lemma noisy_op_anc nm op p a b : match noisy_op nm op p a with Ok _ => exists x, noisy_op nm op p b = Ok x | Err e => noisy_op nm op p b = Err e end.
Proof.
  unfold noisy_op. destruct (Qlt_bool 0 p); [|eauto]. destruct (in_names _ _); [eauto|]. destruct (in_names _ _); [eauto|]. destruct (_ || _); [eauto|].
  destruct (_ =? _)%string; [|reflexivity]. destruct (triples _); [|reflexivity]. destruct (assert_ _); [|reflexivity]. cbn [bind]. destruct (assert_ _); [|reflexivity]. cbn [bind]. destruct (use_correlated nm); eauto.
Qed.
Lemma noisy_instr_ok nm a qubits op st : match op_ok nm op with Ok _ => exists st', noisy_instr nm a qubits op st = Ok st' | Err e => noisy_instr nm a qubits op st = Err e end.
Proof.
  unfold op_ok, noisy_instr, is_tick_name. destruct (iname op =? "TICK")%string; [eauto|].
  destruct (op_strength nm op) as [p|]; cbn [bind]; [|reflexivity]. pose proof (noisy_op_anc nm op p 0 a) as K.
  destruct (noisy_op nm op p 0); cbn [bind].
  - destruct K as [[[x y] z] ->]. cbn [bind]. eauto.
  - now rewrite K.
Qed.
Definition first_err (nm : noise_model) (l : list instr) : res unit :=
  fold_right (fun op r => let! _ := op_ok nm op in r) (Ok tt) l.
Lemma first_err_app nm a b : first_err nm (a ++ b) = let! _ := first_err nm a in first_err nm b.
Proof. induction a as [|x a IH]; [reflexivity|]. cbn [app first_err fold_right]. fold (first_err nm (a ++ b)). fold (first_err nm a). destruct (op_ok nm x); cbn [bind]; auto. Qed.
Lemma noisy_list_ok nm a qubits l : (forall x, In x l -> match x with I _ => True | Rep _ _ => match first_err nm (instrs_item x) with Ok _ => exists c, noisy_body nm qubits x = Ok c | Err e => noisy_body nm qubits x = Err e end end) ->
  forall st, match first_err nm (instrs l) with Ok _ => exists st', noisy_list nm a qubits l st = Ok st' | Err e => noisy_list nm a qubits l st = Err e end.
Proof.
  induction l as [|x l IH]; intros Hx st; [cbn; eauto|]. unfold instrs. cbn [flat_map noisy_list]. rewrite first_err_app. fold (instrs l).
  assert (Hx' : forall x, In x l -> match x with I _ => True | Rep _ _ => match first_err nm (instrs_item x) with Ok _ => exists c, noisy_body nm qubits x = Ok c | Err e => noisy_body nm qubits x = Err e end end) by (intros; apply Hx; now right).
  specialize (IH Hx'). destruct x as [op|k body].
  - cbn [instrs_item first_err fold_right]. pose proof (noisy_instr_ok nm a qubits op st) as K. destruct (op_ok nm op); cbn [bind].
    + destruct K as [st' ->]. cbn [bind]. apply IH.
    + rewrite K. reflexivity.
  - specialize (Hx _ (or_introl eq_refl)). cbn beta iota in Hx. destruct (first_err nm (instrs_item (Rep k body))); cbn [bind].
    + destruct Hx as [c ->]. cbn [bind]. apply IH.
    + rewrite Hx. reflexivity.
Qed.
Lemma noisy_body_ok nm qubits x : match x with I _ => True | Rep _ _ => match first_err nm (instrs_item x) with Ok _ => exists c, noisy_body nm qubits x = Ok c | Err e => noisy_body nm qubits x = Err e end end.
Proof.
  induction x as [i|k body IH] using item_ind'; [auto|]. rewrite noisy_body_eq. cbn [instrs_item].
  pose proof (noisy_list_ok nm (circuit_num_qubits body) qubits body IH ns_init) as K. unfold instrs in K.
  destruct (first_err nm (flat_map instrs_item body)); [destruct K as [st ->]; cbn [bind]; eauto | now rewrite K].
Qed.
Theorem noisy_circuit_ok nm c : match first_err nm (instrs c) with Ok _ => exists c', noisy_circuit nm c = Ok c' | Err e => noisy_circuit nm c = Err e end.
Proof. exact (noisy_body_ok nm (seq 0 (circuit_num_qubits c)) (Rep 1 c)). Qed.
