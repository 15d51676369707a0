(** EM3_v2: pair measurements replaced by an ancilla measurement with correlated errors. *)
From Coq Require Import QArith.
From Verif Require Import Prelude Layout Pauli Tracker Stim Circuit Noise Frame NoiseFacts NoiseMoments.
Open Scope Z_scope.

(** ** The gates of the replacement *)
Definition couple_i (t : target) (a : nat) : list instr := match t with TP p q => [mkI (canon (pauli_cx p)) (qs [q; a]) []] | _ => [] end.
Definition both (t1 t2 : target) (a : nat) : list instr := flatten (couple t2 a (couple t1 a [I (mkI "R" (qs [a]) [])])).
Definition gadget (t1 t2 : target) (a : nat) : list instr := both t1 t2 a ++ [mkI "M" (qs [a]) []].
Lemma fold_errors es p c : gates (flatten (fold_left (fun c e => append_operation c "CORRELATED_ERROR" e [Mix p 5]) es c)) = gates (flatten c).
Proof.
  revert c. induction es as [|e es IH]; intros c; [reflexivity|]. cbn [fold_left]. rewrite IH. unfold append_operation. rewrite append_nf by reflexivity. rewrite flatten_app, gates_app. cbn. apply app_nil_r.
Qed.
Lemma append_M l a : Forall (fun x => match x with I i => iname i <> "M"%string | Rep _ _ => True end) l -> append_operation l "M" (qs [a]) [] = l ++ [I (mkI "M" (qs [a]) [])].
Proof.
  intros H. unfold append_operation. change (canon "M") with "M"%string. induction l as [|x l IH]; [reflexivity|]. inversion H; subst. destruct l as [|y l].
  - destruct x as [i|]; [|reflexivity]. cbn [append_instr app iname]. destruct (String.eqb_spec "M" (iname i)) as [E|_]; [congruence|]. now rewrite andb_false_r.
  - replace (append_instr (x :: y :: l) (mkI "M" (qs [a]) [])) with (x :: append_instr (y :: l) (mkI "M" (qs [a]) [])) by (destruct x; reflexivity). now rewrite IH.
Qed.
Definition noM (x : item) : Prop := match x with I i => iname i <> "M"%string | Rep _ _ => True end.
Lemma append_noM i c : iname i <> "M"%string -> Forall noM c -> Forall noM (append_instr c i).
Proof.
  intros Hi H. induction c as [|x c IH]; [constructor; auto|]. inversion H; subst. destruct c as [|y c].
  - destruct x as [j|]; cbn [append_instr]; [destruct (_ && _ && _)|]; repeat constructor; auto.
  - replace (append_instr (x :: y :: c) i) with (x :: append_instr (y :: c) i) by (destruct x; reflexivity). constructor; auto.
Qed.
Lemma couple_noM t a c : Forall noM c -> Forall noM (couple t a c).
Proof. intros H. destruct t; auto. cbn [couple]. apply append_noM; [destruct p; discriminate | exact H]. Qed.
Lemma errors_noM es p c : Forall noM c -> Forall noM (fold_left (fun c e => append_operation c "CORRELATED_ERROR" e [Mix p 5]) es c).
Proof. revert c. induction es as [|e es IH]; intros c H; [exact H|]. cbn [fold_left]. apply IH. apply append_noM; [discriminate | exact H]. Qed.
Lemma both_gates t1 t2 a : gates (both t1 t2 a) = both t1 t2 a.
Proof. unfold both. destruct t1 as [| |p1 q1|], t2 as [| |p2 q2|]; try reflexivity; try (destruct p1; reflexivity); try (destruct p2; reflexivity). destruct p1, p2; reflexivity. Qed.
Lemma parity_gates t1 t2 a p : gates (flatten (parity_measurement_with_correlated_measurement_noise t1 t2 a p)) = gadget t1 t2 a.
Proof.
  unfold parity_measurement_with_correlated_measurement_noise, gadget. rewrite append_M.
  - rewrite flatten_app, gates_app, fold_errors. change (append_operation [] "R" (qs [a]) []) with [I (mkI "R" (qs [a]) [])]. fold (both t1 t2 a). now rewrite both_gates.
  - apply errors_noM, couple_noM, couple_noM. repeat constructor. discriminate.
Qed.
Definition sub_op (nm : noise_model) (a : nat) (op : instr) : list instr :=
  match op_strength nm op with
  | Ok p => if (iname op =? "MPP")%string && Qlt_bool 0 p
            then match triples (itargets op) with Some tri => flat_map (fun '(x, _, y) => gadget x y a) tri | None => [op] end
            else [op]
  | Err _ => [op]
  end.
Lemma flip_noise name ts args : gates (flatten (append_operation [] (flip_name name) ts args)) = [].
Proof. unfold flip_name. destruct (ends_with_X name); reflexivity. Qed.
Lemma flip_noise_if (b : bool) name ts args : gates (flatten (if b then append_operation [] (flip_name name) ts args else [])) = [].
Proof. destruct b; [apply flip_noise | reflexivity]. Qed.
Lemma noisy_op_gates nm op p a x y z : use_correlated nm = true -> ideal_op op -> op_strength nm op = Ok p -> noisy_op nm op p a = Ok (x, y, z) ->
  gates (flatten x) = [] /\ gates (flatten y) = sub_op nm a op /\ gates (flatten z) = [].
Proof.
  intros Hc (E & _ & N) Es En. unfold sub_op. rewrite Es. unfold noisy_op in En.
  assert (G : gates (flatten (append_operation [] (iname op) (itargets op) (iargs op))) = [op]).
  { rewrite append_nil by exact E. cbn [flatten flat_map flatten_item app]. unfold gates. cbn [filter]. now rewrite N. }
  destruct (Qlt_bool 0 p) eqn:F.
  - rewrite andb_true_r. destruct (String.eqb_spec (iname op) "MPP") as [M|M].
    + rewrite M in En. cbn [in_names existsb ANY_CLIFFORD_1_OPS ANY_CLIFFORD_2_OPS RESET_OPS MEASURE_OPS String.eqb Ascii.eqb Bool.eqb orb] in En.
      destruct (triples (itargets op)) as [tri|]; [|discriminate]. destruct (assert_ _); [|discriminate]. cbn [bind] in En. destruct (assert_ _); [|discriminate]. cbn [bind] in En.
      rewrite Hc in En. injection En as <- <- <-. split; [reflexivity|]. split; [|reflexivity].
      clear. induction tri as [|[[t1 t] t2] tri IH]; [reflexivity|]. cbn [flat_map]. now rewrite flatten_app, gates_app, parity_gates, IH.
    + destruct (in_names (iname op) ANY_CLIFFORD_1_OPS); [injection En as <- <- <-; auto|]. destruct (in_names (iname op) ANY_CLIFFORD_2_OPS); [injection En as <- <- <-; auto|].
      destruct (_ || _); [injection En as <- <- <- | discriminate]. split; [apply flip_noise_if|]. split; [exact G|]. apply flip_noise_if.
  - rewrite andb_false_r. injection En as <- <- <-. auto.
Qed.
Lemma gather_gates nm a m : use_correlated nm = true -> (forall op, In op m -> ideal_op op) -> forall x y z, gather nm a m = Ok (x, y, z) ->
  gates (flatten x) = [] /\ gates (flatten y) = flat_map (sub_op nm a) m /\ gates (flatten z) = [].
Proof.
  intros Hc. induction m as [|op m IH]; intros Hi x y z H; cbn [gather] in H.
  { injection H as <- <- <-. auto. }
  destruct (op_strength nm op) as [p|] eqn:Ep; [|discriminate]. cbn [bind] in H. destruct (noisy_op nm op p a) as [[[x1 y1] z1]|] eqn:En; [|discriminate]. cbn [bind] in H.
  destruct (gather nm a m) as [[[x2 y2] z2]|] eqn:Eg; [|discriminate]. cbn [bind] in H. injection H as <- <- <-.
  destruct (noisy_op_gates nm op p a x1 y1 z1 Hc (Hi op (or_introl eq_refl)) Ep En) as (A1 & A2 & A3).
  destruct (IH (fun o Ho => Hi o (or_intror Ho)) x2 y2 z2 eq_refl) as (B1 & B2 & B3).
  rewrite !flatten_app, !gates_app, A1, A2, A3, B1, B2, B3. auto.
Qed.
Lemma piece_corr nm a nq m c : use_correlated nm = true -> (forall op, In op m -> ideal_op op) -> not_tick m -> piece_out nm a (seq 0 nq) m = Ok c ->
  gates (flatten c) = flat_map (sub_op nm a) m.
Proof.
  intros Hc Hi Ht H. rewrite piece_out_run in H by exact Ht. destruct (gather nm a m) as [[[x y] z]|] eqn:Eg; [|discriminate]. cbn [bind] in H. injection H as <-.
  destruct (gather_gates nm a m Hc Hi x y z Eg) as (A1 & A2 & A3).
  unfold flush. cbn [n_mid n_pre n_post n_used n_mr n_result].
  destruct (nonempty y) eqn:Ny; cbn [n_result].
  2:{ destruct y; [|discriminate]. exact A2. }
  rewrite app_nil_l.
  fold (add_idle nq (used m) (idle nm) z). set (z1 := add_idle nq (used m) (idle nm) z).
  fold (add_idle nq (mrd m) (measure_reset_idle nm) z1). set (z2 := add_idle nq (mrd m) (measure_reset_idle nm) z1).
  assert (S2 : gates (flatten z2) = []) by (apply gates_nil; unfold z2, z1; rewrite !strip_add_idle; now apply gates_nil).
  rewrite !flatten_app, !gates_app, A1, S2, app_nil_r. exact A2.
Qed.
(** every piece with its own ancilla *)
Theorem noisy_gates_corr nm c c' : use_correlated nm = true -> (forall op, In op (instrs c) -> ideal_op op) ->
  noisy_circuit nm c = Ok c' -> gates (flatten c') = flat_map (fun p => flat_map (sub_op nm (fst p)) (snd p)) (pieces c).
Proof.
  intros Hc Hi H. destruct (noisy_circuit_pieces nm c c' (fun i Hi' => proj1 (proj2 (Hi i Hi'))) H) as (outs & F & ->).
  assert (G : forall b m, In (b, m) (pieces c) -> (not_tick m \/ exists i, m = [i] /\ is_tick_name i = true) /\ forall op, In op m -> ideal_op op).
  { intros b m K. destruct (in_pieces c b m K) as [K1 K2]. split; [exact K1|]. auto. }
  clear H. induction F as [|[b m] o ps os R F IH]; [reflexivity|]. cbn [concat flat_map fst snd]. rewrite gates_app.
  f_equal; [|apply IH; intros; eapply G; right; eauto].
  destruct R as (r & Er & ->). cbn [fst snd] in Er. destruct (G b m (or_introl eq_refl)) as [[T|(i & -> & T)] I'].
  - eapply piece_corr; eauto.
  - unfold piece_out in Er. unfold is_tick_name in *. rewrite T in Er. injection Er as <-. cbn [flatten flat_map flatten_item app].
    apply String.eqb_eq in T. destruct (I' i (or_introl eq_refl)) as (_ & P & N). rewrite (P T). unfold sub_op. destruct (op_strength _ _); reflexivity.
Qed.
(** The loop bodies of a circuit, however deep. *)
Fixpoint bodies_item (x : item) : list circuit := match x with I _ => [] | Rep _ b => b :: flat_map bodies_item b end.
Definition bodies (c : circuit) : list circuit := flat_map bodies_item c.
Definition ancillas (c : circuit) : list nat := map circuit_num_qubits (c :: bodies c).
Lemma pieces_item_bodies x : forall b m, In (b, m) (pieces_item x) -> In b (map circuit_num_qubits (bodies_item x)).
Proof.
  induction x as [i|k body IH] using item_ind'; intros b m H; [destruct H|]. rewrite pieces_item_eq in H. apply in_concat in H. destruct H as (l & Hl & H). apply repeat_spec in Hl. subst l.
  cbn [bodies_item map]. assert (K : forall l a now, (forall x, In x l -> forall b m, In (b, m) (pieces_item x) -> In b (map circuit_num_qubits (bodies_item x))) ->
    In (b, m) (cut a now l) -> b = a \/ In b (map circuit_num_qubits (flat_map bodies_item l))).
  { clear. induction l as [|x l IHl]; intros a now IH H; [destruct H as [[= -> _]|[]]; now left|]. destruct x as [i|k b'].
    - cbn [cut] in H. cbn [flat_map bodies_item app]. assert (IH' := fun x Hx => IH x (or_intror Hx)). destruct (is_tick_name i).
      + destruct H as [[= -> _]|[[= -> _]|H]]; [now left | now left | eapply IHl; eauto].
      + eapply IHl; eauto.
    - cbn [cut] in H. cbn [flat_map]. rewrite map_app, in_app_iff. destruct H as [[= -> _]|H]; [now left|]. apply in_app_or in H. destruct H as [H|H].
      + right. left. exact (IH _ (or_introl eq_refl) b m H).
      + destruct (IHl a [] (fun x Hx => IH x (or_intror Hx)) H); auto. }
  destruct (K body (circuit_num_qubits body) [] IH H) as [->|K']; [now left | now right].
Qed.
Lemma pieces_ancillas c b m : In (b, m) (pieces c) -> In b (ancillas c).
Proof. apply (pieces_item_bodies (Rep 1 c)). Qed.

(** ** Independence of the numbering of the random bits *)
Definition at_index (st : fstate) (n : nat) : fstate := mkF (fr st) (frec st) (fdets st) (fobs st) n.
Definition local (step : (nat -> bool) -> fstate -> res fstate) : Prop :=
  forall g st s, step g st = Ok s -> (fgi st <= fgi s)%nat /\
    forall g' n, (forall k, (k < fgi s - fgi st)%nat -> g' (n + k)%nat = g (fgi st + k)%nat) -> step g' (at_index st n) = Ok (at_index s (n + (fgi s - fgi st))).
Lemma local_seq f h : local f -> local h -> local (fun g st => let! s := f g st in h g s).
Proof.
  intros Hf Hh g st s H. destruct (f g st) as [s1|] eqn:E1; [|discriminate]. cbn [bind] in H.
  destruct (Hf g st s1 E1) as [L1 K1]. destruct (Hh g s1 s H) as [L2 K2]. split; [lia|]. intros g' n Hg.
  rewrite (K1 g' n) by (intros k Hk; apply Hg; lia). cbn [bind].
  pose proof (K2 g' (n + (fgi s1 - fgi st))%nat) as K. unfold at_index in *. rewrite K.
  - do 2 f_equal. lia.
  - intros k Hk. replace (n + (fgi s1 - fgi st) + k)%nat with (n + (fgi s1 - fgi st + k))%nat by lia. rewrite Hg by lia. f_equal. lia.
Qed.
Lemma local_pure f : (forall st, match f st with Ok s => fgi s = fgi st | Err _ => True end) ->
  (forall st n, f (at_index st n) = let! s := f st in Ok (at_index s n)) -> local (fun _ => f).
Proof.
  intros H1 H2 g st s E. pose proof (H1 st) as K. rewrite E in K. split; [lia|]. intros g' n _. rewrite H2, E. cbn [bind]. do 2 f_equal. lia.
Qed.
Lemma local_fold {X} (step : (nat -> bool) -> fstate -> X -> fstate) l : (forall x, local (fun g st => Ok (step g st x))) -> local (fun g st => Ok (fold_left (step g) l st)).
Proof.
  intros H. induction l as [|x l IH].
  - apply (local_pure (fun st => Ok st)); intros; reflexivity.
  - intros g st s E. cbn [fold_left] in *.
    exact (local_seq (fun g st => Ok (step g st x)) (fun g st => Ok (fold_left (step g) l st)) (H x) IH g st s E).
Qed.
Lemma local_measure P : local (fun g st => Ok (do_measure g st P)).
Proof.
  intros g st s [= <-]. cbn [do_measure fgi]. split; [lia|]. intros g' n Hg. unfold do_measure, at_index. cbn [fr frec fdets fobs fgi].
  pose proof (Hg O ltac:(lia)) as H0. rewrite !Nat.add_0_r in H0. rewrite H0. do 2 f_equal. lia.
Qed.
Lemma local_reset p q : local (fun g st => Ok (do_reset g p st q)).
Proof.
  intros g st s [= <-]. cbn [do_reset fgi]. split; [lia|]. intros g' n Hg. unfold do_reset, at_index. cbn [fr frec fdets fobs fgi].
  pose proof (Hg O ltac:(lia)) as H0. rewrite !Nat.add_0_r in H0. rewrite H0. do 2 f_equal. lia.
Qed.
Lemma local_instr i : local (fun g st => run_instr g i st).
Proof.
  unfold run_instr. destruct (annotation _); [apply local_pure; reflexivity|].
  destruct (_ =? _)%string.
  { apply (local_pure (fun st => let! b := record_parity (frec st) (itargets i) in Ok (mkF (fr st) (frec st) (fdets st ++ [b]) (fobs st) (fgi st)))); intros st; [|intros n]; cbn [at_index frec fr fdets fobs fgi]; destruct (record_parity _ _); reflexivity || exact Logic.I. }
  destruct (_ =? _)%string.
  { destruct (obs_arg (iargs i)) as [k|]; [|apply (local_pure (fun _ => Err _)); intros; exact Logic.I || reflexivity].
    apply (local_pure (fun st => let! b := record_parity (frec st) (itargets i) in Ok (mkF (fr st) (frec st) (fdets st) (fun x => xorb (fobs st x) (Nat.eqb x k && b)) (fgi st)))); intros st; [|intros n]; cbn [at_index frec fr fdets fobs fgi]; destruct (record_parity _ _); reflexivity || exact Logic.I. }
  destruct (_ =? _)%string.
  { destruct (products (itargets i)) as [l|]; [|apply (local_pure (fun _ => Err _)); intros; exact Logic.I || reflexivity].
    cbn [bind]. apply (local_fold (fun g => do_measure g)). intros; apply local_measure. }
  destruct (gate1 _) as [f|].
  { destruct (qubit_targets (itargets i)) as [l|]; [|apply (local_pure (fun _ => Err _)); intros; exact Logic.I || reflexivity]. apply (local_pure (fun st => Ok (with_fr st (fold_left (ap1 f) l (fr st))))); intros; reflexivity. }
  destruct (gate2 _) as [[P Q]|].
  { destruct (qubit_targets (itargets i)) as [l|]; [|apply (local_pure (fun _ => Err _)); intros; exact Logic.I || reflexivity].
    apply (local_pure (fun st => let! f := run_pairs P Q l (fr st) in Ok (with_fr st f))); intros st; [|intros n]; cbn [at_index fr]; destruct (run_pairs _ _ _ _); reflexivity || exact Logic.I. }
  destruct (reset_gate _) as [p|].
  { destruct (qubit_targets (itargets i)) as [l|]; [|apply (local_pure (fun _ => Err _)); intros; exact Logic.I || reflexivity].
    apply (local_fold (fun g => do_reset g p)). intros; apply local_reset. }
  destruct (measure_gate _) as [p|].
  { destruct (qubit_targets (itargets i)) as [l|]; [|apply (local_pure (fun _ => Err _)); intros; exact Logic.I || reflexivity].
    apply (local_fold (fun g st q => do_measure g st [(p, q)])). intros; apply local_measure. }
  apply (local_pure (fun _ => Err _)); intros; exact Logic.I || reflexivity.
Qed.
Lemma local_run l : local (fun g => run g l).
Proof.
  induction l as [|i l IH]; [apply (local_pure (fun st => Ok st)); intros; reflexivity|]. exact (local_seq _ _ (local_instr i) IH).
Qed.

(** States reachable for some random bits; [off a] compares everything but the frame on qubit a. *)
Definition may (l : list instr) (st s : fstate) : Prop := exists g n n', run g l (at_index st n) = Ok (at_index s n').
Lemma may_run g l st s : run g l st = Ok s -> may l st s.
Proof. intros H. exists g, (fgi st), (fgi s). now destruct st, s. Qed.
Lemma may_app l1 l2 st s s' : may l1 st s -> may l2 s s' -> may (l1 ++ l2) st s'.
Proof.
  intros (g1 & n1 & n1' & H1) (g2 & n2 & n2' & H2). destruct (local_run l1 _ _ _ H1) as [L1 K1]. destruct (local_run l2 _ _ _ H2) as [L2 K2].
  unfold at_index in *. cbn [fgi fr frec fdets fobs] in *.
  set (w := (n1' - n1)%nat) in *. exists (fun i => if (i <? w)%nat then g1 (n1 + i)%nat else g2 (n2 + (i - w))%nat), O, (w + (n2' - n2))%nat.
  rewrite run_app. rewrite (K1 _ O).
  2:{ intros k Hk. cbn [Nat.add]. apply Nat.ltb_lt in Hk. now rewrite Hk. }
  cbn [bind Nat.add]. rewrite (K2 _ w); [reflexivity|]. intros k Hk. replace (w + k <? w)%nat with false by (symmetry; apply Nat.ltb_ge; lia). f_equal. lia.
Qed.
Lemma may_app_inv l1 l2 st s' : may (l1 ++ l2) st s' -> exists s, may l1 st s /\ may l2 s s'.
Proof.
  intros (g & n & n' & H). rewrite run_app in H. destruct (run g l1 (at_index st n)) as [s|] eqn:E; [|discriminate]. cbn [bind] in H. exists s. split.
  - exists g, n, (fgi s). rewrite E. now destruct s.
  - exists g, (fgi s), n'. replace (at_index s (fgi s)) with s by now destruct s. exact H.
Qed.

(** ** The replacement behaves like the pair measurement *)
(** Everything but the frame on the qubits of A is the same. *)
Definition off (a : nat -> Prop) (st st' : fstate) : Prop :=
  frec st' = frec st /\ fdets st' = fdets st /\ fobs st' = fobs st /\ forall q, ~ a q -> fr st' q = fr st q.
Definition simulates (a : nat -> Prop) (l l' : list instr) : Prop := forall st st', off a st st' ->
  (forall s, may l st s -> exists s', may l' st' s' /\ off a s s') /\ (forall s', may l' st' s' -> exists s, may l st s /\ off a s s').
Lemma simulates_nil a : simulates a [] [].
Proof.
  intros st st' H. split; intros s (g & n & n' & E); injection E as E1 E2 E3 E4 E5.
  - exists st'. split; [apply (may_run g), eq_refl|]. destruct H as (H1 & H2 & H3 & H4). repeat split; try congruence. intros q Hq. rewrite <- E1. auto.
  - exists st. split; [apply (may_run g), eq_refl|]. destruct H as (H1 & H2 & H3 & H4). repeat split; try congruence. intros q Hq. rewrite <- E1. auto.
Qed.
Lemma simulates_app a l1 l1' l2 l2' : simulates a l1 l1' -> simulates a l2 l2' -> simulates a (l1 ++ l2) (l1' ++ l2').
Proof.
  intros H1 H2 st st' H. split; intros s M; apply may_app_inv in M as (s1 & M1 & M2).
  - destruct (proj1 (H1 st st' H) s1 M1) as (s1' & N1 & O1). destruct (proj1 (H2 s1 s1' O1) s M2) as (s2' & N2 & O2). exists s2'. split; [eapply may_app; eauto | exact O2].
  - destruct (proj2 (H1 st st' H) s1 M1) as (s1' & N1 & O1). destruct (proj2 (H2 s1' s1 O1) s M2) as (s2' & N2 & O2). exists s2'. split; [eapply may_app; eauto | exact O2].
Qed.
(** an instruction that does not touch the ancilla *)
Lemma off_at a st st' n : off a st st' -> off a (at_index st n) (at_index st' n).
Proof. intros H. exact H. Qed.
Lemma off_fold {X} (f f' : fstate -> X -> fstate) a l : (forall x st st', In x l -> off a st st' /\ fgi st = fgi st' -> off a (f st x) (f' st' x) /\ fgi (f st x) = fgi (f' st' x)) ->
  forall st st', off a st st' /\ fgi st = fgi st' -> off a (fold_left f l st) (fold_left f' l st') /\ fgi (fold_left f l st) = fgi (fold_left f' l st').
Proof.
  induction l as [|x l IH]; intros H st st' Ho; [exact Ho|]. cbn [fold_left]. apply IH; [intros; apply H; [now right | assumption]|]. apply H; [now left | exact Ho].
Qed.
Lemma ap1_off (a : nat -> Prop) f q (s s' : nat -> bits) : (forall x, ~ a x -> s' x = s x) -> forall x, ~ a x -> ap1 f s' q x = ap1 f s q x.
Proof. intros H x Hx. unfold ap1. rewrite H by exact Hx. reflexivity. Qed.
Lemma fold_ap1_off (a : nat -> Prop) (fs : list ((bits -> bits) * nat)) : forall (s s' : nat -> bits), (forall x, ~ a x -> s' x = s x) ->
  forall x, ~ a x -> fold_left (fun f pq => ap1 (fst pq) f (snd pq)) fs s' x = fold_left (fun f pq => ap1 (fst pq) f (snd pq)) fs s x.
Proof. induction fs as [|[h q] fs IH]; intros s s' H x Hx; [auto|]. cbn [fold_left]. apply IH; [|exact Hx]. intros y Hy. now apply (ap1_off a). Qed.
Lemma measure_off g a P st st' : (forall p q, In (p, q) P -> ~ a q) -> off a st st' /\ fgi st = fgi st' ->
  off a (do_measure g st P) (do_measure g st' P) /\ fgi (do_measure g st P) = fgi (do_measure g st' P).
Proof.
  intros HP [(H1 & H2 & H3 & H4) Hg]. unfold do_measure. cbn [fgi]. split; [|now rewrite Hg]. unfold off. cbn [frec fdets fobs fr]. rewrite <- Hg, H1, H2, H3. repeat split.
  - f_equal. f_equal. clear -HP H4. induction P as [|[p q] P IH]; [reflexivity|]. rewrite !xsum_cons. cbn [fst snd]. rewrite (H4 q) by (eapply HP; now left). f_equal. apply IH. intros; eapply HP; now right; eauto.
  - intros x Hx. generalize (g (fgi st)). intros b. revert H4. generalize (fr st), (fr st'). clear -Hx. induction P as [|pq P IH]; intros s s' H4; [cbn; auto|]. cbn [fold_left]. apply IH. intros y Hy. now apply (ap1_off a).
Qed.
Lemma reset_off g a p q st st' : off a st st' /\ fgi st = fgi st' -> off a (do_reset g p st q) (do_reset g p st' q) /\ fgi (do_reset g p st q) = fgi (do_reset g p st' q).
Proof.
  intros [(H1 & H2 & H3 & H4) Hg]. unfold do_reset, off. cbn [frec fdets fobs fr fgi]. rewrite Hg. repeat split; auto. intros x Hx. now apply (ap1_off a).
Qed.
Lemma pairs_off (a : nat -> Prop) P Q l : (forall q, In q l -> ~ a q) -> forall s s' : nat -> bits, (forall x, ~ a x -> s' x = s x) ->
  match run_pairs P Q l s, run_pairs P Q l s' with Ok r, Ok r' => forall x, ~ a x -> r' x = r x | Err e, Err e' => True | _, _ => False end.
Proof.
  intros H. enough (K : forall n, (length l <= n)%nat -> (forall q, In q l -> ~ a q) -> forall s s' : nat -> bits, (forall x, ~ a x -> s' x = s x) ->
    match run_pairs P Q l s, run_pairs P Q l s' with Ok r, Ok r' => forall x, ~ a x -> r' x = r x | Err e, Err e' => True | _, _ => False end) by exact (K _ (le_n _) H).
  intros n. clear H. revert l. induction n as [|n IH]; intros l Hl Hq s s' Hs; (destruct l as [|c [|t l]]; [exact Hs | exact Logic.I |]); [cbn in Hl; lia|]. cbn [run_pairs].
  destruct (Nat.eqb c t); [exact Logic.I|]. apply IH; [cbn in Hl; lia | intros; apply Hq; now do 2 right |]. intros x Hx. unfold ap2. rewrite (Hs c), (Hs t), (Hs x); auto; apply Hq; cbn; auto.
Qed.
Lemma products_qubits ts l : products ts = Ok l -> forall P p q, In P l -> In (p, q) P -> In q (tqubits ts).
Proof.
  enough (K : forall n ts, (length ts <= n)%nat -> forall l, products ts = Ok l -> forall P p q, In P l -> In (p, q) P -> In q (tqubits ts)) by exact (K _ ts (le_n _) l).
  clear. induction n as [|n IH]; intros ts Hn l H P p q HP Hq.
  { destruct ts; [|cbn in Hn; lia]. injection H as <-. destruct HP. }
  destruct ts as [|t ts]; [injection H as <-; destruct HP|]. destruct t as [| |p0 q0|]; try discriminate. cbn in Hn.
  assert (D : (exists r, ts = TComb :: r) \/ products (TP p0 q0 :: ts) = let! l := products ts in Ok ([(p0, q0)] :: l)).
  { destruct ts as [|[| | |] r]; try (right; reflexivity). left. eauto. }
  destruct D as [(r & ->)|D].
  - cbn [products] in H. destruct (products r) as [l'|] eqn:E; [|discriminate]. cbn [bind] in H. destruct l' as [|P0 l']; [discriminate|]. injection H as <-.
    cbn [tqubits flat_map tqubit app]. fold (tqubits r). destruct HP as [<-|HP].
    + destruct Hq as [[= _ <-]|Hq]; [now left|]. right. eapply (IH r ltac:(cbn in Hn; lia) _ E P0); eauto. now left.
    + right. eapply (IH r ltac:(cbn in Hn; lia) _ E P); eauto. now right.
  - rewrite D in H. destruct (products ts) as [l'|] eqn:E; [|discriminate]. cbn [bind] in H. injection H as <-. cbn [tqubits flat_map tqubit app]. fold (tqubits ts). destruct HP as [<-|HP].
    + destruct Hq as [[= _ <-]|[]]. now left.
    + right. eapply (IH ts ltac:(lia) _ E P); eauto.
Qed.
Lemma qubit_targets_in ts l : qubit_targets ts = Ok l -> forall q, In q l -> In q (tqubits ts).
Proof.
  revert l. induction ts as [|t ts IH]; intros l H q Hq; cbn [qubit_targets] in H; [injection H as <-; destruct Hq|]. destruct t; try discriminate.
  destruct (qubit_targets ts) as [l'|] eqn:E; [|discriminate]. injection H as <-. destruct Hq as [<-|Hq]; [now left|]. right. eapply IH; eauto.
Qed.
Lemma instr_off g a i st st' : (forall q, In q (tqubits (itargets i)) -> ~ a q) -> off a st st' /\ fgi st = fgi st' ->
  match run_instr g i st, run_instr g i st' with Ok s, Ok s' => off a s s' /\ fgi s = fgi s' | Err _, Err _ => True | _, _ => False end.
Proof.
  intros Hq Ho. pose proof Ho as [(H1 & H2 & H3 & H4) Hg]. unfold run_instr.
  destruct (annotation _); [exact Ho|]. destruct (_ =? _)%string.
  { rewrite H1. destruct (record_parity _ _); [|exact Logic.I]. cbn [bind]. split; [|exact Hg]. unfold off. cbn [frec fdets fobs fr]. rewrite H2. auto. }
  destruct (_ =? _)%string.
  { destruct (obs_arg _); [|exact Logic.I]. cbn [bind]. rewrite H1. destruct (record_parity _ _); [|exact Logic.I]. cbn [bind]. split; [|exact Hg]. unfold off. cbn [frec fdets fobs fr]. rewrite H3. auto. }
  destruct (_ =? _)%string.
  { destruct (products (itargets i)) as [l|] eqn:E; [|exact Logic.I]. cbn [bind]. apply off_fold; [|exact Ho]. intros P s s' HP Hs. apply measure_off; [|exact Hs]. intros p q K. apply Hq. eapply products_qubits; eauto. }
  destruct (gate1 _) as [f|].
  { destruct (qubit_targets (itargets i)) as [l|] eqn:E; [|exact Logic.I]. cbn [bind]. split; [|exact Hg]. unfold off, with_fr. cbn [frec fdets fobs fr]. split; [exact H1|]. split; [exact H2|]. split; [exact H3|].
    clear -H4. revert H4. generalize (fr st), (fr st'). induction l as [|q l IH]; intros s s' H4; [exact H4|]. cbn [fold_left]. apply IH. intros x Hx. now apply (ap1_off a). }
  destruct (gate2 _) as [[P Q]|].
  { destruct (qubit_targets (itargets i)) as [l|] eqn:E; [|exact Logic.I]. cbn [bind]. pose proof (pairs_off a P Q l (fun q K => Hq q (qubit_targets_in _ _ E q K)) _ _ H4) as K.
    destruct (run_pairs P Q l (fr st)), (run_pairs P Q l (fr st')); try contradiction; [|exact Logic.I]. cbn [bind]. split; [|exact Hg]. unfold off, with_fr. cbn [frec fdets fobs fr]. auto. }
  destruct (reset_gate _) as [p|].
  { destruct (qubit_targets (itargets i)) as [l|] eqn:E; [|exact Logic.I]. cbn [bind]. apply off_fold; [|exact Ho]. intros. now apply reset_off. }
  destruct (measure_gate _) as [p|].
  { destruct (qubit_targets (itargets i)) as [l|] eqn:E; [|exact Logic.I]. cbn [bind]. apply (off_fold (fun st q => do_measure g st [(p, q)]) (fun st q => do_measure g st [(p, q)])); [|exact Ho].
    intros q s s' K Hs. apply measure_off; [|exact Hs]. intros p' q' [[= _ <-]|[]]. apply Hq. eapply qubit_targets_in; eauto. }
  exact Logic.I.
Qed.
Lemma off_sym a st st' : off a st st' -> off a st' st.
Proof. intros (H1 & H2 & H3 & H4). repeat split; auto. intros q Hq. symmetry. auto. Qed.
Lemma may_one g i st s n n' : run_instr g i (at_index st n) = Ok (at_index s n') -> may [i] st s.
Proof. intros H. exists g, n, n'. cbn [run]. now rewrite H. Qed.
Lemma simulates_same a i : (forall q, In q (tqubits (itargets i)) -> ~ a q) -> simulates a [i] [i].
Proof.
  intros Hq. assert (K : forall st st', off a st st' -> forall s, may [i] st s -> exists s', may [i] st' s' /\ off a s s').
  { intros st st' H s (g & n & n' & E). cbn [run] in E. destruct (run_instr g i (at_index st n)) as [s1|] eqn:E1; [|discriminate]. injection E as ->.
    pose proof (instr_off g a i (at_index st n) (at_index st' n) Hq (conj H eq_refl)) as F. rewrite E1 in F. destruct (run_instr g i (at_index st' n)) as [s'|] eqn:E'; [|contradiction].
    exists s'. split; [|exact (proj1 F)]. apply (may_one g i st' s' n (fgi s')). rewrite E'. now destruct s'. }
  intros st st' H. split; [now apply K|]. intros s' M. destruct (K st' st (off_sym _ _ _ H) s' M) as (s & M' & O). exists s. split; [exact M' | now apply off_sym].
Qed.

(** ** One pair *)
Definition mpp1 (p1 : pauli) (q1 : nat) (p2 : pauli) (q2 : nat) : list instr := [mkI "MPP" [TP p1 q1; TComb; TP p2 q2] []].
Definition meas2 g p1 q1 p2 q2 st := do_measure g st [(p1, q1); (p2, q2)].
Lemma run_mpp1 g p1 q1 p2 q2 st : run g (mpp1 p1 q1 p2 q2) st = Ok (meas2 g p1 q1 p2 q2 st).
Proof. reflexivity. Qed.
(** the couplings one after the other *)
Definition gadget_end g p1 q1 p2 q2 a st :=
  do_measure g (with_fr (do_reset g PZ st a) (ap2 p2 PX (ap2 p1 PX (fr (do_reset g PZ st a)) q1 a) q2 a)) [(PZ, a)].
Lemma run_gadget g p1 q1 p2 q2 a st : q1 <> a -> q2 <> a -> run g (gadget (TP p1 q1) (TP p2 q2) a) st = Ok (gadget_end g p1 q1 p2 q2 a st).
Proof.
  intros N1 N2. apply Nat.eqb_neq in N1, N2. unfold gadget, both. rewrite run_app.
  assert (E : run g (flatten (couple (TP p2 q2) a (couple (TP p1 q1) a [I (mkI "R" (qs [a]) [])]))) st =
    Ok (with_fr (do_reset g PZ st a) (ap2 p2 PX (ap2 p1 PX (fr (do_reset g PZ st a)) q1 a) q2 a))).
  { destruct p1, p2; cbn -[Nat.eqb do_reset ap2]; rewrite ?N1; cbn -[Nat.eqb do_reset ap2]; rewrite ?N2; reflexivity. }
  rewrite E. reflexivity.
Qed.
Lemma gadget_off (A : nat -> Prop) g g' p1 q1 p2 q2 a st st' : A a -> q1 <> q2 -> ~ A q1 -> ~ A q2 -> g (fgi st) = g' (fgi st') -> off A st st' -> off A (meas2 g p1 q1 p2 q2 st) (gadget_end g' p1 q1 p2 q2 a st').
Proof.
  intros Ha N0 N1 N2 Hg (H1 & H2 & H3 & H4). assert (Eq : Nat.eqb q2 q1 = false) by (apply Nat.eqb_neq; congruence). unfold meas2, gadget_end, do_measure, do_reset, with_fr, off. cbn [frec fdets fobs fr fgi fold_left fst snd map]. rewrite H1, H2, H3, <- Hg.
  assert (B : forall x : bits, bxor x bzero = x) by (intros [[] []]; reflexivity).
  assert (M1 : Nat.eqb a q1 = false) by (apply Nat.eqb_neq; congruence). assert (M2 : Nat.eqb a q2 = false) by (apply Nat.eqb_neq; congruence).
  assert (M1' : Nat.eqb q1 a = false) by (apply Nat.eqb_neq; congruence). assert (M2' : Nat.eqb q2 a = false) by (apply Nat.eqb_neq; congruence).
  split; [|split; [reflexivity|split; [reflexivity|]]].
  - f_equal. f_equal. rewrite !xsum_cons. unfold xsum, fold_right. cbn [fst snd]. rewrite !xorb_false_r. unfold ap2, ap1. rewrite !Nat.eqb_refl, M1, M2, M1', M2', (H4 q1 N1), (H4 q2 N2).
    rewrite Eq. destruct (fr st q1) as [[] []], (fr st q2) as [[] []], (g (fgi st)), p1, p2; reflexivity.
  - intros x Hx'. assert (Hx : Nat.eqb x a = false) by (apply Nat.eqb_neq; congruence). unfold ap2, ap1. rewrite ?Nat.eqb_refl, ?M1, ?M2, ?M1', ?M2', ?Hx. rewrite (H4 q1 N1), (H4 q2 N2), (H4 x Hx').
    destruct (Nat.eqb x q2) eqn:E2; [apply Nat.eqb_eq in E2; subst x|].
    + rewrite Eq. destruct (fr st q1) as [[] []], (fr st q2) as [[] []], (g (fgi st)), p1, p2; reflexivity.
    + destruct (Nat.eqb x q1) eqn:E1; [apply Nat.eqb_eq in E1; subst x|reflexivity].
      destruct (fr st q1) as [[] []], (g (fgi st)), p1, p2; reflexivity.
Qed.
Lemma Ok_inj {A} (x y : A) : Ok x = Ok y -> x = y.
Proof. now intros [= ->]. Qed.
Lemma simulates_pair (A : nat -> Prop) a p1 q1 p2 q2 : A a -> q1 <> q2 -> ~ A q1 -> ~ A q2 -> simulates A (mpp1 p1 q1 p2 q2) (gadget (TP p1 q1) (TP p2 q2) a).
Proof.
  intros Ha N0 N1 N2 st st' H. assert (q1 <> a) by congruence. assert (q2 <> a) by congruence. split; intros s (g & n & n' & E).
  - rewrite run_mpp1 in E. apply Ok_inj in E.
    assert (R : run (fun _ => g n) (gadget (TP p1 q1) (TP p2 q2) a) st' = Ok (gadget_end (fun _ => g n) p1 q1 p2 q2 a st')) by now apply run_gadget.
    exists (gadget_end (fun _ => g n) p1 q1 p2 q2 a st'). split; [exact (may_run _ _ _ _ R)|].
    change (off A (at_index s n') (gadget_end (fun _ => g n) p1 q1 p2 q2 a st')). rewrite <- E. now apply gadget_off.
  - rewrite run_gadget in E by assumption. apply Ok_inj in E.
    exists (meas2 (fun _ => g n) p1 q1 p2 q2 st). split; [exact (may_run _ _ _ _ (run_mpp1 _ _ _ _ _ _))|].
    change (off A (meas2 (fun _ => g n) p1 q1 p2 q2 st) (at_index s n')). rewrite <- E. now apply gadget_off.
Qed.

(** ** Whole instructions and circuits *)
Definition pair_targets (l : list (pauli * nat * pauli * nat)) : list target := flat_map (fun '(p1, q1, p2, q2) => [TP p1 q1; TComb; TP p2 q2]) l.
Definition pauli_pairs (op : instr) : Prop := iname op = "MPP"%string -> exists l, itargets op = pair_targets l /\ forall p1 q1 p2 q2, In (p1, q1, p2, q2) l -> q1 <> q2.
Lemma products_pair_targets l : products (pair_targets l) = Ok (map (fun '(p1, q1, p2, q2) => [(p1, q1); (p2, q2)]) l).
Proof.
  induction l as [|[[[p1 q1] p2] q2] l IH]; [reflexivity|]. unfold pair_targets in *. cbn [flat_map app map]. cbn [products]. destruct l as [|[[[p1' q1'] p2'] q2'] l]; [reflexivity|].
  cbn [flat_map app] in *. now rewrite IH.
Qed.
Lemma triples_pair_targets l : triples (pair_targets l) = Some (map (fun '(p1, q1, p2, q2) => (TP p1 q1, TComb, TP p2 q2)) l).
Proof. induction l as [|[[[p1 q1] p2] q2] l IH]; [reflexivity|]. unfold pair_targets in *. cbn [flat_map app map triples]. now rewrite IH. Qed.
Lemma run_mpp_pairs g name l args st : canon name = "MPP"%string -> run g [mkI name (pair_targets l) args] st = run g (flat_map (fun '(p1, q1, p2, q2) => mpp1 p1 q1 p2 q2) l) st.
Proof.
  intros Hn. unfold run at 1. unfold run_instr. cbn [iname itargets]. rewrite Hn.
  cbn [annotation existsb String.eqb Ascii.eqb Bool.eqb orb]. rewrite products_pair_targets. cbn [bind].
  revert st. induction l as [|[[[p1 q1] p2] q2] l IH]; intros st; [reflexivity|]. cbn [map fold_left flat_map]. rewrite run_app, run_mpp1. cbn [bind]. apply IH.
Qed.
Lemma simulates_ext A l1 l2 l' : (forall g st, run g l1 st = run g l2 st) -> simulates A l2 l' -> simulates A l1 l'.
Proof.
  intros E H st st' Ho. destruct (H st st' Ho) as [A1 B1]. split; intros s M.
  - apply A1. destruct M as (g & n & n' & M). exists g, n, n'. now rewrite <- E.
  - destruct (B1 s M) as (s1 & (g & n & n' & M') & O). exists s1. split; [|exact O]. exists g, n, n'. now rewrite E.
Qed.
Lemma simulates_op nm (A : nat -> Prop) a op : A a -> ideal_op op -> pauli_pairs op -> (forall q, In q (tqubits (itargets op)) -> ~ A q) -> simulates A [op] (sub_op nm a op).
Proof.
  intros Ha (Ec & _) Hp Hq. unfold sub_op. destruct (op_strength nm op) as [p|]; [|now apply simulates_same].
  destruct (String.eqb_spec (iname op) "MPP") as [M|M]; [|now apply simulates_same]. cbn [andb]. destruct (Qlt_bool 0 p); [|now apply simulates_same].
  destruct (Hp M) as (l & El & Hd). destruct op as [name ts args]. cbn [itargets iname] in *. subst ts. rewrite triples_pair_targets.
  eapply simulates_ext; [intros; apply run_mpp_pairs; congruence|]. clear -Ha Hq Hd. induction l as [|[[[p1 q1] p2] q2] l IH]; [apply simulates_nil|]. cbn [flat_map map].
  apply simulates_app; [apply simulates_pair; [exact Ha | eapply Hd; now left | apply Hq; cbn; auto | apply Hq; cbn; auto]|]. apply IH; [|intros; eapply Hd; right; eassumption]. intros q K. apply Hq. unfold pair_targets, tqubits. cbn. right. right. exact K.
Qed.
Lemma simulates_ops nm (A : nat -> Prop) a l : A a -> (forall op, In op l -> ideal_op op /\ pauli_pairs op /\ forall q, In q (tqubits (itargets op)) -> ~ A q) -> simulates A l (flat_map (sub_op nm a) l).
Proof.
  intros Ha. induction l as [|op l IH]; intros H; [apply simulates_nil|]. cbn [flat_map]. change (op :: l) with ([op] ++ l).
  destruct (H op (or_introl eq_refl)) as (A1 & B1 & C1). apply simulates_app; [now apply simulates_op|]. apply IH. intros; apply H; now right.
Qed.
Lemma simulates_pieces nm (A : nat -> Prop) (ps : list (nat * list instr)) :
  (forall b m, In (b, m) ps -> A b /\ forall op, In op m -> ideal_op op /\ pauli_pairs op /\ forall q, In q (tqubits (itargets op)) -> ~ A q) ->
  simulates A (flat_map snd ps) (flat_map (fun p => flat_map (sub_op nm (fst p)) (snd p)) ps).
Proof.
  induction ps as [|[b m] ps IH]; intros H; [apply simulates_nil|]. cbn [flat_map fst snd]. destruct (H b m (or_introl eq_refl)) as [Ha Hm].
  apply simulates_app; [now apply simulates_ops|]. apply IH. intros; apply H; now right.
Qed.
