(** The whole circuit as an explicit instruction list. *)
From Coq Require Import QArith.
From Verif Require Import Prelude Layout LayoutFacts LayoutEdges LayoutLists LayoutHex LayoutHex2 Pauli LayoutObs LayoutLogic LayoutIndex
  Tracker TrackerFacts Stim Circuit Annot Shift Ends Gen Gen2.
Open Scope Z_scope.

Section W.
  Variable lay : layout.
  Hypothesis Hv : valid lay.
  Hypothesis Hobs : obs lay = "V"%string \/ obs lay = "H"%string.
  Notation ix := (ix lay).
  Notation n := (sub_rounds lay).
  Notation trk := (trk lay (tr0 lay)).
  Notation follows := (follows lay).
  Local Opaque data_qubit_coords measure_qubit_coords q2i_dict hex_entries hexes round_edges all_edges isort.

  Definition coord_i (q : cpx) : instr := mkI "QUBIT_COORDS" [TQ (ix q)] [coord (fst q); coord (snd q)].
  Definition coords_i : list instr := map coord_i (used_qubit_coords lay).

  Lemma used_in q : In q (used_qubit_coords lay) -> In q (qubits lay).
  Proof.
    unfold used_qubit_coords. destruct (is_em3 (style lay)).
    - intros H. apply in_or_app. now left.
    - rewrite q2i_dict_keys by exact Hv. auto.
  Qed.
  Lemma NoDup_used : NoDup (used_qubit_coords lay).
  Proof.
    unfold used_qubit_coords. destruct (is_em3 (style lay)); [apply NoDup_data|]. rewrite q2i_dict_keys by exact Hv. now apply NoDup_qubits.
  Qed.
  Lemma coord_args_inj a b : nums_eqb [coord (fst a); coord (snd a)] [coord (fst b); coord (snd b)] = true -> a = b.
  Proof.
    cbn [nums_eqb num_eqb coord]. unfold coord. cbn [num_eqb]. rewrite !andb_true_iff, !Qeq_bool_iff. unfold Qeq. cbn [Qnum Qden].
    destruct a, b; cbn [fst snd]. intros (H1 & H2 & _). f_equal; lia.
  Qed.
  Lemma append_coord c q q' : q <> q' -> append_instr (c ++ [I (coord_i q)]) (coord_i q') = c ++ [I (coord_i q); I (coord_i q')].
  Proof.
    intros H. induction c as [|x c IH].
    - cbn [app append_instr]. destruct (nums_eqb _ _) eqn:En; [|now rewrite andb_false_r].
      exfalso. apply H. symmetry. now apply coord_args_inj.
    - cbn [app]. destruct (c ++ [I (coord_i q)]) as [|y r] eqn:Ec; [destruct c; discriminate|].
      replace (append_instr (x :: y :: r) (coord_i q')) with (x :: append_instr (y :: r) (coord_i q')) by (destruct x; reflexivity).
      now rewrite IH.
  Qed.
  Definition coord_step (q : cpx) (result : circuit) : res circuit :=
    let! i := q2i lay q in Ok (append_operation result "QUBIT_COORDS" [TQ i] [coord (fst q); coord (snd q)]).
  Lemma coord_step_eq q c : In q (qubits lay) -> coord_step q c = Ok (append_instr c (coord_i q)).
  Proof. intros H. unfold coord_step. rewrite q2i_ix by assumption. reflexivity. Qed.
  Lemma coords_loop l : forall q c, ~ In q l -> NoDup l -> (forall x, In x l -> In x (qubits lay)) ->
    for_ l coord_step (c ++ [I (coord_i q)]) = Ok (c ++ map I (map coord_i (q :: l))).
  Proof.
    induction l as [|q' l IH]; intros q c Hq Hn Hu; [reflexivity|]. cbn [for_].
    rewrite coord_step_eq by (apply Hu; now left). rewrite append_coord by (intros ->; apply Hq; now left). rewrite bind_ok.
    inversion Hn as [|? ? Hq' Hn']; subst. replace (c ++ [I (coord_i q); I (coord_i q')]) with ((c ++ [I (coord_i q)]) ++ [I (coord_i q')]) by (now rewrite <- app_assoc).
    rewrite IH; [|exact Hq' | exact Hn' | intros; apply Hu; now right]. cbn [map]. now rewrite <- app_assoc.
  Qed.
  Lemma coords_eq : qubit_coords lay = Ok (map I coords_i).
  Proof.
    unfold qubit_coords, coords_i. fold coord_step. pose proof NoDup_used as Hn. pose proof used_in as Hu. destruct (used_qubit_coords lay) as [|q l]; [reflexivity|].
    cbn [for_]. rewrite coord_step_eq by (apply Hu; now left). rewrite bind_ok. inversion Hn; subst.
    apply (coords_loop l q []); auto. intros; apply Hu; now right.
  Qed.

  (** The sub-rounds of the layout's style. *)
  Definition body_i : list instr :=
    if (style lay =? "SD6")%string then sd6_body lay
    else if (style lay =? "PC3")%string then pc3_body lay
    else if is_em3 (style lay) then em3_body lay
    else si_body lay.
  (** The instructions a loop body can start with. *)
  Definition unit_i : nat -> list instr :=
    if (style lay =? "SD6")%string then sd6_step_i lay
    else if (style lay =? "PC3")%string then pc3_i lay
    else if is_em3 (style lay) then em3_i lay
    else si_i lay.
  Definition circuit_i : list instr := coords_i ++ init_i lay ++ body_i ++ fin lay (trk (Z.to_nat n)).
  Definition supported : Prop :=
    1 <= n /\ (style lay = "SD6" \/ style lay = "PC3" \/ style lay = "EM3" \/ style lay = "EM3_v2" \/ style lay = "SI1000" /\ n mod 3 = 0)%string.

  Lemma rounds_eq tr : supported -> follows 0 tr 0 ->
    (exists c tr' d, generate_rounds lay tr = Ok (c, tr') /\ (flatten c = body_i /\ folded unit_i c) /\ follows d tr' (Z.to_nat n)) /\
    (exists tr', unrolled_rounds lay tr = Ok (map I body_i, tr') /\ follows 0 tr' (Z.to_nat n)).
  Proof.
    intros (Hn & Hs) Hf. unfold generate_rounds, unrolled_rounds, body_i, unit_i.
    assert (Hp : forall s, style lay = s -> (s =? "PC3")%string = false -> pc3 lay = false) by (intros s <-; auto).
    destruct Hs as [Es|[Es|[Es|[Es|[Es H3]]]]]; rewrite Es; cbn [String.eqb Ascii.eqb Bool.eqb is_em3 orb].
    - split; [apply gen_sd6_eq | apply unrolled_sd6_eq]; eauto.
    - split; [apply gen_pc3_eq | apply unrolled_pc3_eq]; eauto.
    - change (is_em3 "EM3") with true. split; [apply gen_em3_eq | apply unrolled_em3_eq]; eauto.
    - change (is_em3 "EM3_v2") with true. split; [apply gen_em3_eq | apply unrolled_em3_eq]; eauto.
    - change (is_em3 "SI1000") with false. cbn iota. split; [apply gen_SI1000_eq | apply unrolled_SI1000_eq]; eauto.
  Qed.

  Lemma generate_shape : supported -> exists c, generate_ideal_circuit lay = Ok c /\ flatten c = circuit_i /\ folded unit_i c.
  Proof.
    intros Hs. unfold generate_ideal_circuit. rewrite coords_eq, bind_ok.
    destruct (init_follow lay Hv Hobs) as (t1 & E1 & F1). step E1.
    destruct (rounds_eq t1 Hs F1) as ((c & t2 & d & E2 & (Fl & Lo) & F2) & _). step E2.
    destruct (fin_follow lay Hv Hobs d t2 _ F2) as (t3 & E3). step E3.
    eexists. split; [reflexivity|]. split; [rewrite !flatten_app, !flatten_I, Fl; reflexivity|].
    rewrite app_assoc, <- map_app. apply folded_pre; [|now apply folded_post].
    apply ends_tick_app. unfold init_i, hdata. destruct (pauli_eqb _ _); [exists [mkI "R" (qs (used_ix lay)) []]; reflexivity|].
    apply ends_tick_app. eexists [_]. reflexivity.
  Qed.
  Lemma generate_eq : supported -> exists c, generate_ideal_circuit lay = Ok c /\ flatten c = circuit_i.
  Proof. intros Hs. destruct (generate_shape Hs) as (c & E1 & E2 & _). eauto. Qed.
  Lemma unrolled_eq : supported -> unrolled_circuit lay = Ok (map I circuit_i).
  Proof.
    intros Hs. unfold unrolled_circuit. rewrite coords_eq, bind_ok.
    destruct (init_follow lay Hv Hobs) as (t1 & E1 & F1). step E1.
    destruct (rounds_eq t1 Hs F1) as (_ & (t2 & E2 & F2)). step E2.
    destruct (fin_follow lay Hv Hobs 0 t2 _ F2) as (t3 & E3). step E3.
    unfold circuit_i. now rewrite !map_app.
  Qed.
  (** Inputs that are rejected. *)
  Lemma reject_zero : n = 0 -> generate_ideal_circuit lay = Err NotImplementedError.
  Proof.
    intros H0. unfold generate_ideal_circuit. rewrite coords_eq, bind_ok.
    destruct (init_follow lay Hv Hobs) as (t1 & E1 & F1). step E1.
    unfold generate_rounds, generate_rounds_sd6, generate_rounds_pc3, generate_rounds_em3, generate_rounds_SI1000. rewrite H0. cbn [Z.eqb bind].
    destruct (_ =? _)%string; [reflexivity|]. destruct (_ =? _)%string; [reflexivity|]. destruct (is_em3 _); [reflexivity|]. destruct (_ =? _)%string; reflexivity.
  Qed.
  Lemma reject_style : (forall s, In s ["SD6"; "PC3"; "EM3"; "EM3_v2"; "SI1000"]%string -> style lay <> s) -> generate_ideal_circuit lay = Err NotImplementedError.
  Proof.
    intros H. unfold generate_ideal_circuit. rewrite coords_eq, bind_ok.
    destruct (init_follow lay Hv Hobs) as (t1 & E1 & F1). step E1.
    unfold generate_rounds, is_em3.
    assert (G : forall s, In s ["SD6"; "PC3"; "EM3"; "EM3_v2"; "SI1000"]%string -> (style lay =? s)%string = false) by (intros s Hs; now apply String.eqb_neq, H).
    rewrite !G by (cbn; tauto). reflexivity.
  Qed.
  Lemma reject_SI1000 : style lay = "SI1000"%string -> n mod 3 <> 0 -> generate_ideal_circuit lay = Err NotImplementedError.
  Proof.
    intros Hs H. unfold generate_ideal_circuit. rewrite coords_eq, bind_ok.
    destruct (init_follow lay Hv Hobs) as (t1 & E1 & F1). step E1.
    unfold generate_rounds, is_em3. rewrite Hs. cbn [String.eqb Ascii.eqb Bool.eqb orb]. unfold generate_rounds_SI1000.
    destruct (n =? 0); [reflexivity|]. apply Z.eqb_neq in H. rewrite H. reflexivity.
  Qed.
End W.
Lemma reject_obs lay : valid lay -> obs lay <> "V"%string -> obs lay <> "H"%string -> generate_ideal_circuit lay = Err NotImplementedError.
Proof.
  intros Hv HV HH. unfold generate_ideal_circuit. rewrite coords_eq, bind_ok by exact Hv. unfold fault_tolerant_init.
  rewrite (used_indices_eq lay Hv), bind_ok. unfold obs_before_sub_round. apply String.eqb_neq in HV, HH. now rewrite HV, HH.
Qed.
