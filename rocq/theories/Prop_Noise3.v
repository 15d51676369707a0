(** Correlated parity noise (EM3_v2): the measurement record, and the ancilla. *)
From Coq Require Import QArith.
From Verif Require Import Prelude Layout LayoutFacts Pauli LayoutIndex Prop_Layout Tracker Stim Circuit Noise Annot Shift Ends Gen Gen2 Gen3 Frame Prop_Circuit NoiseFacts NoiseMoments GenShape NoiseCorr Prop_Noise Prop_Noise2.
Open Scope Z_scope.

(** ** C30: the substituted circuit acts like the original *)
(** the qubits a circuit mentions, loops included *)
Definition mentions (c : circuit) (q : nat) : Prop := exists op, In op (instrs c) /\ In q (tqubits (itargets op)).
(** MPP instructions are made of products of two Paulis on different qubits *)
Definition two_qubit_products (op : instr) : Prop := iname op = "MPP"%string ->
  exists l : list (pauli * nat * pauli * nat), itargets op = flat_map (fun '(p1, q1, p2, q2) => [TP p1 q1; TComb; TP p2 q2]) l /\
    forall p1 q1 p2 q2, In (p1, q1, p2, q2) l -> q1 <> q2.
(** what an experimenter sees, and what the circuit does to its own qubits *)
Definition same_outcome (c : circuit) (s s' : fstate) : Prop :=
  frec s' = frec s /\ fdets s' = fdets s /\ fobs s' = fobs s /\ forall q, mentions c q -> fr s' q = fr s q.

Lemma may_from l st s : may l st s -> exists g s1, run g l st = Ok s1 /\ frec s1 = frec s /\ fdets s1 = fdets s /\ fobs s1 = fobs s /\ fr s1 = fr s.
Proof.
  intros (g & n & n' & H). destruct (local_run l _ _ _ H) as [_ K]. cbn [at_index fgi] in K.
  exists (fun i => g (n + (i - fgi st))%nat). pose proof (K (fun i => g (n + (i - fgi st))%nat) (fgi st)) as K'. unfold at_index in K'. cbn [fr frec fdets fobs] in K'.
  replace (mkF (fr st) (frec st) (fdets st) (fobs st) (fgi st)) with st in K' by now destruct st.
  rewrite K'; [|intros k _; f_equal; lia]. eexists. split; [reflexivity|]. auto.
Qed.
Lemma off_refl A st : off A st st.
Proof. repeat split. Qed.

(** Whatever the random measurement outcomes of the original circuit, the
    substituted circuit without sampled errors can give the same record, and the
    other way around. *)
Theorem C30_record_kept : forall nm c c', use_correlated nm = true ->
  (forall op, In op (instrs c) -> ideal_op op /\ two_qubit_products op) ->
  (forall a q, In a (ancillas c) -> mentions c q -> q <> a) ->
  noisy_circuit nm c = Ok c' ->
  forall st,
    (forall g s, run g (flatten c) st = Ok s -> exists g' s', run g' (filter (fun i => negb (is_noise i)) (flatten c')) st = Ok s' /\ same_outcome c s s') /\
    (forall g' s', run g' (filter (fun i => negb (is_noise i)) (flatten c')) st = Ok s' -> exists g s, run g (flatten c) st = Ok s /\ same_outcome c s s').
Proof.
  intros nm c c' Hc Hi Ha E st. fold (gates (flatten c')). rewrite (noisy_gates_corr nm c c' Hc (fun op H => proj1 (Hi op H)) E).
  set (A := fun q => In q (ancillas c)).
  assert (S : simulates A (flat_map snd (pieces c)) (flat_map (fun p => flat_map (sub_op nm (fst p)) (snd p)) (pieces c))).
  { apply simulates_pieces. intros b m K. split; [exact (pieces_ancillas c b m K)|]. intros op Hop. destruct (in_pieces c b m K) as [_ K2].
    assert (Ho : In op (instrs c)) by auto. destruct (Hi op Ho) as [I1 I2]. split; [exact I1|]. split; [exact I2|]. intros q Hq Hq'. apply (Ha q q Hq'); [|reflexivity]. exists op. auto. }
  fold (contents (pieces c)) in S. rewrite contents_pieces in S. destruct (S st st (off_refl A st)) as [S1 S2].
  assert (N : forall q, mentions c q -> ~ A q) by (intros q Hq Hq'; exact (Ha q q Hq' Hq eq_refl)).
  split; intros g s R.
  - destruct (S1 s (may_run _ _ _ _ R)) as (s' & M & O1 & O2 & O3 & O4). destruct (may_from _ _ _ M) as (g' & s1 & R' & E1 & E2 & E3 & E4).
    exists g', s1. split; [exact R'|]. unfold same_outcome. rewrite E1, E2, E3, E4. split; [exact O1|]. split; [exact O2|]. split; [exact O3|]. intros q Hq. apply O4. exact (N q Hq).
  - destruct (S2 s (may_run _ _ _ _ R)) as (s' & M & O1 & O2 & O3 & O4). destruct (may_from _ _ _ M) as (g' & s1 & R' & E1 & E2 & E3 & E4).
    exists g', s1. split; [exact R'|]. unfold same_outcome. rewrite E1, E2, E3, E4. split; [exact O1|]. split; [exact O2|]. split; [exact O3|]. intros q Hq. apply O4. exact (N q Hq).
Qed.
Print Assumptions C30_record_kept.
(** A circuit with a loop meeting the hypotheses, with 31 errors per pair measurement. *)
Definition loop_circuit : circuit :=
  [I (mkI "R" [TQ 0%nat; TQ 1%nat; TQ 2%nat] []); I (mkI "TICK" [] []);
   Rep 3 [I (mkI "MPP" [TP PX 0%nat; TComb; TP PX 1%nat; TP PZ 1%nat; TComb; TP PY 2%nat] []); I (mkI "DETECTOR" [TRec (-1)] []); I (mkI "TICK" [] [])];
   I (mkI "M" [TQ 0%nat; TQ 1%nat; TQ 2%nat] [])].
Example C30_example : use_correlated (NM_EM3_v2 (1 # 1000)) = true /\
  (forall op, In op (instrs loop_circuit) -> ideal_op op /\ two_qubit_products op) /\
  (forall a q, In a (ancillas loop_circuit) -> mentions loop_circuit q -> q <> a) /\
  exists c', noisy_circuit (NM_EM3_v2 (1 # 1000)) loop_circuit = Ok c' /\ length (filter is_noise (flatten c')) = 188%nat.
Proof.
  split; [reflexivity|]. split; [|split].
  - intros op H. cbn in H. decompose [or] H; try contradiction; subst op; (split; [repeat split; vm_compute; intros; reflexivity || discriminate|]); try discriminate.
    intros _. exists [(PX, 0, PX, 1); (PZ, 1, PY, 2)]%nat. split; [reflexivity|]. intros p1 q1 p2 q2 K. cbn in K. decompose [or] K; try contradiction; injection H0 as <- <- <- <- || injection H1 as <- <- <- <-; discriminate.
  - intros a q Ha (op & Hop & Hq). cbn in Ha, Hop. decompose [or] Hop; try contradiction; subst op; cbn in Hq; lia.
  - eexists. split; vm_compute; reflexivity.
Qed.

(** ** C32: is the ancilla one of the circuit's qubits? *)
(** In general it can be: inside a loop the ancilla is the first qubit above those the
    loop body mentions, which the rest of the circuit may use.  Here qubit 2 is
    measured before and after the loop; the two results always agree in the ideal
    circuit, and need not in the noisy circuit even when no error is sampled. *)
Definition colliding : circuit :=
  [I (mkI "R" [TQ 0%nat; TQ 1%nat; TQ 2%nat] []); I (mkI "TICK" [] []);
   I (mkI "H" [TQ 2%nat] []); I (mkI "TICK" [] []);
   I (mkI "M" [TQ 2%nat] []); I (mkI "TICK" [] []);
   Rep 2 [I (mkI "MPP" [TP PX 0%nat; TComb; TP PX 1%nat] []); I (mkI "TICK" [] [])];
   I (mkI "M" [TQ 2%nat] []); I (mkI "DETECTOR" [TRec (-1); TRec (-4)] [])].
Definition no_frame : fstate := mkF (fun _ => bzero) [] [] (fun _ => false) O.
Theorem C32_ancilla_fresh_refuted : exists nm c c', use_correlated nm = true /\
  (forall op, In op (instrs c) -> ideal_op op /\ two_qubit_products op) /\ noisy_circuit nm c = Ok c' /\
  (forall g s, run g (flatten c) no_frame = Ok s -> fdets s = [false]) /\
  (exists g s, run g (filter (fun i => negb (is_noise i)) (flatten c')) no_frame = Ok s /\ fdets s = [true]).
Proof.
  exists (NM_EM3_v2 (1 # 1000)), colliding. eexists. split; [reflexivity|]. split; [|split; [vm_compute; reflexivity|split]].
  - intros op H. cbn in H. decompose [or] H; try contradiction; subst op; (split; [repeat split; vm_compute; intros; reflexivity || discriminate|]); try discriminate.
    intros _. exists [(PX, 0, PX, 1)]%nat. split; [reflexivity|]. intros p1 q1 p2 q2 K. cbn in K. decompose [or] K; try contradiction. injection H0 as <- <- <- <-. discriminate.
  - intros g s H. assert (K : (let! s := run g (flatten colliding) no_frame in Ok (fdets s)) = Ok [false]) by (vm_compute; destruct (g 2%nat), (g 3%nat); reflexivity).
    rewrite H in K. now injection K.
  - exists (fun _ => true). eexists. split; vm_compute; reflexivity.
Qed.
Print Assumptions C32_ancilla_fresh_refuted.

(** For honeycomb circuits it never is: the ancilla is always the first number above
    the data qubits' indices. *)
Section Em3.
  Variable lay : layout.
  Hypothesis Hv : valid lay.
  Hypothesis He : is_em3 (style lay) = true.
  Notation ND := (length (data_qubit_coords lay)).
  Local Opaque data_qubit_coords measure_qubit_coords q2i_dict hex_entries hexes round_edges all_edges isort.
  Lemma ix_data q : In q (data_qubit_coords lay) -> (ix lay q < ND)%nat.
  Proof. intros H. destruct (proj1 (C02_index_bijection lay Hv) q H) as (i & E & L). unfold ix. now rewrite E. Qed.
  Lemma data_of_ix i : (i < ND)%nat -> exists q, In q (data_qubit_coords lay) /\ ix lay q = i.
  Proof.
    intros H. destruct (nth_error (data_qubit_coords lay) i) as [q|] eqn:E; [|apply nth_error_None in E; lia]. exists q. split; [eapply nth_error_In; eauto|].
    unfold ix. rewrite (proj2 (q2i_spec lay Hv q i)); [reflexivity|]. unfold qubits. rewrite nth_error_app1 by exact H. exact E.
  Qed.
  Lemma used_data : used_qubit_coords lay = data_qubit_coords lay.
  Proof. unfold used_qubit_coords. now rewrite He. Qed.
  Definition low (i : instr) : Prop := (forall q, In q (tqubits (itargets i)) -> (q < ND)%nat) /\ two_qubit_products i.
  Lemma low_qs name l : name <> "MPP"%string -> (forall q, In q l -> (q < ND)%nat) -> low (mkI name (qs l) []).
  Proof. intros Hn H. split; [|intros E; contradiction]. cbn [itargets]. now rewrite tqubits_qs. Qed.
  Lemma low_tg name t s co : name <> "MPP"%string -> low (mkI name (tg t s) co).
  Proof. intros Hn. split; [|intros E; contradiction]. intros q H. unfold tqubits, tg in H. cbn [itargets] in H. rewrite flat_map_concat_map, map_map in H. induction (isort Nat.leb s) as [|x l IH]; [destruct H | exact (IH H)]. Qed.
  Lemma low_nil name co : name <> "MPP"%string -> low (mkI name [] co).
  Proof. intros Hn. split; [intros q [] | intros E; contradiction]. Qed.
  Lemma low_det t v co : Forall low (det t v co).
  Proof. destruct v; constructor; [|constructor]. now apply low_tg. Qed.
  Lemma low_flat {X} (f : X -> list instr) l : (forall x, Forall low (f x)) -> Forall low (flat_map f l).
  Proof. intros H. induction l as [|x l IH]; [constructor|]. cbn [flat_map]. apply Forall_app. auto. Qed.
  Lemma low_ann k : Forall low (annk lay (tr0 lay) k).
  Proof.
    unfold Shift.annk, ann. repeat (apply Forall_app; split).
    - unfold obsinc. destruct (pc3 lay); [constructor|]. destruct (comb _); [|constructor]. constructor; [now apply low_tg | constructor].
    - unfold dets0. destruct (_ && _); [|constructor]. apply low_flat. intros; apply low_det.
    - apply low_flat. intros; apply low_det.
    - constructor; [now apply low_nil | constructor].
  Qed.
  Lemma low_data name : name <> "MPP"%string -> low (mkI name (qs (Ends.data_ix lay)) []).
  Proof. intros Hn. apply low_qs; [exact Hn|]. intros q H. apply in_map_iff in H. destruct H as (d & <- & H). now apply ix_data. Qed.
  Lemma low_h p : Forall low (hdata lay p).
  Proof. unfold hdata. destruct (pauli_eqb p PZ); [constructor|]. constructor; [apply low_data; destruct p; discriminate|]. constructor; [now apply low_nil | constructor]. Qed.
  Lemma round_ends k e : In e (round_edges lay k) -> In (e_left e) (data_qubit_coords lay) /\ In (e_right e) (data_qubit_coords lay) /\ e_left e <> e_right e.
  Proof.
    intros H. destruct (LayoutLists.round_edge_facts lay Hv k e H) as (A & B & C & D & _). split; [exact (proj2 (LayoutLists.in_data lay Hv _) A)|]. split; [exact (proj2 (LayoutLists.in_data lay Hv _) B)|].
    intros E. rewrite E in C. congruence.
  Qed.
  Lemma low_mpp k : low (mkI "MPP" (mpp_targets lay k) []).
  Proof.
    unfold mpp_targets. split; cbn [itargets iname].
    - intros q H. unfold tqubits in H. rewrite !flat_map_concat_map, concat_map, map_map in H.
      apply in_concat in H. destruct H as (l & Hl & H). apply in_concat in Hl. destruct Hl as (ll & Hll & Hl). apply in_map_iff in Hll. destruct Hll as (e & <- & Hin).
      destruct (round_ends k e Hin) as (A & B & _). cbn [map tqubit] in Hl. destruct Hl as [<-|[<-|[<-|[]]]]; cbn in H; [|contradiction|]; destruct H as [<-|[]]; now apply ix_data.
    - intros _. exists (map (fun e => (xyz k, ix lay (e_left e), xyz k, ix lay (e_right e))) (round_edges lay k)). split.
      + clear. cbn [itargets]. induction (round_edges lay k) as [|e l IH]; [reflexivity|]. cbn [map flat_map app]. now rewrite IH.
      + intros p1 q1 p2 q2 H. apply in_map_iff in H. destruct H as (e & [= <- <- <- <-] & Hin). destruct (round_ends k e Hin) as (A & B & C). intros E. apply C.
        eapply (ix_inj lay Hv); [apply in_or_app; now left | apply in_or_app; now left | exact E].
  Qed.
  Lemma mpp_all k q : (q < ND)%nat -> In q (tqubits (mpp_targets lay k)).
  Proof.
    intros H. destruct (data_of_ix q H) as (d & Hd & <-).
    pose proof (proj1 (C04_perfect_matching lay k Hv)) as P. apply (Permutation_in d (Permutation_sym P)) in Hd. apply in_flat_map in Hd. destruct Hd as (e & Hin & Hd).
    unfold mpp_targets, tqubits. rewrite flat_map_concat_map. apply in_concat. exists [ix lay d]. split; [|now left]. apply in_map_iff.
    exists (TP (xyz k) (ix lay d)). split; [reflexivity|]. apply in_flat_map. exists e. split; [exact Hin|]. destruct Hd as [<-|[<-|[]]]; cbn; auto.
  Qed.
  Lemma circuit_low : Forall low (circuit_i lay).
  Proof.
    unfold circuit_i. apply Forall_app. split; [|apply Forall_app; split; [|apply Forall_app; split]].
    - unfold coords_i. rewrite used_data. apply Forall_forall. intros i Hi. apply in_map_iff in Hi. destruct Hi as (q & <- & Hq). split; [|discriminate].
      intros x [<-|[]]. now apply ix_data.
    - unfold init_i. apply Forall_app. split; [|apply low_h]. constructor; [|constructor; [now apply low_nil | constructor]]. unfold used_ix. rewrite used_data. now apply low_data.
    - assert (Eb : body_i lay = em3_body lay).
      { unfold body_i. rewrite He. destruct (String.eqb_spec (style lay) "SD6") as [E|_]; [rewrite E in He; discriminate|]. destruct (String.eqb_spec (style lay) "PC3") as [E|_]; [rewrite E in He; discriminate|]. reflexivity. }
      rewrite Eb. unfold em3_body, em3_i. apply low_flat. intros k. apply Forall_app. split; [constructor; [apply low_mpp | constructor]|].
      apply Forall_app. split; [unfold mop; rewrite He; constructor|]. apply Forall_app. split; [apply low_ann|]. constructor; [now apply low_nil | constructor].
    - unfold fin. apply Forall_app. split; [apply low_h|]. apply Forall_app. split; [constructor; [now apply low_data | constructor]|].
      apply Forall_app. split; [destruct (pauli_eqb _ _); apply low_flat; intros; apply low_det|].
      apply Forall_app. split; [apply low_flat; intros; apply low_det|].
      unfold fin_obs. destruct (comb _); [|constructor]. constructor; [now apply low_tg | constructor].
  Qed.
End Em3.

(** number of qubits from the qubits mentioned *)
Lemma max1_le l m : (max1 l <= m)%nat <-> forall q, In q l -> (q < m)%nat.
Proof.
  unfold max1. induction l as [|x l IH]; cbn [fold_right]; [split; [intros _ q [] | lia]|]. split.
  - intros H q [<-|Hq]; [lia|]. apply IH; [lia | exact Hq].
  - intros H. apply Nat.max_lub; [apply H; now left|]. apply IH. intros; apply H; now right.
Qed.
Lemma item_num_le x m : (item_num_qubits x <= m)%nat <-> forall op q, In op (instrs_item x) -> In q (tqubits (itargets op)) -> (q < m)%nat.
Proof.
  induction x as [i|k body IH] using item_ind'.
  - cbn [item_num_qubits instrs_item]. rewrite max1_le. split; [intros H op q [<-|[]]; auto | intros H q Hq; eapply H; [now left | exact Hq]].
  - cbn [item_num_qubits instrs_item]. induction body as [|y body IHb]; cbn [fold_right flat_map]; [split; [intros _ op q [] | lia]|].
    specialize (IHb (fun x Hx => IH x (or_intror Hx))). pose proof (IH y (or_introl eq_refl)) as IHy. split.
    + intros H op q Hop. apply in_app_or in Hop. destruct Hop; [apply IHy; [lia | assumption] | apply IHb; [lia | assumption]].
    + intros H. apply Nat.max_lub; [apply IHy | apply IHb]; intros op q Hop; apply H, in_or_app; auto.
Qed.
Lemma num_qubits_le c m : (circuit_num_qubits c <= m)%nat <-> forall q, mentions c q -> (q < m)%nat.
Proof.
  change (circuit_num_qubits c) with (item_num_qubits (Rep 1 c)). rewrite item_num_le. unfold mentions. split.
  - intros H q (op & Hop & Hq). eapply H; eauto.
  - intros H op q Hop Hq. apply H. eauto.
Qed.
Lemma num_qubits_eq c m : (forall q, mentions c q -> (q < m)%nat) -> (forall q, (q < m)%nat -> mentions c q) -> circuit_num_qubits c = m.
Proof.
  intros H1 H2. apply Nat.le_antisymm; [now apply num_qubits_le|]. destruct m as [|m]; [lia|]. exact (proj1 (num_qubits_le c (circuit_num_qubits c)) (le_n _) m (H2 m (Nat.lt_succ_diag_r m))).
Qed.
Lemma folded_bodies mi c b : folded mi c -> In b (bodies c) -> exists j l, b = map I (mi j ++ l) /\ forall i, In i (mi j ++ l) -> In i (instrs c).
Proof.
  assert (N : forall X, bodies (map I X) = []) by (intros X; induction X as [|x X IH]; [reflexivity | exact IH]).
  intros (X & Y & Z & k & -> & Hk & _ & _ & j & l & ->) H. unfold bodies in H. rewrite !flat_map_app in H. fold (bodies (map I X)) (bodies (map I Z)) in H. rewrite !N, app_nil_r in H. cbn [app] in H.
  exists j, l. unfold circuit_mul in H |- *. destruct (k =? 0); [destruct H|]. destruct (k =? 1); [fold (bodies (map I (mi j ++ l))) in H; rewrite N in H; destruct H|].
  cbn [flat_map bodies_item] in H. fold (bodies (map I (mi j ++ l))) in H. rewrite N, app_nil_r in H. destruct H as [<-|[]]. split; [reflexivity|].
  intros i Hi. rewrite !instrs_app, !instrs_I. apply in_or_app. right. apply in_or_app. left. unfold instrs. cbn [flat_map instrs_item]. rewrite app_nil_r. fold (instrs (map I (mi j ++ l))). now rewrite instrs_I.
Qed.
Lemma em3_supported_em3 lay : style lay = "EM3_v2"%string -> is_em3 (style lay) = true.
Proof. now intros ->. Qed.

Local Opaque data_qubit_coords measure_qubit_coords q2i_dict hex_entries hexes round_edges all_edges isort.
Theorem C32_honeycomb_ancilla_fresh : forall lay c, valid lay -> supported_input lay -> style lay = "EM3_v2"%string -> generate_ideal_circuit lay = Ok c ->
  (forall a, In a (ancillas c) -> a = length (data_qubit_coords lay)) /\
  (forall q, mentions c q <-> (q < length (data_qubit_coords lay))%nat).
Proof.
  intros lay c Hv Hs Est E. destruct (generated lay Hv Hs) as (c1 & nm & c2 & E1 & En & E2 & E3 & Fl & Fo & Hf). rewrite E in E1. injection E1 as <-.
  pose proof (em3_supported_em3 lay Est) as He. pose proof (circuit_low lay Hv He) as L. rewrite <- Fl in L.
  assert (L' : forall i, In i (instrs c) -> low lay i) by (intros i Hi; apply (instrs_folded _ c i Fo) in Hi; exact (proj1 (Forall_forall _ _) L i Hi)).
  assert (M : forall q, mentions c q <-> (q < length (data_qubit_coords lay))%nat).
  { intros q. split; [intros (op & Hop & Hq); exact (proj1 (L' op Hop) q Hq)|]. intros Hq. destruct (data_of_ix lay Hv q Hq) as (d & Hd & <-).
    exists (coord_i lay d). split; [|left; reflexivity]. apply flatten_instrs. rewrite Fl. unfold circuit_i, coords_i. apply in_or_app. left. apply in_map. rewrite used_data by exact He. exact Hd. }
  split; [|exact M]. intros a [<-|Ha]; [apply num_qubits_eq; apply M|]. apply in_map_iff in Ha. destruct Ha as (b & <- & Hb).
  destruct (folded_bodies _ c b Fo Hb) as (j & l & -> & Hin). apply num_qubits_eq.
  - intros q (op & Hop & Hq). rewrite instrs_I in Hop. exact (proj1 (L' op (Hin op Hop)) q Hq).
  - intros q Hq. assert (Eu : unit_i lay = em3_i lay) by (unfold unit_i; rewrite Est; reflexivity). exists (mkI "MPP" (mpp_targets lay (Z.of_nat j)) []). split.
    + rewrite instrs_I, Eu. apply in_or_app. left. unfold em3_i. now left.
    + cbn [itargets]. now apply mpp_all.
Qed.
Print Assumptions C32_honeycomb_ancilla_fresh.

(** Hence the honeycomb circuit with correlated noise acts like the ideal circuit when no error is sampled. *)
Theorem C30_honeycomb_record_kept : forall lay c c', valid lay -> supported_input lay -> style lay = "EM3_v2"%string ->
  generate_ideal_circuit lay = Ok c -> generate_honeycomb_circuit lay = Ok c' ->
  forall st,
    (forall g s, run g (flatten c) st = Ok s -> exists g' s', run g' (filter (fun i => negb (is_noise i)) (flatten c')) st = Ok s' /\ same_outcome c s s') /\
    (forall g' s', run g' (filter (fun i => negb (is_noise i)) (flatten c')) st = Ok s' -> exists g s, run g (flatten c) st = Ok s /\ same_outcome c s s').
Proof.
  intros lay c c' Hv Hs Est E E'. destruct (C32_honeycomb_ancilla_fresh lay c Hv Hs Est E) as [Ha M].
  destruct (generated lay Hv Hs) as (c1 & nm & c2 & E1 & En & E2 & E3 & Fl & Fo & Hf). rewrite E in E1. injection E1 as <-. rewrite E' in E3. injection E3 as <-.
  pose proof (circuit_low lay Hv (em3_supported_em3 lay Est)) as L. rewrite <- Fl in L.
  apply (C30_record_kept nm c c').
  - apply (C29_strengths lay nm (mkI "" [] []) En). exact Est.
  - intros op Hop. split; [exact (fine_ideal lay op (Hf op Hop))|]. apply (instrs_folded _ c op Fo) in Hop. exact (proj2 (proj1 (Forall_forall _ _) L op Hop)).
  - intros a q Haa Hq. apply Ha in Haa. apply M in Hq. lia.
  - exact E2.
Qed.
Print Assumptions C30_honeycomb_record_kept.
Definition lay_em3v2 : layout := mkLayout 2 6 11 "EM3_v2" "V" (1 # 1000).
Definition loops_and_qubits (r : res circuit) : option (nat * nat) := match r with Ok c => Some (length (bodies c), circuit_num_qubits c) | Err _ => None end.
Example C32_example : valid lay_em3v2 /\ supported_input lay_em3v2 /\ style lay_em3v2 = "EM3_v2"%string /\
  loops_and_qubits (generate_ideal_circuit lay_em3v2) = Some (1, 12)%nat.
Proof.
  split; [repeat split; reflexivity|]. split; [|split; [reflexivity|]].
  - split; [cbn; lia|]. split; [now left | cbn; tauto].
  - vm_compute. reflexivity.
Qed.
