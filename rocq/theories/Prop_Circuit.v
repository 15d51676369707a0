(** C16-C24: the circuits returned by generate_honeycomb_circuit, before noise
    ([generate_ideal_circuit]; the noise model is in Prop_Noise). *)
From Coq Require Import QArith.
From Verif Require Import Prelude Layout LayoutFacts LayoutEdges LayoutLists LayoutHex LayoutHex2 Pauli LayoutObs LayoutLogic LayoutIndex Prop_Layout
  Tracker TrackerFacts Stim Circuit Annot Shift Ends Gen Gen2 Gen3 Traj Eval Frame Exec Exec2 Exec3 Exec4 Checks Detectors Struct Struct2 Struct3 Moments.
Open Scope Z_scope.
Local Opaque data_qubit_coords measure_qubit_coords q2i_dict hex_entries hexes round_edges all_edges isort.

(** ** The inputs the generator supports *)
Definition supported_input (lay : layout) : Prop :=
  1 <= sub_rounds lay /\
  (obs lay = "V" \/ obs lay = "H")%string /\
  (style lay = "SD6" \/ style lay = "PC3" \/ style lay = "EM3" \/ style lay = "EM3_v2" \/
   style lay = "SI1000" /\ sub_rounds lay mod 3 = 0)%string.

Lemma sup_obs lay : supported_input lay -> obs lay = "V"%string \/ obs lay = "H"%string.
Proof. now intros (_ & H & _). Qed.
Lemma sup_sup lay : supported_input lay -> supported lay.
Proof. intros (H1 & _ & H2). split; assumption. Qed.
Lemma sup_gen lay c : valid lay -> supported_input lay -> generate_ideal_circuit lay = Ok c -> flatten c = circuit_i lay.
Proof.
  intros Hv Hs E. destruct (generate_eq lay Hv (sup_obs lay Hs) (sup_sup lay Hs)) as (c' & E' & F). congruence.
Qed.

(** ** C16 *)
Theorem C16_accepts_exactly_supported : forall lay, valid lay -> 0 <= sub_rounds lay ->
  (supported_input lay /\ exists c, generate_ideal_circuit lay = Ok c) \/
  (~ supported_input lay /\ generate_ideal_circuit lay = Err NotImplementedError).
Proof.
  intros lay Hv Hn.
  assert (Dobs : (obs lay = "V"%string \/ obs lay = "H"%string) \/ (obs lay <> "V"%string /\ obs lay <> "H"%string)).
  { destruct (string_dec (obs lay) "V"); [tauto|]. destruct (string_dec (obs lay) "H"); tauto. }
  destruct Dobs as [Ho|[Nv Nh]].
  2:{ right. split; [intros (_ & [K|K] & _); contradiction | now apply reject_obs]. }
  assert (D0 : sub_rounds lay = 0 \/ 1 <= sub_rounds lay) by lia.
  destruct D0 as [E0|H1]; [right; split; [intros (K & _); lia | now apply reject_zero]|].
  assert (Acc : supported_input lay -> (supported_input lay /\ exists c, generate_ideal_circuit lay = Ok c)).
  { intros Hs. split; [exact Hs|]. destruct (generate_eq lay Hv Ho (sup_sup lay Hs)) as (c & E & _). eauto. }
  destruct (string_dec (style lay) "SD6") as [S1|S1]; [left; apply Acc; repeat split; auto|].
  destruct (string_dec (style lay) "PC3") as [S2|S2]; [left; apply Acc; repeat split; auto|].
  destruct (string_dec (style lay) "EM3") as [S3|S3]; [left; apply Acc; repeat split; auto|].
  destruct (string_dec (style lay) "EM3_v2") as [S4|S4]; [left; apply Acc; repeat split; auto|].
  destruct (string_dec (style lay) "SI1000") as [S5|S5].
  - destruct (Z.eq_dec (sub_rounds lay mod 3) 0) as [M|M]; [left; apply Acc; repeat split; auto; tauto|].
    right. split; [|now apply reject_SI1000]. intros (_ & _ & K). intuition congruence.
  - right. split.
    + intros (_ & _ & K). intuition congruence.
    + apply reject_style; auto. intros s Hs. cbn in Hs. intuition congruence.
Qed.
Print Assumptions C16_accepts_exactly_supported.
Example C16_example : supported_input lay_4_12 /\ valid lay_4_12 /\
  (forall st ob, style (mkLayout 4 12 4 "SI1000" "H" (1 # 1000)) = st -> obs lay_4_12 = ob -> ~ supported_input (mkLayout 4 12 4 st ob 0)).
Proof.
  split; [|split; [exact lay_4_12_valid|]].
  - repeat split; [vm_compute; discriminate | now right | now left].
  - intros st ob <- <- (_ & _ & K). cbn in K. intuition discriminate.
Qed.
(** Only sub_rounds = 0 is tested for, so a negative number of sub-rounds is accepted. *)
Theorem C16_negative_sub_rounds_refuted : exists lay c, valid lay /\ sub_rounds lay < 0 /\ generate_ideal_circuit lay = Ok c.
Proof.
  exists (mkLayout 2 6 (-1) "SD6" "H" 0). destruct (generate_ideal_circuit (mkLayout 2 6 (-1) "SD6" "H" 0)) as [c|e] eqn:E.
  - exists c. repeat split; vm_compute; reflexivity.
  - exfalso. revert E. vm_compute. discriminate.
Qed.
Print Assumptions C16_negative_sub_rounds_refuted.

(** ** C17: the loops are exact *)
Theorem C17_loops_unroll : forall lay c, valid lay -> supported_input lay -> generate_ideal_circuit lay = Ok c ->
  exists u, unrolled_circuit lay = Ok u /\ (forall x, In x u -> exists i, x = I i) /\ flatten c = flatten u.
Proof.
  intros lay c Hv Hs E. exists (map I (circuit_i lay)). split; [apply unrolled_eq; auto using sup_obs, sup_sup|]. split.
  - intros x Hx. apply in_map_iff in Hx. destruct Hx as (i & <- & _). eauto.
  - rewrite flatten_I. now apply sup_gen.
Qed.
Print Assumptions C17_loops_unroll.
(** Loops do occur. *)
Example C17_example : exists c k body, generate_ideal_circuit (mkLayout 2 6 12 "SD6" "H" 0) = Ok c /\ In (Rep k body) c /\ 1 < k.
Proof.
  destruct (generate_ideal_circuit (mkLayout 2 6 12 "SD6" "H" 0)) as [c|e] eqn:E; [|exfalso; revert E; vm_compute; discriminate].
  assert (K : existsb (fun x => match x with Rep k _ => 1 <? k | I _ => false end) c = true).
  { change c with (match Ok c with Ok c => c | Err _ => [] end). rewrite <- E. vm_compute. reflexivity. }
  apply existsb_exists in K. destruct K as ([i|k b] & Hin & K); [discriminate|]. exists c, k, b. repeat split; auto. now apply Z.ltb_lt.
Qed.

(** ** C18, C19: determinism.  [run g l (start f)] is a run of the circuit from an
    arbitrary initial frame f with arbitrary random bits g (Frame.v). *)
Theorem C18_detectors_deterministic : forall lay c, valid lay -> supported_input lay -> generate_ideal_circuit lay = Ok c ->
  forall g f, exists st, run g (flatten c) (start f) = Ok st /\
    length (fdets st) = length (detectors 0 0 0 0 (flatten c)) /\ forall d, In d (fdets st) -> d = false.
Proof.
  intros lay c Hv Hs E g f. rewrite (sup_gen lay c Hv Hs E).
  destruct (circuit_deterministic lay Hv (sup_obs lay Hs) g f (sup_sup lay Hs)) as (st & R & D & _).
  exists st. split; [exact R|]. split.
  - destruct (run_detectors g _ _ _ 0 0 0 R) as (r & _ & _ & Ed & _). rewrite Ed. cbn [start fdets app frec length]. now rewrite map_length.
  - intros d Hd. rewrite Forall_forall in D. symmetry. now apply D.
Qed.
Print Assumptions C18_detectors_deterministic.
(** The hypotheses of C17-C23 are met by every style. *)
Example C18_example : forall st, In st ["SD6"; "PC3"; "EM3"; "EM3_v2"; "SI1000"]%string ->
  let lay := mkLayout 4 12 9 st "V" (1 # 1000) in valid lay /\ supported_input lay /\ exists c, generate_ideal_circuit lay = Ok c.
Proof.
  intros st Hst lay. assert (V : valid lay) by (repeat split; reflexivity).
  assert (Sp : supported_input lay).
  { split; [cbn; lia|]. split; [now left|]. cbn in Hst |- *. repeat (destruct Hst as [<-|Hst]; [tauto|]). contradiction. }
  split; [exact V|]. split; [exact Sp|]. destruct (C16_accepts_exactly_supported lay V ltac:(cbn; lia)) as [[_ K]|[K _]]; [exact K | contradiction].
Qed.

(** The observable's index is 0 for V and 1 for H. *)
Theorem C19_observable_deterministic : forall lay c, valid lay -> supported_input lay -> generate_ideal_circuit lay = Ok c ->
  (forall g f, exists st, run g (flatten c) (start f) = Ok st /\ forall x, fobs st x = false) /\
  (exists i, In i (flatten c) /\ canon (iname i) = "OBSERVABLE_INCLUDE"%string) /\
  (forall i, In i (flatten c) -> canon (iname i) = "OBSERVABLE_INCLUDE"%string ->
     iargs i = [Num ((if (obs lay =? "V")%string then 0 else 1) # 1)]).
Proof.
  intros lay c Hv Hs E. rewrite (sup_gen lay c Hv Hs E). repeat split.
  - intros g f. destruct (circuit_deterministic lay Hv (sup_obs lay Hs) g f (sup_sup lay Hs)) as (st & R & _ & O). eauto.
  - apply (circuit_has_obs lay (sup_obs lay Hs)). exact (proj1 Hs).
  - intros i Hi Ei. pose proof (circuit_obs_ok lay) as K. rewrite Forall_forall in K. specialize (K i Hi Ei). rewrite K.
    unfold oidx. destruct (obs lay =? "V")%string; reflexivity.
Qed.
Print Assumptions C19_observable_deterministic.

(** ** C20: every style measures the checks of the honeycomb schedule.  The
    specification [measured]/[schedule] is in Checks.v.  The error [err] is any
    Pauli on the data qubits. *)
Definition apply_error (err : nat -> bits) (st : fstate) : fstate := with_fr st (fun x => bxor (fr st x) (err x)).
Definition on_data (lay : layout) (err : nat -> bits) : Prop :=
  forall x, (forall q, In q (data_qubit_coords lay) -> q2i lay q <> Ok x) -> err x = bzero.
Definition qubit (lay : layout) (q : cpx) (x : nat) : Prop := In q (data_qubit_coords lay) /\ q2i lay q = Ok x.

Lemma init_error lay : valid lay -> forall g f err, on_data lay err -> exists st0,
  run g (coords_i lay ++ init_i lay) (start f) = Ok st0 /\ frec st0 = [] /\
  St lay (fun q => bxor (fr st0 (ix lay q)) (err (ix lay q))) 0 0 0 0 0 false (idle3 lay) (apply_error err st0).
Proof.
  intros Hv g f err He. destruct (init_ok lay Hv g (start f) eq_refl eq_refl ltac:(reflexivity)) as (st0 & R & A0 & Hst & z & [IL IR IM IA _] & HA).
  exists st0. split; [exact R|]. split; [exact IM|]. exists z. split; [split; cbn [rotn A recl apply_error with_fr fr frec fdets fobs] in *|].
  - intros; reflexivity.
  - intros; reflexivity.
  - exact IM.
  - intros _. destruct (IA Hst) as [K1 K2]. split; [exact K1|]. intros x. rewrite K2. reflexivity.
  - lia.
  - intros sp Hin. destruct (HA sp Hin) as [K1 K2]. split; [exact K1|].
    unfold idle3 in Hin. destruct (is_em3 (style lay)); [destruct Hin|].
    assert (Hs : exists s, sp = (s, Idle) /\ (s < 3)%nat) by (cbn in Hin; destruct Hin as [<-|[<-|[<-|[]]]]; eauto with arith).
    destruct Hs as (s & -> & Hs). intros e Hin'. specialize (K2 e Hin'). cbn [sw apply_error with_fr fr] in *.
    rewrite He.
    2:{ intros q Hq K. apply (in_data lay Hv) in Hq. revert K. rewrite q2i_ix by (try exact Hv; now apply data_in_qubits). intros [= K]. revert K. now apply (ix_data_center lay Hv q (Z.of_nat s) e). }
    rewrite bxor_zero_r. rewrite K2. unfold pbase. destruct (pc3 lay); [|reflexivity].
    destruct s as [|[|[|s]]]; [reflexivity | | | lia].
    + rewrite !(acc_other lay Hv _ _ 0 e _ Hin') by (cbn; discriminate). reflexivity.
    + rewrite !(acc_other lay Hv _ _ 1 e _ Hin'), !(acc_other lay Hv _ _ 0 e _ Hin') by (cbn; discriminate). reflexivity.
Qed.

Theorem C20_styles_measure_schedule : forall lay c, valid lay -> supported_input lay -> generate_ideal_circuit lay = Ok c ->
  exists head body tail, flatten c = head ++ body ++ tail /\
  forall g f err, on_data lay err -> exists st0 st1, run g head (start f) = Ok st0 /\ frec st0 = [] /\
    run g body (apply_error err st0) = Ok st1 /\
    exists A0 outs A', measured A0 (schedule lay (Z.to_nat (sub_rounds lay))) outs A' /\
      (forall q x, qubit lay q x -> A0 q = bxor (fr st0 x) (err x) /\ fr st1 x = A' q) /\
      length (frec st1) = length outs /\
      let ne := length (round_edges lay 0) in
      forall i, (i < length outs)%nat -> nth i (frec st1) false =
        xorb (nth i outs false) (if (style lay =? "PC3")%string && (3 * ne <=? i)%nat then nth (i - 3 * ne) (frec st1) false else false).
Proof.
  intros lay c Hv Hs E. rewrite (sup_gen lay c Hv Hs E). unfold circuit_i.
  exists (coords_i lay ++ init_i lay), (body_i lay). eexists. split; [now rewrite <- app_assoc|].
  intros g f err He. destruct (init_error lay Hv g f err He) as (st0 & R0 & Rec0 & HSt).
  destruct (body_ok lay Hv (sup_obs lay Hs) g _ _ (sup_sup lay Hs) HSt) as (st1 & R1 & z & Hfr & Hrec & _).
  exists st0, st1. do 3 (split; [assumption|]).
  set (A0 := fun q => bxor (fr st0 (ix lay q)) (err (ix lay q))) in *. set (N := Z.to_nat (sub_rounds lay)) in *.
  destruct (measured_traj lay Hv z A0 N) as (A' & M & HA).
  assert (Hlen : forall k0, length (flat_map (fun k => map (m lay z A0 k) (round_edges lay (Z.of_nat k))) (seq 0 k0)) = (k0 * length (round_edges lay 0%Z))%nat).
  { intros k0. induction k0 as [|k0 IH]; [reflexivity|]. rewrite seq_S, flat_map_app, app_length, IH. cbn [flat_map Nat.add]. rewrite app_nil_r, map_length, (length_E lay Hv (Z.of_nat k0)). lia. }
  exists A0. eexists. exists A'. split; [exact M|]. split; [|split].
  - intros q x [Hq Hx]. apply (in_data lay Hv) in Hq. rewrite q2i_ix in Hx by (try exact Hv; now apply data_in_qubits). injection Hx as <-.
    split; [reflexivity|]. rewrite HA by exact Hq. now apply Hfr.
  - rewrite Hrec, (length_recl lay Hv), Hlen. reflexivity.
  - cbv zeta. intros i Hi. rewrite Hlen in Hi. rewrite Hrec. rewrite (record_results lay Hv) at 1 by exact Hi. reflexivity.
Qed.
Print Assumptions C20_styles_measure_schedule.
(** The schedule is not empty: lay_4_12 makes 7 * 24 checks. *)
Example C20_example : length (schedule lay_4_12 (Z.to_nat (sub_rounds lay_4_12))) = 168%nat.
Proof. vm_compute. reflexivity. Qed.

(** ** C21: between TICKs no qubit is used twice (specification in Moments.v) *)
Theorem C21_each_qubit_once_per_moment : forall lay c, valid lay -> supported_input lay -> generate_ideal_circuit lay = Ok c ->
  forall moment, In moment (moments [] (flatten c)) -> NoDup (flat_map touched moment).
Proof.
  intros lay c Hv Hs E. rewrite (sup_gen lay c Hv Hs E). pose proof (circuit_clean lay Hv (sup_obs lay Hs) (sup_sup lay Hs)) as K.
  unfold clean in K. rewrite Forall_forall in K. exact K.
Qed.
Print Assumptions C21_each_qubit_once_per_moment.

(** ** C22: how much is measured and checked *)
Definition detector_count (lay : layout) : Z :=
  let n := sub_rounds lay in
  let data := data_width lay * data_height lay in
  let edges := data / 2 in
  let hexes := data / 6 in
  (if (obs lay =? "V")%string
   then (if 2 <=? n then hexes else 0) + (if 4 <=? n then hexes else 0) + (if n mod 2 =? 0 then edges else hexes)
   else edges + (if 3 <=? n then hexes else 0) + (if n mod 2 =? 0 then hexes else edges))
  + Z.max 0 (n - 4) * hexes + hexes.
Theorem C22_counts : forall lay c, valid lay -> supported_input lay -> generate_ideal_circuit lay = Ok c ->
  Z.of_nat (measurements (flatten c)) = sub_rounds lay * (data_width lay * data_height lay / 2) + data_width lay * data_height lay /\
  Z.of_nat (length (detectors 0 0 0 0 (flatten c))) = detector_count lay /\
  (forall g f, exists st, run g (flatten c) (start f) = Ok st /\ length (frec st) = measurements (flatten c) /\
     forall d j, In d (detectors 0 0 0 0 (flatten c)) -> In j (d_meas d) -> (j < length (frec st))%nat).
Proof.
  intros lay c Hv Hs E. rewrite (sup_gen lay c Hv Hs E). pose proof (sup_obs lay Hs) as Hobs. pose proof (sup_sup lay Hs) as Hsup.
  destruct (valid_tiles lay Hv) as (W & H & Ew & Eh).
  assert (Hn : 1 <= sub_rounds lay) by exact (proj1 Hs).
  set (P := tile_width lay * tile_height lay).
  assert (HP : 0 <= P) by (unfold P; nia).
  assert (ED : data_width lay * data_height lay = 12 * P) by (unfold P; nia).
  split; [|split].
  - rewrite (circuit_measurements lay Hv Hsup). rewrite (count_round_edges lay Hv 0), count_data by exact Hv. fold P. rewrite ED.
    replace (12 * P / 2) with (6 * P) by dlia. nia.
  - rewrite (count_detectors lay Hv Hobs Hsup). rewrite Nat2Z.inj_add, (bulk_sum lay Hv Hobs). rewrite (count_round_edges lay Hv 0).
    unfold detector_count, bulk_dets, basis_H, same_basis. fold P. rewrite ED. replace (12 * P / 2) with (6 * P) by dlia. replace (12 * P / 6) with (2 * P) by dlia. cbv zeta.
    assert (Lt : forall a, (a <? Z.to_nat (sub_rounds lay))%nat = (Z.of_nat a + 1 <=? sub_rounds lay)).
    { intros a. destruct (Nat.ltb_spec a (Z.to_nat (sub_rounds lay))), (Z.leb_spec (Z.of_nat a + 1) (sub_rounds lay)); try reflexivity; lia. }
    rewrite !Lt, Z2Nat.id by lia. change (Z.of_nat 0 + 1) with 1. change (Z.of_nat 1 + 1) with 2. change (Z.of_nat 2 + 1) with 3. change (Z.of_nat 3 + 1) with 4.
    replace (1 <=? sub_rounds lay) with true by (symmetry; apply Z.leb_le; lia).
    assert (M2 : sub_rounds lay mod 2 = 0 \/ sub_rounds lay mod 2 = 1) by dlia.
    rewrite !Nat2Z.inj_add. destruct Hobs as [->| ->]; cbn [String.eqb Ascii.eqb Bool.eqb]; destruct M2 as [->| ->]; cbn [Z.eqb Pos.eqb]; rewrite ?Z2Nat.id by lia. all: generalize (Z.max 0 (sub_rounds lay - 4) * (2 * P)); intros X; repeat match goal with |- context [if ?b then _ else _] => destruct b end; lia.
  - intros g f. destruct (circuit_deterministic lay Hv Hobs g f Hsup) as (st & R & _). exists st. split; [exact R|].
    destruct (run_detectors g _ _ _ 0 0 0 R) as (r & Er & Lr & _ & Hj). split; [|exact Hj].
    rewrite Er. cbn [start frec app]. exact Lr.
Qed.
Print Assumptions C22_counts.
Example C22_example : detector_count lay_4_12 = 8 + 24 + 24 + 3 * 8 + 8 /\ detector_count (mkLayout 4 12 7 "EM3" "V" 0) = 16 + 8 + 24 + 8.
Proof. split; reflexivity. Qed.

(** ** C23: from sub-round 4 on, one detector per hex of the category completed by
    the sub-round.  The detectors of a sub-round are those with its time
    coordinate.  Each compares the product of the hex's six edge measurements with
    that of three sub-rounds before ([result] reads a check's result off the
    record B; [compares] in Struct3.v). *)
Theorem C23_bulk_detectors : forall lay c k, valid lay -> supported_input lay -> generate_ideal_circuit lay = Ok c ->
  (4 <= k)%nat -> Z.of_nat k < sub_rounds lay ->
  exists hs, NoDup hs /\ (forall h, In h hs <-> hex_of lay h ((Z.of_nat k - 2) mod 3)) /\
    Forall2 (fun d h => d_x d == fst h # 2 /\ d_y d == snd h # 2 /\ NoDup (d_meas d) /\
       forall B, xsum B (d_meas d) =
         xorb (xorb (xsum (result lay B k) (second_edges_around_hex lay h)) (xsum (result lay B (k - 1)) (first_edges_around_hex lay h)))
              (xorb (xsum (result lay B (k - 3)) (second_edges_around_hex lay h)) (xsum (result lay B (k - 4)) (first_edges_around_hex lay h))))
      (filter (fun d => Qeq_bool (d_t d) (Z.of_nat k # 1)) (detectors 0 0 0 0 (flatten c))) hs.
Proof.
  intros lay c k Hv Hs E Hk Hkn. rewrite (sup_gen lay c Hv Hs E), (dets_at_time lay Hv k (sup_sup lay Hs) Hkn).
  exists (hexes lay ((Z.of_nat k - 2) mod 3)). split; [|split].
  - now apply NoDup_hexes.
  - intros h. rewrite hex_of_iff by exact Hv. rewrite in_hexes by (try exact Hv; dlia). intuition congruence.
  - assert (F2 : forall (P Q : detector -> cpx -> Prop) l l', (forall d h, P d h -> Q d h) -> Forall2 P l l' -> Forall2 Q l l') by (intros P Q l l' Hi; induction 1; constructor; auto).
    apply (F2 (compares lay k)); [|now apply row_compares]. intros d h (H1 & H2 & H3 & H4). rewrite H1, H2. rewrite !Qred_correct. repeat split; auto; reflexivity.
Qed.
Print Assumptions C23_bulk_detectors.
Example C23_example : exists h, hex_of lay_4_12 h ((Z.of_nat 5 - 2) mod 3) /\ Z.of_nat 5 < sub_rounds lay_4_12.
Proof. exists (pos 0 0). split; [|reflexivity]. apply hex_of_iff; [exact lay_4_12_valid | vm_compute; intuition congruence]. Qed.

(** ** C24: a single Pauli on a data qubit flips exactly two stabilizers *)
Theorem C24_single_errors_graphlike : forall lay q p, valid lay -> In q (data_qubit_coords lay) ->
  exists h1 c1 h2 c2, hex_of lay h1 c1 /\ hex_of lay h2 c2 /\ h1 <> h2 /\ c1 <> c2 /\
    sub_round_edge_basis lay c1 <> p /\ sub_round_edge_basis lay c2 <> p /\
    In q (qubits_around_hex lay h1) /\ In q (qubits_around_hex lay h2) /\
    forall h c, hex_of lay h c -> anticommutes [(p, q)] (stabilizer lay h c) = true <-> h = h1 \/ h = h2.
Proof.
  intros lay q p Hv Hq. rewrite in_data in Hq by exact Hv.
  set (i := xyz_index p). assert (Hi : 0 <= i < 3) by (unfold i; destruct p; cbn; lia).
  assert (Hp : p = xyz i) by (destruct p; reflexivity).
  set (c1 := (i + 1) mod 3). set (c2 := (i + 2) mod 3).
  assert (R1 : 0 <= c1 < 3) by (unfold c1; dlia). assert (R2 : 0 <= c2 < 3) by (unfold c2; dlia).
  assert (Dc : c1 <> c2) by (unfold c1, c2; dlia).
  assert (X : forall a b, xyz a = xyz b -> a mod 3 = b mod 3).
  { intros a b K. unfold xyz in K. assert (Ca : a mod 3 = 0 \/ a mod 3 = 1 \/ a mod 3 = 2) by dlia. assert (Cb : b mod 3 = 0 \/ b mod 3 = 1 \/ b mod 3 = 2) by dlia.
    destruct Ca as [Ca|[Ca|Ca]], Cb as [Cb|[Cb|Cb]]; rewrite Ca, Cb in *; congruence || discriminate. }
  destruct (hexq_ishex lay Hv c1 q Hq) as [H1 E1]. destruct (hexq_ishex lay Hv c2 q Hq) as [H2 E2]. rewrite Z.mod_small in E1, E2 by assumption.
  exists (hexq lay c1 q), c1, (hexq lay c2 q), c2. repeat split.
  - apply hex_of_iff; auto.
  - apply hex_of_iff; auto.
  - intros K. apply Dc. now rewrite <- E1, <- E2, K.
  - exact Dc.
  - rewrite Hp. intros K. apply X in K. revert K. unfold c1. dlia.
  - rewrite Hp. intros K. apply X in K. revert K. unfold c2. dlia.
  - apply in_around; auto. rewrite E1. auto.
  - apply in_around; auto. rewrite E2. auto.
  - intros K. change [(p, q)] with (pstr p [q]) in K. apply hex_of_iff in H; [|exact Hv]. destruct H as [Hh ->].
    change (stabilizer lay h (hexcat h)) with (hex_op lay h) in K. unfold hex_op in K.
    rewrite anticommutes_pstr in K by (apply NoDup_around; assumption). apply andb_prop in K. destruct K as [K1 K2].
    rewrite xsum_cons in K2. unfold xsum in K2. cbn [fold_right] in K2. rewrite xorb_false_r in K2. apply cmem_In in K2.
    apply in_around in K2; auto. destruct K2 as [_ <-].
    assert (Hc : hexcat h = 0 \/ hexcat h = 1 \/ hexcat h = 2) by (unfold hexcat; dlia).
    assert (Hne : hexcat h <> i). { intros K. rewrite Hp, K in K1. unfold pneq in K1. destruct (xyz i); discriminate. }
    assert (C : hexcat h = c1 \/ hexcat h = c2) by (revert Hne; unfold c1, c2; dlia).
    destruct C as [-> | ->]; auto.
  - intros K. change [(p, q)] with (pstr p [q]). apply hex_of_iff in H; [|exact Hv]. destruct H as [Hh ->].
    change (stabilizer lay h (hexcat h)) with (hex_op lay h). unfold hex_op. rewrite anticommutes_pstr by (apply NoDup_around; assumption).
    rewrite xsum_cons. unfold xsum. cbn [fold_right]. rewrite xorb_false_r.
    assert (G : forall cc, cc <> i -> 0 <= cc < 3 -> h = hexq lay cc q -> pneq p (xyz (hexcat h)) && cmem q (qubits_around_hex lay h) = true).
    { intros cc Nc Rc Eh. destruct (hexq_ishex lay Hv cc q Hq) as [_ Ec]. rewrite Z.mod_small, <- Eh in Ec by exact Rc.
      apply andb_true_intro. split.
      - rewrite Hp, Ec. assert (N : xyz i <> xyz cc) by (intros K'; apply X in K'; revert K' Nc; clear -Hi Rc; dlia).
        unfold pneq. destruct (xyz i), (xyz cc); auto; congruence.
      - apply cmem_In. apply in_around; auto. rewrite Ec. auto. }
    destruct K as [K|K]; [apply (G c1); auto; unfold c1; dlia | apply (G c2); auto; unfold c2; dlia].
Qed.
Print Assumptions C24_single_errors_graphlike.
Example C24_example : In (pos 1 0) (data_qubit_coords lay_4_12).
Proof. assert (K : cmem (pos 1 0) (data_qubit_coords lay_4_12) = true) by (vm_compute; reflexivity). exact (proj1 (cmem_In _ _) K). Qed.
