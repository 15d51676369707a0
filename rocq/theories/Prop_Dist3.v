(** C82, continued: the distance is reached.  As many errors of single data qubits as the
    distance of the protected observable can flip it with no detector noticing. *)
From Coq Require Import QArith.
From Verif Require Import Prelude Layout LayoutFacts LayoutEdges LayoutLists LayoutHex LayoutHex2 LayoutIndex Pauli LayoutObs LayoutLogic Tracker TrackerFacts Stim Circuit Noise Annot Shift Ends Gen Gen2 Gen3 Traj Eval Frame Exec Exec2 Exec3 Exec4 Moments NoiseFacts NoiseMoments NoiseCorr NoiseAlign Prop_Circuit Prop_Noise Prop_Noise2 Prop_Noise3
  Detectors Struct Struct2 Distance2 FaultSpec FaultQuiet FaultCore FaultObs FaultInv FaultZ FaultInj FaultNoise FaultChain FaultEnd FaultRun FaultCount FaultLin FaultLine FaultDist FaultTilt FaultReach FaultFinal Prop_Fault Prop_Match Prop_Dist Prop_Distance Prop_Dist2.
Open Scope Z_scope.

(** ** Lemmas *)
(** the strength of the flips before a measurement *)
Lemma measure_strength lay nm ts : supported_input lay -> layout_noise_model lay = Ok nm -> (0 < noise lay)%Q -> exists p, op_strength nm (mkI "M" ts []) = Ok p /\ Qlt_bool 0 p = true.
Proof.
  intros (_ & _ & Hst) En Hp. rewrite (proj1 (C29_strengths lay nm (mkI "M" ts []) En)). cbn [iname].
  assert (G : forall q : Q, (0 < q)%Q -> Qlt_bool 0 q = true).
  { intros q Hq. unfold Qlt_bool. apply negb_true_iff. apply not_true_is_false. intros K. apply Qle_bool_iff in K. exact (Qlt_not_le _ _ Hq K). }
  destruct Hst as [-> |[-> |[-> |[-> |[-> _]]]]]; cbn; eexists; (split; [reflexivity|]); apply G; try exact Hp.
  - unfold Qdiv. apply Qmult_lt_0_compat; [exact Hp | reflexivity].
  - apply Qmult_lt_0_compat; [reflexivity | exact Hp].
Qed.
Definition kicks (lay : layout) (l : list cpx) : list fault := map (fun q => Kick (lone PX (ix lay q))) l.
Definition after (m : nat) (fs : list fault) (s : fstate) : fstate := fold_left (fun s f => happens f m s) fs s.
Lemma after_same lay m l : forall s, frec (after m (kicks lay l) s) = frec s /\ fdets (after m (kicks lay l) s) = fdets s /\ fobs (after m (kicks lay l) s) = fobs s.
Proof. induction l as [|q l IH]; intros s; [repeat split|]. unfold after, kicks in *. cbn [map fold_left happens]. destruct (IH (strike (lone PX (ix lay q)) s)) as (-> & -> & ->). repeat split. Qed.
Lemma after_read lay m l : valid lay -> (forall q, In q l -> isdata lay q) -> forall s q, isdata lay q -> anti2 (pbits PZ) (fr (after m (kicks lay l) s) (ix lay q)) = xorb (anti2 (pbits PZ) (fr s (ix lay q))) (xsum (cpx_eqb q) l).
Proof.
  intros Hv. induction l as [|r l IH]; intros Hl s q Hq; [cbn; now rewrite xorb_false_r|]. unfold after, kicks in *. cbn [map fold_left happens].
  rewrite IH by (auto; intros; apply Hl; now right). rewrite xsum_cons, <- xorb_assoc. f_equal. unfold strike, with_fr. cbn [fr]. rewrite anti2_bxor. f_equal. unfold lone.
  destruct (cpx_eqb q r) eqn:E.
  - apply cpx_eqb_eq in E. subst r. rewrite Nat.eqb_refl. reflexivity.
  - destruct (Nat.eqb_spec (ix lay q) (ix lay r)) as [K|_]; [|reflexivity]. exfalso.
    apply (ix_inj lay Hv q r (data_in_qubits lay Hv q Hq) (data_in_qubits lay Hv r (Hl r (or_introl eq_refl)))) in K. subst r. rewrite (proj2 (cpx_eqb_eq q q) eq_refl) in E. discriminate.
Qed.
Lemma xsum_member q l : NoDup l -> xsum (cpx_eqb q) l = cmem q l.
Proof.
  unfold cmem. induction l as [|r l IH]; intros Hn; [reflexivity|]. inversion Hn as [|? ? Hr Hl]; subst. rewrite xsum_cons, IH by exact Hl. cbn [existsb]. destruct (cpx_eqb q r) eqn:E; [|apply xorb_false_l].
  apply cpx_eqb_eq in E. subst r. cbn [orb]. replace (existsb (cpx_eqb q) l) with false; [reflexivity|]. symmetry. apply not_true_is_false. intros K. apply Hr. apply (cmem_In q l). exact K.
Qed.
Lemma after_sum a m fs : forall b c, sums a b c -> sums a (after m fs b) (after m fs c).
Proof. induction fs as [|f fs IH]; intros b c H; [exact H|]. cbn [after fold_left]. apply IH. now apply happens_sum. Qed.

(** no errors but [fs], at the instruction [i] *)
Definition at_one (l1 : list instr) (i : instr) (fs : list fault) (l2 : list instr) : list (instr * list fault) := map (fun i => (i, [])) l1 ++ (i, fs) :: map (fun i => (i, [])) l2.
Lemma run_plain g l : forall st, run_errors g (map (fun i => (i, [])) l) st = run g (gates l) st.
Proof.
  induction l as [|i l IH]; intros st; [reflexivity|]. cbn [map run_errors]. change (i :: l) with ([i] ++ l). rewrite gates_app, run_app. destruct (run g (gates [i]) st) as [s|]; [|reflexivity]. cbn [bind fold_left]. apply IH.
Qed.
Lemma run_errors_app g a b : forall st, run_errors g (a ++ b) st = let! s := run_errors g a st in run_errors g b s.
Proof.
  induction a as [|[i fs] a IH]; intros st; [reflexivity|]. cbn [app run_errors]. destruct (run g (gates [i]) st) as [s|]; [|reflexivity]. cbn [bind]. apply IH.
Qed.
Lemma at_one_errors l1 i fs l2 : (forall f, In f fs -> fault_of i f) -> errors_of (l1 ++ i :: l2) (at_one l1 i fs l2) /\ flat_map snd (at_one l1 i fs l2) = fs.
Proof.
  intros Hf. unfold at_one. assert (Z0 : forall m : list instr, map fst (map (fun i => (i, @nil fault)) m) = m) by (intros m; rewrite map_map; apply map_id).
  assert (Z1 : forall m : list instr, flat_map snd (map (fun i => (i, @nil fault)) m) = []) by (induction m; auto).
  split; [split|].
  - rewrite map_app. cbn [map fst]. now rewrite !Z0.
  - intros j fs' f Hin Hf'. apply in_app_or in Hin. destruct Hin as [Hin|[Hin|Hin]].
    + apply in_map_iff in Hin. destruct Hin as (x & Q & _). injection Q as <- <-. destruct Hf'.
    + injection Hin as <- <-. auto.
    + apply in_map_iff in Hin. destruct Hin as (x & Q & _). injection Q as <- <-. destruct Hf'.
  - rewrite flat_map_app. cbn [flat_map snd]. now rewrite !Z1, app_nil_r.
Qed.

Section S.
  Variable lay : layout.
  Hypothesis Hv : valid lay.
  Hypothesis Hobs : obs lay = "V"%string \/ obs lay = "H"%string.
  Hypothesis Hs : supported lay.
  Notation n := (sub_rounds lay).
  Notation N := (Z.to_nat n).
  Notation ne := (length (round_edges lay 0)).
  Notation D := (data_qubit_coords lay).
  Notation trk := (Shift.trk lay (tr0 lay)).
  Local Opaque data_qubit_coords measure_qubit_coords q2i_dict hex_entries hexes round_edges all_edges isort.

  (** what is left of the chain at the end *)
  Lemma chain_end l1 l2 pre z : detectors 0 0 0 0 (gates l1 ++ gates l2) = detectors 0 0 0 0 (circuit_i lay) -> (forall x, includes x 0 (gates l1 ++ gates l2) = includes x 0 (circuit_i lay)) ->
    measurements (gates l1 ++ gates l2) = measurements (circuit_i lay) ->
    gates l2 = pre ++ final_m lay :: fin_ann lay -> (forall gs, reads gs (tm (trk N)) pre) ->
    run still (gates l1) (start (fun _ => bzero)) = Ok z -> clean z ->
    forall m, exists st, run still (gates l2) (after m (kicks lay (chain lay)) z) = Ok st /\ (forall j, nth j (fdets st) false = false) /\ forall x, fobs st x = mine lay x true.
  Proof.
    intros Ed Ei Em E2 Hr Rz Cz m. destruct (after_same lay m (chain lay) z) as (A1 & A2 & A3). set (k := after m (kicks lay (chain lay)) z) in *.
    destruct Cz as (C1 & C2 & C3 & C4).
    destruct (run_detectors still _ _ _ 0 0 0 Rz) as (r1 & B1 & B2 & _). cbn [start frec app] in B1.
    assert (F : forall len l, reads still len l -> measurements l = 0%nat).
    { intros len l K. destruct (K (mkF (fun _ => bzero) (repeat false len) [] (fun _ => false) 0)) as (s & R & _ & G); [cbn; apply repeat_length|].
      destruct (run_detectors still _ _ _ 0 0 0 R) as (r & G1 & G2 & _). rewrite G in G1. rewrite <- G2. apply (f_equal (@length bool)) in G1. rewrite app_length in G1. lia. }
    pose proof (fin_reads lay Hv Hobs Hs still) as Hfin.
    assert (Lz : length (frec z) = (N * ne)%nat).
    { rewrite (circuit_measurements lay Hv Hs) in Em. rewrite E2, !measurements_app, (F _ pre (Hr still)) in Em. change (final_m lay :: fin_ann lay) with ([final_m lay] ++ fin_ann lay) in Em. rewrite measurements_app, (F _ _ Hfin) in Em.
      assert (Lm : measurements [final_m lay] = length D).
      { unfold measurements, results, final_m. cbn. unfold qs. rewrite !map_length. unfold Ends.data_ix. rewrite map_length. lia. }
      rewrite Lm in Em. rewrite B1, B2. lia. }
    assert (Ltm : tm (trk N) = (N * ne)%nat) by (rewrite (tm_trk lay Hv); reflexivity).
    destruct (Hr still k) as (s1 & R1 & F1 & G1); [rewrite A1, Lz, Ltm; reflexivity|].
    destruct (fold_measure still PZ (Ends.data_ix lay) s1 (NoDup_data_ix lay Hv)) as (K1 & _). cbn zeta in K1. set (s2 := fold_left _ (Ends.data_ix lay) s1) in *.
    assert (Rm : run_instr still (final_m lay) s1 = Ok s2) by apply (run_M still).
    destruct (Hfin s2) as (st & R3 & F3 & G3).
    { rewrite K1, G1, A1, app_length, map_length, Lz. unfold ftime. rewrite Ltm. unfold Ends.data_ix. now rewrite map_length. }
    assert (R : run still (gates l2) k = Ok st).
    { rewrite E2, run_app, R1. cbn [bind run]. rewrite Rm. exact R3. }
    assert (Ef : frec st = frec z ++ map (fun q => cmem q (chain lay)) D).
    { rewrite G3, K1, G1, A1. f_equal. unfold Ends.data_ix. rewrite map_map. apply map_ext_in. intros q Hq. apply (proj1 (in_data lay Hv q)) in Hq. rewrite F1. unfold k.
      rewrite after_read by (auto; intros; now apply (chain_data lay Hv)). rewrite C1, (xsum_member q (chain lay) (chain_NoDup lay)). apply xorb_false_l. }
    set (B := fun j => nth j (frec st) false).
    assert (HB : forall j, (j < N * ne)%nat -> B j = false).
    { intros j Hj. unfold B. rewrite Ef, app_nth1 by lia. rewrite Forall_forall in C2. apply C2, nth_In. lia. }
    assert (HD : forall q, In q D -> dat lay B q = cmem q (chain lay)).
    { intros q Hq. unfold dat, B. rewrite Ef, app_nth2, Lz by lia. replace (N * ne + index cpx_eqb q D - N * ne)%nat with (index cpx_eqb q D) by lia. apply (nth_index cpx_eqb cpx_eqb_eq (fun q => cmem q (chain lay))). exact Hq. }
    exists st. split; [exact R|]. split.
    - destruct (detectors_app (gates l1) 0 0 0 0) as (x & y & t & Q1). rewrite Q1 in Ed. cbn [Nat.add] in Ed. rewrite <- B2 in Ed.
      destruct (run_detectors still _ _ _ x y t R) as (r2 & _ & _ & Dt & _). rewrite A1, A2, B1 in Dt. intros j. rewrite Dt.
      destruct (Nat.lt_ge_cases j (length (fdets z))) as [L|L]; [rewrite app_nth1 by exact L; rewrite Forall_forall in C3; now apply C3, nth_In|]. rewrite app_nth2 by exact L.
      set (j' := (j - length (fdets z))%nat). destruct (nth_in_or_default j' (map (fun d => xsum (fun j0 => nth j0 (frec st) false) (d_meas d)) (detectors x y t (length r1) (gates l2))) false) as [K| ->]; [|reflexivity].
      apply in_map_iff in K. destruct K as (d & Ed' & Hd). rewrite <- Ed'. apply (chain_silent lay Hv Hobs Hs B HB HD). rewrite <- Ed. apply in_or_app. now right.
    - intros x. specialize (Ei x). rewrite includes_app in Ei. cbn [Nat.add] in Ei. rewrite <- B2 in Ei.
      destruct (run_includes still x _ _ _ R) as [I1 _]. rewrite A1, A3, B1, C4, xorb_false_l in I1. rewrite I1. change (fun j : nat => nth j (frec st) false) with B.
      pose proof (circuit_includes lay Hv Hobs B x Hs) as CI. rewrite <- Ei, xsum_app, (chain_effect lay Hv Hobs B HB HD) in CI. rewrite <- CI.
      rewrite (xsum_false _ (includes x 0 (gates l1))); [now rewrite xorb_false_l|]. intros j Hj. apply HB. destruct (run_includes still x _ _ _ Rz) as [_ I2]. cbn [start frec length] in I2. rewrite <- Lz. now apply I2.
  Qed.
  Lemma chain_length : Z.of_nat (length (chain lay)) = if (obs lay =? "V")%string then data_width lay else 2 * (data_height lay / 3).
  Proof.
    pose proof (valid_tiles lay Hv) as (T1 & T2 & T3 & T4). unfold chain. destruct (obs lay =? "V")%string.
    - rewrite map_length, length_zrange. lia.
    - transitivity (4 * tile_height lay); [|rewrite T4; dlia]. rewrite obs_v_list by exact Hv. unfold obs_v_pattern.
      assert (L : forall f l, (forall i : Z, length (f i) = 2%nat) -> length (flat_map f l : list cpx) = (2 * length l)%nat).
      { intros f l Hf. induction l as [|i l IH]; [reflexivity|]. cbn [flat_map length]. rewrite app_length, IH, Hf. lia. }
      destruct (mod6_cases n) as [-> |[-> |[-> |[-> |[-> | ->]]]]]; (rewrite L by reflexivity); rewrite length_zrange; lia.
  Qed.
End S.

(** ** Theorems *)
(** The distance of the protected observable: the width of the patch for a vertical one,
    two thirds of its height for a horizontal one. *)
Definition observable_distance (lay : layout) : Z := if (obs lay =? "V")%string then data_width lay else 2 * (data_height lay / 3).
(** Fewer errors than the distance of the observable are noticed, *)
Theorem C82_observable_distance : forall lay c, valid lay -> supported_input lay -> generate_honeycomb_circuit lay = Ok c ->
  forall lf, errors_of (flatten c) lf -> all_errors (data_error lay) lf -> Z.of_nat (error_count lf) < observable_distance lay ->
  forall g f0, exists st, run_errors g lf (start f0) = Ok st /\ ((exists x, fobs st x = true) -> exists d, In d (fdets st) /\ d = true).
Proof.
  intros lay c Hv Hs E lf Hlf Ha L g f0.
  destruct (forgiving_detected lay c Hv Hs E True True lf Hlf) with (g := g) (f0 := f0) as (st & R & _ & K).
  - intros f Hf. destruct (all_in _ _ Ha f Hf). auto.
  - intros cs Hcs Lc HQ. pose proof (valid_tiles lay Hv) as (T1 & T2 & T3 & T4). unfold observable_distance in L. destruct (String.eqb_spec (obs lay) "V") as [Eo|No].
    + apply (one_harmless lay Hv (sup_obs lay Hs) (sup_sup lay Hs) cs); [|exact HQ | rewrite Eo, Lc; cbn [String.eqb Ascii.eqb Bool.eqb]; lia].
      intros p Hp. destruct (Hcs p Hp) as [Q1 [Q2 _]]. split; [exact Q1|]. split; [exact Q2 | intros []].
    + apply (bare_harmless lay Hv (sup_obs lay Hs) (sup_sup lay Hs) cs No Hcs HQ). rewrite Lc. revert L. dlia.
  - exists st. split; [exact R|]. intros Hx. exact (some_set_off lay c st (K Hx)).
Qed.
Print Assumptions C82_observable_distance.

(** and that many can go unnoticed: in every noisy circuit there are that many errors
    which, whatever the random choices of the run, flip the observable and set off no detector. *)
Theorem C82_observable_distance_reached : forall lay c, valid lay -> supported_input lay -> (0 < noise lay)%Q -> generate_honeycomb_circuit lay = Ok c ->
  exists lf, errors_of (flatten c) lf /\ all_errors (data_error lay) lf /\ Z.of_nat (error_count lf) = observable_distance lay /\
  forall g f0, exists st, run_errors g lf (start f0) = Ok st /\ (forall d, In d (fdets st) -> d = false) /\ exists x, fobs st x = true.
Proof.
  intros lay c Hv Hs Hp E. pose proof (proj1 (faulty_run lay c Hv Hs E)) as Ed0. pose proof (clean_run lay c Hv Hs E) as HC.
  destruct (generated lay Hv Hs) as (c1 & nm & c2 & E1 & En & E2 & E3 & Fl & Fo & Hfine). rewrite E in E3. injection E3 as <-.
  pose proof (noisy_moments_flip (unit_i lay) nm c1 c Fo (fun op Ho => fine_ideal lay op (Hfine op Ho)) E2) as HF. rewrite Fl in HF.
  pose proof (noisy_moments_any (unit_i lay) nm c1 c Fo (fun op Ho => fine_ideal lay op (Hfine op Ho)) E2) as HA. rewrite Fl in HA.
  pose proof (proj2 (proj2 (proj2 (C29_strengths lay nm (mkI "" [] []) En)))) as Hc.
  assert (Hpp : use_correlated nm = true -> forall op, In op (circuit_i lay) -> pauli_pairs op).
  { intros U op Ho. apply Hc in U. exact (proj2 (proj1 (Forall_forall _ _) (circuit_low lay Hv (em3_supported_em3 lay U)) op Ho)). }
  destruct (circuit_tail lay Hv (sup_sup lay Hs)) as (A & pre & Ec & Hcalm & Hr).
  destruct (measure_strength lay nm (qs (Ends.data_ix lay)) Hs En Hp) as (p & Es & Pp).
  destruct (last_noise nm _ _ A pre (final_m lay) (fin_ann lay) p HF Ec Hcalm eq_refl Es Pp) as (l1 & l2 & El & Eg). cbn [final_m itargets] in El. set (i := mkI "X_ERROR" (qs (Ends.data_ix lay)) [Num p]) in El.
  assert (Gi : gates (flatten c) = gates l1 ++ gates l2) by (rewrite El; change (l1 ++ i :: l2) with (l1 ++ [i] ++ l2); rewrite !gates_app; reflexivity).
  destruct (alike_trans _ _ _ (alike_circuit nm _ _ _ Hpp HA) (alike_gates (flatten c))) as (Q1 & Q2 & Q3). rewrite Gi in Q1, Q2, Q3.
  assert (Hfs : forall f, In f (kicks lay (chain lay)) -> fault_of i f /\ data_error lay f).
  { intros f Hf. apply in_map_iff in Hf. destruct Hf as (q & <- & Hq). apply (chain_data lay Hv (sup_obs lay Hs)) in Hq. split; [|now apply lone_data].
    apply (fault_x _ _ (ix lay q)); [|apply only_lone | unfold lone; now rewrite Nat.eqb_refl]. unfold qs. apply in_map. unfold Ends.data_ix. apply in_map. now apply (proj2 (in_data lay Hv q)). }
  destruct (at_one_errors l1 i (kicks lay (chain lay)) l2 (fun f Hf => proj1 (Hfs f Hf))) as [Her Hsnd].
  exists (at_one l1 i (kicks lay (chain lay)) l2). rewrite El. split; [exact Her|].
  split; [|split].
  - intros j fs f Hin Hf. apply Hfs. rewrite <- Hsnd. apply in_flat_map. exists (j, fs). auto.
  - unfold error_count. rewrite Hsnd. unfold kicks. rewrite map_length. exact (chain_length lay Hv).
  - intros g f0. destruct (HC g f0) as (base & Rb & _ & Db & Ob). rewrite Gi, run_app in Rb. destruct (run g (gates l1) (start f0)) as [s1|] eqn:R1; [|discriminate]. cbn [bind] in Rb.
    destruct (run_sum g still g) with (l := gates l1) (a := start f0) (b := start (fun _ => bzero)) (c := start f0) (a' := s1) as (z & s1' & Rz & R1' & S1);
      [intros j; unfold still; now rewrite xorb_false_r | apply sums_clean; [exact zero_clean | reflexivity | reflexivity | reflexivity] | exact R1 |].
    assert (s1' = s1) by congruence. subst s1'.
    destruct (run_sum still still still) with (l := gates l1) (a := start (fun _ => bzero)) (b := start (fun _ => bzero)) (c := start (fun _ => bzero)) (a' := z) as (z2 & z3 & Rz2 & Rz3 & S2); [reflexivity | apply clean_sums, zero_clean | exact Rz |].
    assert (z2 = z) by congruence. assert (z3 = z) by congruence. subst z2 z3. apply clean_sums in S2.
    destruct (chain_end lay Hv (sup_obs lay Hs) (sup_sup lay Hs) l1 l2 pre z) with (m := length (frec s1)) as (st & Re & De & Oe).
    + specialize (Q1 0%Q 0%Q 0%Q 0%nat []). rewrite !app_nil_r in Q1. now symmetry.
    + intros x. symmetry. apply Q2.
    + now symmetry.
    + exact Eg.
    + exact Hr.
    + exact Rz.
    + exact S2.
    + destruct (run_sum g still g) with (l := gates l2) (a := s1) (b := after (length (frec s1)) (kicks lay (chain lay)) z) (c := after (length (frec s1)) (kicks lay (chain lay)) s1) (a' := base) as (st' & cur & Re' & Rc & S3);
        [intros j; unfold still; now rewrite xorb_false_r | apply after_sum; exact S1 | exact Rb |].
      assert (st' = st) by congruence. subst st'. exists cur. split; [|split].
      * unfold at_one. rewrite run_errors_app, run_plain, R1. cbn [bind run_errors]. change (gates [i]) with (@nil instr). cbn [run bind]. rewrite run_plain. exact Rc.
      * destruct S3 as (_ & _ & (L3 & D3) & _). intros d Hd. apply (In_nth _ _ false) in Hd. destruct Hd as (j & _ & <-). rewrite D3, xors_nth, Db, De by exact L3. reflexivity.
      * exists (oidx lay). destruct S3 as (_ & _ & _ & O3 & _). rewrite O3, Ob, Oe. unfold mine. now rewrite Nat.eqb_refl.
Qed.
Print Assumptions C82_observable_distance_reached.

(** For one of the two observables, these are as many errors as the code distance. *)
Definition protecting (lay : layout) (o : string) : layout := mkLayout (data_width lay) (data_height lay) (sub_rounds lay) (style lay) o (noise lay).
Theorem C82_smaller_distance : forall lay, valid lay -> code_distance_1qdep lay = Z.min (observable_distance (protecting lay "V")) (observable_distance (protecting lay "H")).
Proof. intros lay Hv. unfold observable_distance, code_distance_1qdep. cbn. lia. Qed.
Theorem C82_code_distance_reached : forall lay, valid lay -> supported_input lay -> (0 < noise lay)%Q ->
  exists o c lf, (o = "V" \/ o = "H")%string /\ generate_honeycomb_circuit (protecting lay o) = Ok c /\ errors_of (flatten c) lf /\ all_errors (data_error (protecting lay o)) lf /\
    Z.of_nat (error_count lf) = code_distance_1qdep lay /\
    forall g f0, exists st, run_errors g lf (start f0) = Ok st /\ (forall d, In d (fdets st) -> d = false) /\ exists x, fobs st x = true.
Proof.
  intros lay Hv Hs Hp. set (o := if data_width lay <=? 2 * (data_height lay / 3) then "V"%string else "H"%string).
  assert (Ho : (o = "V" \/ o = "H")%string) by (unfold o; destruct (_ <=? _); auto).
  assert (Hv' : valid (protecting lay o)) by exact Hv. assert (Hs' : supported_input (protecting lay o)) by (destruct Hs as (S1 & _ & S3); split; [exact S1|]; split; [exact Ho | exact S3]).
  destruct (generated (protecting lay o) Hv' Hs') as (c1 & nm & c & _ & _ & _ & E & _).
  destruct (C82_observable_distance_reached (protecting lay o) c Hv' Hs' Hp E) as (lf & H1 & H2 & H3 & H4).
  exists o, c, lf. split; [exact Ho|]. split; [exact E|]. split; [exact H1|]. split; [exact H2|]. split; [|exact H4]. rewrite H3. unfold observable_distance, code_distance_1qdep. cbn [protecting obs data_width data_height].
  unfold o. destruct (Z.leb_spec (data_width lay) (2 * (data_height lay / 3))); cbn [String.eqb Ascii.eqb Bool.eqb]; lia.
Qed.
Print Assumptions C82_code_distance_reached.
Example C82_reached_example : valid four /\ supported_input four /\ (0 < noise four)%Q /\ observable_distance four = 4 /\ chain four = [(2, 0); (2, 2); (2, 6); (2, 8)].
Proof. split; [apply four_valid|]. split; [apply four_valid|]. split; [reflexivity|]. split; vm_compute; reflexivity. Qed.
