(** C81, continued: with direct measurements of pairs half the distance is enough.  The
    two-qubit noise before such a measurement hits two qubits of an unnoticed chain at once. *)
From Coq Require Import QArith.
From Verif Require Import Prelude Layout LayoutFacts LayoutEdges LayoutLists LayoutHex LayoutHex2 LayoutIndex Pauli LayoutObs LayoutLogic Tracker TrackerFacts Stim Circuit Noise Annot Shift Ends Gen Gen2 Gen3 Traj Eval Frame Exec Exec2 Exec3 Exec4 Moments NoiseFacts NoiseMoments NoiseCorr NoiseAlign GenShape Prop_Circuit Prop_Noise Prop_Noise2 Prop_Noise3
  Detectors Struct Struct2 Struct3 Distance2 FaultSpec FaultQuiet FaultCore FaultObs FaultStep FaultInv FaultZ FaultInj FaultNoise FaultChain FaultEm3 FaultEnd FaultRun FaultCount FaultLin FaultLine FaultDist FaultTilt FaultReach FaultFinal FaultPairs Prop_Fault Prop_Match Prop_Dist Prop_Distance Prop_Dist2 Prop_Dist3.
Open Scope Z_scope.

(** ** Lemmas *)
Lemma filter_all {A} (p : A -> bool) l : (forall x, In x l -> p x = true) -> filter p l = l.
Proof. induction l as [|x l IH]; intros H; [reflexivity|]. cbn [filter]. rewrite (H x (or_introl eq_refl)), IH; [reflexivity|]. intros; apply H; now right. Qed.
Lemma NoDup_flat_filter {A B} (f : A -> list B) p l : NoDup (flat_map f l) -> NoDup (flat_map f (filter p l)).
Proof.
  induction l as [|x l IH]; intros H; [constructor|]. cbn [flat_map] in H. assert (Hl : NoDup (flat_map f l)) by (clear -H; induction (f x); [exact H | inversion H; auto]).
  cbn [filter]. destruct (p x); [|auto]. cbn [flat_map]. apply NoDup_app_inv in H. destruct H as (H1 & _ & H3). apply NoDup_app_intro; [exact H1 | auto |].
  intros y Hy K. apply (H3 y Hy). apply in_flat_map in K. destruct K as (z & Hz & K). apply filter_In in Hz. apply in_flat_map. exists z. tauto.
Qed.

Section S.
  Variable lay : layout.
  Hypothesis Hv : valid lay.
  Hypothesis Hobs : obs lay = "V"%string \/ obs lay = "H"%string.
  Hypothesis Hs : supported lay.
  Hypothesis Hem : is_em3 (style lay) = true.
  Hypothesis Hn : 2 <= sub_rounds lay.
  Notation E := (round_edges lay).
  Notation zk := Z.of_nat.
  Notation n := (sub_rounds lay).
  Notation N := (Z.to_nat n).
  Notation ne := (length (round_edges lay 0)).
  Notation D := (data_qubit_coords lay).
  Notation trk := (Shift.trk lay (tr0 lay)).
  Notation ix := (ix lay).
  Local Opaque data_qubit_coords measure_qubit_coords q2i_dict hex_entries hexes round_edges all_edges isort.

  (** the pairs hit, and the errors *)
  Definition hit : list edge := filter (fun e => cmem (e_left e) (pchain lay)) (E (when lay)).
  Definition pair_kicks (l : list edge) : list fault := map (fun e => Kick (both_at (what lay) (ix (e_left e)) (what lay) (ix (e_right e)))) l.
  Definition ends (l : list edge) : list cpx := flat_map (fun e => [e_left e; e_right e]) l.
  Lemma NoDup_ends r : NoDup (ends (E r)).
  Proof.
    apply (NoDup_map_inv ix). unfold ends. replace (map ix (flat_map (fun e => [e_left e; e_right e]) (E r))) with (flat_map (fun e => [ix (e_left e); ix (e_right e)]) (E r)); [now apply NoDup_lr|].
    induction (E r) as [|e l IH]; [reflexivity|]. cbn [flat_map app map]. now rewrite IH.
  Qed.
  Lemma hit_ends : Permutation (ends hit) (pchain lay).
  Proof.
    apply NoDup_Permutation; [apply NoDup_flat_filter, NoDup_ends | now apply pchain_NoDup |]. intros q. unfold ends. rewrite in_flat_map. split.
    - intros (e & He & Hq). apply filter_In in He. destruct He as [He Hc]. cbn [In] in Hq. apply cmem_In. destruct Hq as [<-|[<-|[]]]; [exact Hc | now rewrite <- (pchain_pairs lay Hv Hobs e He)].
    - intros Hq. pose proof (pchain_data lay Hv Hobs q Hq) as Hd. pose proof (touch_in lay Hv (when lay) q Hd) as He. apply cmem_In in Hq. pose proof (pchain_pairs lay Hv Hobs _ He) as Pp.
      pose proof (proj2 (touch_unique lay Hv (when lay) q _ Hd He) eq_refl) as Ht. exists (touch lay (when lay) q). unfold hit. rewrite filter_In. cbn [In]. destruct Ht as [Ht|Ht]; rewrite Ht in *; (split; [split; [exact He | congruence] | auto]).
  Qed.
  Lemma hit_count : 2 * zk (length hit) = observable_distance lay.
  Proof.
    assert (L : forall l, length (ends l) = (2 * length l)%nat) by (induction l as [|e l IH]; [reflexivity|]; cbn [ends flat_map app length]; fold (ends l); lia).
    pose proof (Permutation_length hit_ends) as P. rewrite L in P. transitivity (zk (length (pchain lay))); [lia|].
    pose proof (valid_tiles lay Hv) as (T1 & T2 & T3 & T4). unfold pchain, observable_distance. destruct (obs lay =? "V")%string.
    - rewrite map_length, length_zrange. lia.
    - transitivity (4 * tile_height lay); [|rewrite T4; dlia]. rewrite obs_v_list by exact Hv. unfold obs_v_pattern.
      assert (L2 : forall f l, (forall i : Z, length (f i) = 2%nat) -> length (flat_map f l : list cpx) = (2 * length l)%nat).
      { intros f l Hf. induction l as [|i l IH]; [reflexivity|]. cbn [flat_map length]. rewrite app_length, IH, Hf. lia. }
      destruct (mod6_cases (when lay + 1)) as [-> |[-> |[-> |[-> |[-> | ->]]]]]; (rewrite L2 by reflexivity); rewrite length_zrange; lia.
  Qed.
  Lemma pairs_same m l : forall s, frec (after m (pair_kicks l) s) = frec s /\ fdets (after m (pair_kicks l) s) = fdets s /\ fobs (after m (pair_kicks l) s) = fobs s.
  Proof. induction l as [|e l IH]; intros s; [repeat split|]. unfold after, pair_kicks in *. cbn [map fold_left happens]. match goal with |- context [fold_left _ _ ?u] => destruct (IH u) as (-> & -> & ->) end. repeat split. Qed.
  Lemma pairs_frame m l : NoDup (map ix (ends l)) -> forall s x, fr (after m (pair_kicks l) s) x = bxor (fr s x) (bsel (xsum (fun q => Nat.eqb x (ix q)) (ends l)) (pbits (what lay))).
  Proof.
    induction l as [|e l IH]; intros Hd s x; [cbn; now rewrite bxor_zero_r|]. unfold after, pair_kicks in *. cbn [ends flat_map app map] in Hd. inversion Hd as [|? ? H1 Hd1]; subst. inversion Hd1 as [|? ? H2 Hd2]; subst.
    cbn [map fold_left happens ends flat_map app]. fold (ends l). rewrite !xsum_cons, IH by exact Hd2. unfold strike, with_fr. cbn [fr]. rewrite <- bxor_assoc. f_equal. rewrite <- xorb_assoc, bsel_xorb. f_equal.
    unfold both_at. destruct (Nat.eqb_spec x (ix (e_left e))) as [Kl|Kl], (Nat.eqb_spec x (ix (e_right e))) as [Kr|Kr]; try reflexivity.
    exfalso. apply H1. left. congruence.
  Qed.
  Lemma pairs_marked m z : (forall x, fr z x = bzero) -> marked lay (after m (pair_kicks hit) z).
  Proof.
    intros Hz q Hq. rewrite pairs_frame.
    2:{ unfold hit, ends. replace (map ix (flat_map (fun e => [e_left e; e_right e]) (filter (fun e => cmem (e_left e) (pchain lay)) (E (when lay))))) with (flat_map (fun e => [ix (e_left e); ix (e_right e)]) (filter (fun e => cmem (e_left e) (pchain lay)) (E (when lay)))).
        - apply NoDup_flat_filter. now apply NoDup_lr.
        - induction (filter _ _) as [|e l IH]; [reflexivity|]. cbn [flat_map app map]. now rewrite IH. }
    rewrite Hz, bxor_zero_l, (xsum_perm _ _ _ hit_ends). rewrite (xsum_ext _ (cpx_eqb q)).
    - rewrite xsum_member by now apply pchain_NoDup. now destruct (cmem q (pchain lay)).
    - intros r Hr. apply (pchain_data lay Hv Hobs) in Hr. destruct (cpx_eqb q r) eqn:Q; [apply cpx_eqb_eq in Q; subst r; apply Nat.eqb_refl|]. apply Nat.eqb_neq. intros K.
      apply (ix_inj lay Hv q r (data_in_qubits lay Hv q Hq) (data_in_qubits lay Hv r Hr)) in K. subst r. rewrite (proj2 (cpx_eqb_eq q q) eq_refl) in Q. discriminate.
  Qed.

  (** the sub-round of the errors *)
  Definition sub : nat := Z.to_nat (when lay).
  Lemma sub_when : when lay = zk sub.
  Proof. unfold sub, when. destruct (same_basis lay); lia. Qed.
  Lemma sub_lt : (sub < N)%nat.
  Proof. unfold sub, when. destruct (same_basis lay); lia. Qed.
  Definition measured : list instr := mpp_i lay sub :: annk lay (tr0 lay) sub.
  Definition later : list instr := flat_map (em3_i lay) (seq (S sub) (N - S sub)) ++ fin lay (trk N).
  Lemma em3_split : measured ++ tick_i :: later = flat_map (em3_i lay) (seq sub (N - sub)) ++ fin lay (trk N).
  Proof.
    pose proof sub_lt as L. replace (N - sub)%nat with (S (N - S sub)) by lia. cbn [seq flat_map]. unfold later, measured, mpp_i, em3_i at 2, mop. rewrite Hem. cbn [app]. rewrite <- !app_assoc. reflexivity.
  Qed.
  Lemma em3_place : exists A, circuit_i lay = A ++ tick_i :: measured ++ tick_i :: later.
  Proof.
    rewrite em3_split. unfold circuit_i, body_i. assert (S1 : (style lay =? "SD6")%string = false /\ (style lay =? "PC3")%string = false).
    { unfold is_em3 in Hem. destruct (String.eqb_spec (style lay) "SD6") as [K|_]; [rewrite K in Hem; discriminate|]. destruct (String.eqb_spec (style lay) "PC3") as [K|_]; [rewrite K in Hem; discriminate|]. auto. }
    destruct S1 as [-> ->]. rewrite Hem. unfold em3_body. pose proof sub_lt as L. assert (Sq : seq 0 N = seq 0 sub ++ seq sub (N - sub)) by (pose proof (seq_app sub (N - sub) 0) as K; replace (sub + (N - sub))%nat with N in K by lia; exact K). rewrite Sq, flat_map_app.
    assert (T : exists b, init_i lay ++ flat_map (em3_i lay) (seq 0 sub) = b ++ [tick_i]).
    { destruct sub as [|k].
      - cbn [seq flat_map]. rewrite app_nil_r. unfold init_i, hdata. destruct (pauli_eqb _ _); [exists [mkI "R" (qs (used_ix lay)) []]; reflexivity | eexists [_; _; _]; reflexivity].
      - destruct (flat_last (em3_i lay) (S k)) as (b & ->); [lia | intros j; unfold em3_i; rewrite !app_assoc; eauto |]. exists (init_i lay ++ b). now rewrite app_assoc. }
    destruct T as (b & T). exists (coords_i lay ++ b). rewrite <- !app_assoc. f_equal. rewrite (app_assoc (init_i lay)), T, <- app_assoc. reflexivity.
  Qed.
  Lemma measured_calm : no_tick measured.
  Proof.
    unfold no_tick, measured. cbn [forallb]. apply andb_true_intro. split; [reflexivity|]. apply forallb_forall. intros i Hi. apply (proj1 (Forall_forall _ _) (calm_annk lay sub)) in Hi. destruct Hi as (_ & _ & ->). reflexivity.
  Qed.
  Lemma hit_targets p e : In e hit -> fault_of (mkI "DEPOLARIZE2" (map tvalue (filter (fun t => negb (is_combiner t)) (itargets (mpp_i lay sub)))) [Num p]) (Kick (both_at (what lay) (ix (e_left e)) (what lay) (ix (e_right e)))).
  Proof.
    intros He. unfold hit in He. apply filter_In in He. destruct He as [He _]. rewrite sub_when in He. unfold mpp_i, mpp_targets. cbn [itargets].
    assert (Q : map tvalue (filter (fun t => negb (is_combiner t)) (flat_map (fun e => [TP (xyz (zk sub)) (ix (e_left e)); TComb; TP (xyz (zk sub)) (ix (e_right e))]) (E (zk sub)))) = flat_map (fun e => [TQ (ix (e_left e)); TQ (ix (e_right e))]) (E (zk sub))).
    { clear He. induction (E (zk sub)) as [|x l IH]; [reflexivity|]. cbn [flat_map app filter is_combiner negb map tvalue]. now rewrite IH. }
    rewrite Q. apply in_split in He. destruct He as (l1 & l2 & ->). rewrite flat_map_app. cbn [flat_map app]. apply fault_dep2; [|apply only_both].
    exists (length l1). clear. induction l1 as [|x l IH]; [reflexivity|]. cbn [flat_map app length]. lia.
  Qed.

  (** what is left of the chain at the end *)
  Lemma pairs_end l1 l2 z m st : detectors 0 0 0 0 (gates l1 ++ gates l2) = detectors 0 0 0 0 (circuit_i lay) -> (forall x, includes x 0 (gates l1 ++ gates l2) = includes x 0 (circuit_i lay)) ->
    measurements (gates l1 ++ gates l2) = measurements (circuit_i lay) ->
    run still (gates l1) (start (fun _ => bzero)) = Ok z -> clean z ->
    run still (gates l2) (after m (pair_kicks hit) z) = Ok st -> run still (measured ++ tick_i :: later) (after m (pair_kicks hit) z) = Ok st ->
    (forall j, nth j (fdets st) false = false) /\ forall x, fobs st x = mine lay x true.
  Proof.
    intros Ed Ei Em Rz Cz R R0. destruct (pairs_same m hit z) as (A1 & A2 & A3). destruct Cz as (C1 & C2 & C3 & C4). pose proof (pairs_marked m z C1) as Mk. set (k := after m (pair_kicks hit) z) in *.
    destruct (run_detectors still _ _ _ 0 0 0 Rz) as (r1 & B1 & B2 & _). cbn [start frec app] in B1.
    rewrite em3_split in R0. pose proof (tail_still lay Hv Hobs Hem sub k st sub_lt sub_when Mk R0) as Ef. rewrite A1 in Ef.
    assert (Lz : (length (frec z) + (N - sub) * ne)%nat = (N * ne)%nat).
    { destruct (run_detectors still _ _ _ 0 0 0 R) as (r2 & G1 & G2 & _). rewrite (circuit_measurements lay Hv Hs), measurements_app in Em. rewrite A1 in G1. rewrite G1 in Ef. apply app_inv_head in Ef. apply (f_equal (@length bool)) in Ef. rewrite app_length, repeat_length, map_length in Ef. rewrite B1. lia. }
    set (B := fun j => nth j (frec st) false).
    assert (HB : forall j, (j < N * ne)%nat -> B j = false).
    { intros j Hj. unfold B. rewrite Ef, app_assoc, app_nth1 by (rewrite app_length, repeat_length; lia).
      assert (K : Forall (fun b => b = false) (frec z ++ repeat false ((N - sub) * ne))) by (apply Forall_app; split; [exact C2 | apply Forall_forall; intros b Hb; now apply repeat_spec in Hb]). rewrite Forall_forall in K. apply K, nth_In. rewrite app_length, repeat_length. lia. }
    assert (HD : forall q, In q D -> dat lay B q = cmem q (pchain lay)).
    { intros q Hq. unfold dat, B. rewrite Ef, app_assoc, app_nth2; rewrite app_length, repeat_length, Lz; [|lia]. replace (N * ne + index cpx_eqb q D - N * ne)%nat with (index cpx_eqb q D) by lia. apply (nth_index cpx_eqb cpx_eqb_eq (fun q => cmem q (pchain lay))). exact Hq. }
    split.
    - destruct (detectors_app (gates l1) 0 0 0 0) as (x & y & t & Q1). rewrite Q1 in Ed. cbn [Nat.add] in Ed. rewrite <- B2 in Ed.
      destruct (run_detectors still _ _ _ x y t R) as (r2 & _ & _ & Dt & _). rewrite A1, A2, B1 in Dt. intros j. rewrite Dt.
      destruct (Nat.lt_ge_cases j (length (fdets z))) as [L|L]; [rewrite app_nth1 by exact L; rewrite Forall_forall in C3; now apply C3, nth_In|]. rewrite app_nth2 by exact L.
      set (j' := (j - length (fdets z))%nat). destruct (nth_in_or_default j' (map (fun d => xsum (fun j0 => nth j0 (frec st) false) (d_meas d)) (detectors x y t (length r1) (gates l2))) false) as [K| ->]; [|reflexivity].
      apply in_map_iff in K. destruct K as (d & Ed' & Hd). rewrite <- Ed'. apply (any_silent lay Hv Hobs Hs (pchain lay) (pchain_edge lay Hv Hobs) (pchain_hex lay Hv Hobs) B HB HD). rewrite <- Ed. apply in_or_app. now right.
    - intros x. specialize (Ei x). rewrite includes_app in Ei. cbn [Nat.add] in Ei. rewrite <- B2 in Ei.
      destruct (run_includes still x _ _ _ R) as [I1 _]. rewrite A1, A3, B1, C4, xorb_false_l in I1. rewrite I1. change (fun j : nat => nth j (frec st) false) with B.
      pose proof (circuit_includes lay Hv Hobs B x Hs) as CI. rewrite <- Ei, xsum_app, (any_effect lay Hv Hobs (pchain lay) (pchain_flips lay Hv Hobs) B HB HD) in CI. rewrite <- CI.
      rewrite (xsum_false _ (includes x 0 (gates l1))); [now rewrite xorb_false_l|]. intros j Hj. apply HB. destruct (run_includes still x _ _ _ Rz) as [_ I2]. cbn [start frec length] in I2. specialize (I2 j Hj). lia.
  Qed.
End S.

(** ** Theorems *)
(** In every noisy circuit of the style EM3 with at least two sub-rounds, half as many
    errors as the distance of the observable flip it and set off no detector, whatever the
    random choices of the run.  With C81_observable_side: the smallest number of unnoticed
    errors is exactly half the width (vertical) or a third of the height (horizontal). *)
Theorem C81_half_distance_reached : forall lay c, valid lay -> supported_input lay -> style lay = "EM3"%string -> 2 <= sub_rounds lay -> (0 < noise lay)%Q -> generate_honeycomb_circuit lay = Ok c ->
  exists lf, errors_of (flatten c) lf /\ (if (obs lay =? "V")%string then 2 * Z.of_nat (error_count lf) = data_width lay else 3 * Z.of_nat (error_count lf) = data_height lay) /\
  forall g f0, exists st, run_errors g lf (start f0) = Ok st /\ (forall d, In d (fdets st) -> d = false) /\ exists x, fobs st x = true.
Proof.
  intros lay c Hv Hs Hsty Hn Hp E. pose proof (clean_run lay c Hv Hs E) as HC. assert (Hem : is_em3 (style lay) = true) by now rewrite Hsty.
  destruct (generated lay Hv Hs) as (c1 & nm & c2 & E1 & En & E2 & E3 & Fl & Fo & Hfine). rewrite E in E3. injection E3 as <-.
  pose proof (noisy_moments_flip (unit_i lay) nm c1 c Fo (fun op Ho => fine_ideal lay op (Hfine op Ho)) E2) as HF. rewrite Fl in HF.
  pose proof (noisy_moments_any (unit_i lay) nm c1 c Fo (fun op Ho => fine_ideal lay op (Hfine op Ho)) E2) as HA. rewrite Fl in HA.
  pose proof (C29_strengths lay nm (mpp_i lay (sub lay)) En) as (Es & _ & _ & Hc). cbn [mpp_i iname] in Es. rewrite Hsty in Es. cbn in Es.
  assert (Hcor : use_correlated nm = false) by (apply not_true_is_false; intros K; apply Hc in K; rewrite Hsty in K; discriminate).
  assert (Pp : Qlt_bool 0 (noise lay) = true).
  { unfold Qlt_bool. apply negb_true_iff. apply not_true_is_false. intros K. apply Qle_bool_iff in K. exact (Qlt_not_le _ _ Hp K). }
  destruct (em3_place lay Hem Hn) as (A & Ec).
  destruct (mid_noise nm _ _ A (measured lay) (later lay) (mpp_i lay (sub lay)) (noise lay) _ HF Hcor Ec (measured_calm lay) (or_introl eq_refl) Es Pp (or_intror (conj eq_refl (conj Hcor eq_refl)))) as (l1 & l2 & El & Eg).
  set (i := mkI "DEPOLARIZE2" _ [Num (noise lay)]) in El.
  assert (Gi : gates (flatten c) = gates l1 ++ gates l2) by (rewrite El; change (l1 ++ i :: l2) with (l1 ++ [i] ++ l2); rewrite !gates_app; reflexivity).
  assert (Gq : gates (measured lay ++ tick_i :: later lay) = measured lay ++ tick_i :: later lay).
  { unfold gates. apply filter_all. intros op Ho. assert (Ho' : In op (circuit_i lay)) by (rewrite Ec; apply in_or_app; right; now right).
    destruct (fine_ideal lay op (proj1 (Forall_forall _ _) (circuit_fine lay (sup_sup lay Hs)) op Ho')) as (_ & _ & ->). reflexivity. }
  destruct (alike_trans _ _ _ (alike_circuit nm _ _ _ (fun U => False_rect _ (eq_true_false_abs _ U Hcor)) HA) (alike_gates (flatten c))) as (Q1 & Q2 & Q3). rewrite Gi in Q1, Q2, Q3.
  set (fs := pair_kicks lay (hit lay)).
  assert (Hfs : forall f, In f fs -> fault_of i f).
  { intros f Hf. apply in_map_iff in Hf. destruct Hf as (e & <- & He). exact (hit_targets lay Hn (noise lay) e He). }
  destruct (at_one_errors l1 i fs l2 Hfs) as [Her Hsnd].
  exists (at_one l1 i fs l2). rewrite El. split; [exact Her|]. split.
  - unfold error_count. rewrite Hsnd. unfold fs, pair_kicks. rewrite map_length. pose proof (hit_count lay Hv (sup_obs lay Hs)) as K. unfold observable_distance in K. pose proof (valid_tiles lay Hv) as (T1 & T2 & T3 & T4).
    destruct (obs lay =? "V")%string; [exact K|]. revert K T4. dlia.
  - intros g f0. destruct (HC g f0) as (base & Rb & _ & Db & Ob). rewrite Gi, run_app in Rb. destruct (run g (gates l1) (start f0)) as [s1|] eqn:R1; [|discriminate]. cbn [bind] in Rb.
    destruct (run_sum g still g) with (l := gates l1) (a := start f0) (b := start (fun _ => bzero)) (c := start f0) (a' := s1) as (z & s1' & Rz & R1' & S1);
      [intros j; unfold still; now rewrite xorb_false_r | apply sums_clean; [exact zero_clean | reflexivity | reflexivity | reflexivity] | exact R1 |].
    assert (s1' = s1) by congruence. subst s1'.
    destruct (run_sum still still still) with (l := gates l1) (a := start (fun _ => bzero)) (b := start (fun _ => bzero)) (c := start (fun _ => bzero)) (a' := z) as (z2 & z3 & Rz2 & Rz3 & S2); [reflexivity | apply clean_sums, zero_clean | exact Rz |].
    assert (z2 = z) by congruence. assert (z3 = z) by congruence. subst z2 z3. apply clean_sums in S2.
    destruct (run_sum g still g) with (l := gates l2) (a := s1) (b := after (length (frec s1)) fs z) (c := after (length (frec s1)) fs s1) (a' := base) as (st & cur & Re & Rc & S3);
      [intros j; unfold still; now rewrite xorb_false_r | apply after_sum; exact S1 | exact Rb |].
    pose proof Re as Re0. rewrite Eg, Gq in Re0.
    destruct (pairs_end lay Hv (sup_obs lay Hs) (sup_sup lay Hs) Hem Hn l1 l2 z (length (frec s1)) st) as (De & Oe).
    + specialize (Q1 0%Q 0%Q 0%Q 0%nat []). rewrite !app_nil_r in Q1. now symmetry.
    + intros x. symmetry. apply Q2.
    + now symmetry.
    + exact Rz.
    + exact S2.
    + exact Re.
    + exact Re0.
    + exists cur. split; [|split].
      * unfold at_one. rewrite run_errors_app, run_plain, R1. cbn [bind run_errors]. change (gates [i]) with (@nil instr). cbn [run bind]. rewrite run_plain. exact Rc.
      * destruct S3 as (_ & _ & (L3 & D3) & _). intros d Hd. apply (In_nth _ _ false) in Hd. destruct Hd as (j & _ & <-). rewrite D3, xors_nth, Db, De by exact L3. reflexivity.
      * exists (oidx lay). destruct S3 as (_ & _ & _ & O3 & _). rewrite O3, Ob, Oe. unfold mine. now rewrite Nat.eqb_refl.
Qed.
Print Assumptions C81_half_distance_reached.
(** For one of the two observables these are half as many errors as the code distance. *)
Theorem C81_half_code_distance_reached : forall lay, valid lay -> supported_input lay -> style lay = "EM3"%string -> 2 <= sub_rounds lay -> (0 < noise lay)%Q ->
  exists o c lf, (o = "V" \/ o = "H")%string /\ generate_honeycomb_circuit (protecting lay o) = Ok c /\ errors_of (flatten c) lf /\ 2 * Z.of_nat (error_count lf) = code_distance_1qdep lay /\
    forall g f0, exists st, run_errors g lf (start f0) = Ok st /\ (forall d, In d (fdets st) -> d = false) /\ exists x, fobs st x = true.
Proof.
  intros lay Hv Hs Hst Hn Hp. set (o := if data_width lay <=? 2 * (data_height lay / 3) then "V"%string else "H"%string).
  assert (Ho : (o = "V" \/ o = "H")%string) by (unfold o; destruct (_ <=? _); auto).
  assert (Hv' : valid (protecting lay o)) by exact Hv. assert (Hs' : supported_input (protecting lay o)) by (destruct Hs as (S1 & _ & S3); split; [exact S1|]; split; [exact Ho | exact S3]).
  destruct (generated (protecting lay o) Hv' Hs') as (c1 & nm & c & _ & _ & _ & E & _).
  destruct (C81_half_distance_reached (protecting lay o) c Hv' Hs' Hst Hn Hp E) as (lf & H1 & H2 & H3).
  exists o, c, lf. split; [exact Ho|]. split; [exact E|]. split; [exact H1|]. split; [|exact H3]. unfold code_distance_1qdep. cbn [protecting obs data_width data_height] in H2. pose proof (valid_tiles lay Hv) as (T1 & T2 & T3 & T4).
  revert H2. unfold o. destruct (Z.leb_spec (data_width lay) (2 * (data_height lay / 3))); cbn [String.eqb Ascii.eqb Bool.eqb]; intros H2; [lia|]. assert (K : data_height lay / 3 = Z.of_nat (error_count lf)) by (revert H2; clear; dlia). lia.
Qed.
Print Assumptions C81_half_code_distance_reached.
(** A patch four wide and six high, horizontal observable, two sub-rounds: two errors. *)
Example C81_half_distance_example : valid four /\ supported_input four /\ style four = "EM3"%string /\ 2 <= sub_rounds four /\ (0 < noise four)%Q /\ 3 * 2 = data_height four /\ ends (hit four) = [(2, 4); (2, 2); (2, 8); (2, 10)].
Proof. split; [apply four_valid|]. split; [apply four_valid|]. split; [reflexivity|]. split; [cbn; lia|]. split; [reflexivity|]. split; vm_compute; reflexivity. Qed.
