(** The last moments: the basis change, the data measurement and its annotations. *)
From Coq Require Import QArith.
From Verif Require Import Prelude Layout LayoutFacts LayoutEdges LayoutLists LayoutHex LayoutHex2 Pauli LayoutObs LayoutLogic LayoutIndex
  Tracker TrackerFacts Stim Circuit Noise Annot Shift Ends Gen Gen2 Gen3 Traj Eval Frame Exec Exec2 Exec3 Exec4 Moments NoiseFacts NoiseMoments NoiseAlign NoiseCorr
  FaultSpec FaultInv FaultZ FaultInj FaultStep FaultNoise FaultChain.
Open Scope Z_scope.

Section Ch.
  Variable lay : layout.
  Hypothesis Hv : valid lay.
  Hypothesis Hobs : obs lay = "V"%string \/ obs lay = "H"%string.
  Hypothesis Hs : supported lay.
  Variable gs : nat -> bool.
  Variable nm : noise_model.
  Variable An : nat -> Prop.
  Notation E := (round_edges lay).
  Notation zk := Z.of_nat.
  Notation ne := (length (E 0)).
  Notation D := (data_qubit_coords lay).
  Notation trk := (trk lay (tr0 lay)).
  Notation annk := (annk lay (tr0 lay)).
  Notation ix := (ix lay).
  Notation run := (run gs).
  Notation runs := (runs gs).
  Notation n := (sub_rounds lay).
  Notation N := (Z.to_nat n).
  Notation okx := (okx lay).
  Notation Sx := (Sx lay).
  Notation Sh := (Sh lay).
  Notation rel := (noise_rel nm An).
  Notation step := (step expl okx tx0 gs rel).
  Notation seg := (seg expl okx tx0 gs rel).
  Notation path := (path expl okx tx0 gs rel).
  Notation robust := (robust expl okx tx0).
  Local Opaque data_qubit_coords measure_qubit_coords q2i_dict hex_entries hexes round_edges all_edges isort.

  Definition end_at : fam expl := fun t st => exists z A0, start_ok lay A0 /\ frec st = frecord lay (fst t) (snd t) z A0.
  Lemma robust_end : robust end_at.
  Proof. intros x err st _ H. exists tx0. split; [exact (ok0 lay Hv Hs _) | exact H]. Qed.

  (** annotations that can be read off any record of this length *)
  Definition reads (len : nat) (l : list instr) : Prop := forall st, length (frec st) = len -> exists st', run l st = Ok st' /\ fr st' = fr st /\ frec st' = frec st.
  Lemma reads_nil len : reads len [].
  Proof. intros st H. exists st. auto. Qed.
  Lemma reads_app len a b : reads len a -> reads len b -> reads len (a ++ b).
  Proof.
    intros Ha Hb st H. destruct (Ha st H) as (s1 & R1 & F1 & G1). destruct (Hb s1 ltac:(congruence)) as (s2 & R2 & F2 & G2).
    exists s2. split; [rewrite run_app, R1; exact R2|]. split; congruence.
  Qed.
  Lemma reads_flat {A} len (f : A -> list instr) l : (forall x, In x l -> reads len (f x)) -> reads len (flat_map f l).
  Proof. intros H. induction l as [|x l IH]; [apply reads_nil|]. cbn [flat_map]. apply reads_app; [apply H; now left | apply IH; intros; apply H; now right]. Qed.
  Lemma reads_det len v co : wf_entry len v -> reads len (det len v co).
  Proof. intros W st H. rewrite <- H in *. rewrite run_det by exact W. eexists. split; [reflexivity | split; reflexivity]. Qed.
  Lemma reads_obs len s k : wf_entry len (Some s) -> reads len [mkI "OBSERVABLE_INCLUDE" (tg len s) [int_arg (Z.of_nat k)]].
  Proof. intros W st H. rewrite <- H in *. rewrite run_obs by exact W. eexists. split; [reflexivity | split; reflexivity]. Qed.

  Notation ft := (ftime lay (trk N)).
  Definition fin_ann : list instr := (if pauli_eqb (xyz (n - 1)) (final_basis lay) then fin_edges lay (trk N) else fin_other lay (trk N)) ++ fin_hexes lay (trk N) ++ fin_obs lay (trk N).
  Lemma fin_reads : reads ft fin_ann.
  Proof.
    set (z := fun (_ : nat) (_ : edge) => false). set (A0 := fun _ : cpx => bzero).
    assert (H0 : start_ok lay A0) by (intros q _; unfold A0; destruct (init_basis lay); reflexivity).
    set (B := fun i => nth i (recl lay z A0 N ++ map (dbit lay z A0) D) false).
    assert (HRows : rows lay z A0 B N) by (apply rows_recl, Hv).
    assert (HDb : forall q, In q D -> B (N * ne + index cpx_eqb q D)%nat = dbit lay z A0 q).
    { intros q Hq. unfold B. rewrite app_nth2; rewrite (length_recl lay Hv); [|lia].
      replace (N * ne + index cpx_eqb q D - N * ne)%nat with (index cpx_eqb q D) by lia. apply nth_index; [apply cpx_eqb_eq | exact Hq]. }
    pose proof (proj1 Hs) as Hn.
    assert (W : forall v x, gd B ft v x -> wf_entry ft v) by (intros v x G; destruct v; cbn in *; tauto).
    unfold fin_ann. apply reads_app; [|apply reads_app].
    - destruct (pauli_eqb (xyz (n - 1)) (final_basis lay)) eqn:Eb.
      + unfold fin_edges. apply reads_flat. intros e He. apply reads_det. eapply W. eapply (fin_edge_gd lay Hv Hobs z A0 H0 B); eauto. destruct (xyz (n - 1)), (final_basis lay); try discriminate; reflexivity.
      + unfold fin_other. apply reads_flat. intros h Hh. apply reads_det. eapply W. eapply (fin_other_gd lay Hv Hobs z A0 H0 B); eauto.
    - unfold fin_hexes. apply reads_flat. intros h Hh. apply reads_det. eapply W. eapply (fin_hex_gd lay Hv Hobs z A0 H0 B); eauto.
    - unfold fin_obs. destruct (fin_obs_gd lay Hv Hobs z A0 H0 B Hn HDb) as (ss & Ess & Gss). rewrite Ess. apply reads_obs. exact (W _ _ Gss).
  Qed.
  Lemma calm_fin_ann : Forall calm fin_ann.
  Proof.
    unfold fin_ann. repeat (apply Forall_app; split).
    - destruct (pauli_eqb _ _); apply calm_flat; intros x; apply calm_det.
    - apply calm_flat. intros x. apply calm_det.
    - unfold fin_obs. destruct (comb _); repeat constructor. discriminate.
  Qed.
  Lemma pc3_reads : reads (tm (trk N)) (pc3_obs_i lay (trk N)).
  Proof.
    unfold pc3_obs_i. apply reads_flat. intros k _. assert (W : wf_entry (tm (trk N)) (comb (map (fun e => cur (trk N) (KHalf (KE e))) (oat lay k)))).
    { apply wf_comb_map. intros e _. apply wf_cur, wf_trk; assumption. }
    destruct (comb _) as [s|]; [now apply reads_obs | apply reads_nil].
  Qed.

  Definition last_at : fam expl := Sx N N N 0 0 false [].
  Lemma boundary_last : boundary lay N N N [].
  Proof. refine (conj _ (conj _ (conj _ _))); [lia | lia | intros ? ? [] | intros ? []]. Qed.
  Lemma last_length t st : last_at t st -> length (frec st) = tm (trk N).
  Proof. intros (A0 & _ & z & HI & _). rewrite (FaultInv.i_rec _ _ _ _ _ _ _ _ _ _ _ _ HI), (length_recw lay Hv), (tm_trk lay Hv). cbn [tm tr0]. lia. Qed.
  Lemma last_eq t st : last_at t st -> exists z A0, start_ok lay A0 /\ frec st = recw lay (mm lay A0 (fst t) (snd t) z) N /\ forall q, isdata lay q -> fr st (ix q) = C lay A0 (fst t) z N q.
  Proof.
    intros (A0 & H0 & z & HI & _). destruct HI as [IL IR IM SL SR IC IO]. cbn [rotn] in *. exists z, A0. split; [exact H0|]. split; [exact IM|].
    intros q Hq. destruct (data_qubit_parity q) eqn:P; auto.
  Qed.
  (** the state before the change of basis at the end, or the measurement when there is none *)
  Definition turned (t : expl) (st : fstate) : Prop := Sh (final_basis lay) last_at t st.
  Lemma robust_last : robust last_at.
  Proof. apply robust_Sx; auto. exact boundary_last. Qed.
  Lemma robust_turned : robust turned.
  Proof. apply robust_Sh; [apply pointwise_Sx | exact robust_last]. Qed.
  Lemma measure_ok pre t st : reads (tm (trk N)) pre -> turned t st -> runs (pre ++ [mkI "M" (qs (Ends.data_ix lay)) []] ++ fin_ann) (end_at t) st.
  Proof.
    intros Hpre H. unfold turned, FaultChain.Sh in H. pose proof (last_length _ _ H) as Hl. destruct (last_eq _ _ H) as (z & A0 & H0 & E1 & E2). unfold hmap in *. cbn [fr frec with_fr] in *.
    destruct (Hpre st Hl) as (s1 & R1 & F1 & G1). eapply runs_app with (Mid := eq s1); [exists s1; auto|]. intros ? <-.
    destruct (fold_measure gs PZ (Ends.data_ix lay) s1 (NoDup_data_ix lay Hv)) as (K1 & _). cbn zeta in K1. set (s2 := fold_left _ (Ends.data_ix lay) s1) in *.
    assert (Erec : frec s2 = frecord lay (fst t) (snd t) z A0).
    { rewrite K1, G1, E1. unfold frecord. f_equal. unfold Ends.data_ix. rewrite map_map. apply map_ext_in. intros q Hq. apply (proj1 (in_data lay Hv q)) in Hq.
      rewrite F1, <- E2 by exact Hq. rewrite (memb_data lay Hv q Hq). rewrite <- hb_anti with (p := final_basis lay). now rewrite hb_hb. }
    eapply runs_app with (Mid := eq s2).
    { eapply runs_cons with (Mid := eq s2); [exists s2; split; [apply (run_M gs) | reflexivity]|]. intros s <-. now apply runs_nil. }
    intros ? <-. destruct (fin_reads s2) as (s3 & R3 & F3 & G3).
    { rewrite Erec. unfold frecord, ftime. rewrite app_length, map_length, (length_recw lay Hv), (tm_trk lay Hv). reflexivity. }
    exists s3. split; [exact R3|]. exists z, A0. split; [exact H0 | congruence].
  Qed.
  Lemma turn_eq t st st' : frec st' = frec st -> (forall q, isdata lay q -> fr st' (ix q) = hb (final_basis lay) (fr st (ix q))) ->
    (forall s e, In e (E (zk s)) -> fr st' (ix (e_center e)) = fr st (ix (e_center e))) -> last_at t st -> turned t st'.
  Proof.
    intros H1 H2 H3 (A0 & H0 & K). exists A0. split; [exact H0|]. eapply (St_ext lay); [| | |exact K].
    - exact H1.
    - intros q Hq. unfold hmap. cbn [fr with_fr]. rewrite (memb_data lay Hv q Hq), H2 by exact Hq. apply hb_hb.
    - intros s e He. unfold hmap. cbn [fr with_fr]. rewrite (memb_center lay Hv s e He). now apply H3 with (s := s).
  Qed.
  Theorem path_fin pre : Forall calm pre -> reads (tm (trk N)) pre -> path last_at (moments [] (pre ++ fin lay (trk N))) end_at.
  Proof.
    intros Hc Hr. unfold fin. fold fin_ann.
    assert (KM : Forall calm ([mkI "M" (qs (Ends.data_ix lay)) []] ++ fin_ann)) by (apply Forall_app; split; [repeat constructor; discriminate | exact calm_fin_ann]).
    unfold hdata. destruct (pauli_eqb (final_basis lay) PZ) eqn:Ep.
    - cbn [app]. apply path_end; [apply calm_tick, Forall_app; auto|].
      apply step_calm; [apply Forall_app; auto | | exact robust_last | exact robust_end].
      intros t st H. apply measure_ok; [exact Hr|]. eapply turn_eq; [reflexivity | | reflexivity | exact H].
      intros q Hq. destruct (final_basis lay); try discriminate. reflexivity.
    - set (h := mkI (canon (basis_h (final_basis lay))) (qs (Ends.data_ix lay)) []).
      replace (pre ++ [h; tick_i] ++ [mkI "M" (qs (Ends.data_ix lay)) []] ++ fin_ann) with (((pre ++ [h]) ++ [tick_i]) ++ ([mkI "M" (qs (Ends.data_ix lay)) []] ++ fin_ann)) by (rewrite <- !app_assoc; reflexivity).
      assert (KH : Forall calm (pre ++ [h])) by (apply Forall_app; split; [exact Hc | repeat constructor; apply calm_h]).
      apply (seg_tick expl okx tx0 gs rel last_at (pre ++ [h]) turned).
      + now apply calm_tick.
      + apply step_calm; [exact KH | | exact robust_last | exact robust_turned].
        intros t st H. destruct (Hr st (last_length _ _ H)) as (s1 & R1 & F1 & G1). destruct (run_h lay Hv gs (final_basis lay) s1 Ep) as (s2 & R2 & H1 & H2 & H3).
        exists s2. split; [rewrite run_app, R1; exact R2|]. eapply turn_eq; [| | |exact H]; [congruence | intros; rewrite H2, F1 by assumption; reflexivity | intros s e He; rewrite (H3 s e He), F1; reflexivity].
      + apply path_end; [now apply calm_tick|]. apply step_calm; [exact KM | | exact robust_turned | exact robust_end].
        intros t st H. apply (measure_ok []); [apply reads_nil | exact H].
  Qed.
End Ch.
