(** C81: fewer than half the code distance physical errors, anywhere in the generated
    noisy circuit, never flip the logical observable without setting off a detector. *)
From Coq Require Import QArith.
From Verif Require Import Prelude Layout LayoutFacts LayoutEdges LayoutLists LayoutHex LayoutHex2 LayoutIndex Pauli LayoutObs LayoutLogic Stim Circuit Noise Annot Ends Gen3 Traj Eval Frame Exec2 Exec4 NoiseFacts NoiseMoments NoiseCorr NoiseAlign Prop_Circuit Prop_Noise Prop_Noise2 Prop_Noise3
  Detectors Struct2 FaultSpec FaultQuiet FaultCore FaultObs FaultInv FaultZ FaultInj FaultNoise FaultChain FaultRun FaultCount FaultLin FaultLine FaultDist FaultTilt Prop_Fault Prop_Match.
Open Scope Z_scope.

Section S.
  Variable lay : layout.
  Hypothesis Hv : valid lay.
  Hypothesis Hobs : obs lay = "V"%string \/ obs lay = "H"%string.
  Hypothesis Hs : supported lay.
  Notation W := (data_width lay).
  Notation H := (data_height lay).
  Local Opaque data_qubit_coords measure_qubit_coords q2i_dict hex_entries hexes round_edges all_edges isort.

  (** what a line must avoid *)
  Definition clear_of (c : Z) (q : cpx) : Prop := if (obs lay =? "V")%string then fst q <> 4 * c + 2 else snd q <> 2 * c /\ snd q <> (2 * (c + 1)) mod (2 * H).
  Definition lines : Z := if (obs lay =? "V")%string then W else H.
  Definition width : nat := if (obs lay =? "V")%string then 2%nat else 3%nat.
  Definition between (c : Z) : cpx -> bool := if (obs lay =? "V")%string then RV c else RH c.
  Lemma clear_crossed c r t1 t2 q : 0 <= c < lines -> isdata lay q -> clear_of c q -> crossed lay (fun _ => between c) r t1 t2 q = false.
  Proof.
    unfold lines, clear_of, between, crossed. intros Hc Hq Ha. rewrite (touch_observed lay Hv) by exact Hq. destruct (obs lay =? "V")%string; [now apply column_line | now apply row_line].
  Qed.
  Lemma near_rows r q : isdata lay q -> snd (partner lay r q) = snd q \/ snd (partner lay r q) = (snd q + 2) mod (2 * H) \/ snd (partner lay r q) = (snd q - 2) mod (2 * H).
  Proof.
    intros Hq. destruct (data_ab lay Hv q Hq) as (a & b & -> & Ha & Hb). unfold partner. destruct (touch_off_cases r a b) as [(-> & _)|[(-> & _)|[(-> & _)|(-> & _)]]];
      unfold cscale, cadd; cbn [fst snd]; rewrite wrap_row by exact Hv; cbn [fst snd].
    - right. left. reflexivity.
    - right. right. reflexivity.
    - left. rewrite Z.mod_small; lia.
    - left. rewrite Z.mod_small; lia.
  Qed.
  Lemma few_lines k e : In e (round_edges lay (Z.of_nat k)) -> exists h, (length h <= width)%nat /\ forall c, 0 <= c < lines -> ~ In c h -> clear_of c (e_left e) /\ clear_of c (e_right e).
  Proof.
    intros He. pose proof (valid_tiles lay Hv) as (T1 & T2 & T3 & T4).
    destruct (ab_data lay Hv k e He) as (Ha & Hb & _ & Eb & _). unfold width, lines, clear_of. destruct (obs lay =? "V")%string.
    - exists [fst (e_left e) / 4; fst (e_right e) / 4]. split; [cbn; lia|]. intros c _ Hn. cbn [In] in Hn. split; intros E; apply Hn; rewrite E; [left | right; left]; dlia.
    - pose proof (near_rows (Z.of_nat k) _ Ha) as R. rewrite <- Eb in R. destruct (data_ab lay Hv _ Ha) as (a & b & Ea & Wa & Wb). destruct (data_ab lay Hv _ Hb) as (a' & b' & Ea' & Wa' & Wb').
      rewrite Ea, Ea' in R |- *. cbn [snd] in R |- *.
      set (lo := if b' =? (b + 1) mod H then b else b'). 
      exists [b; b'; (lo - 1) mod H]. split; [cbn; lia|]. intros c Hc Hn. cbn [In] in Hn.
      replace (2 * b + 2) with (2 * (b + 1)) in R by lia. replace (2 * b - 2) with (2 * (b - 1)) in R by lia. rewrite !Z.mul_mod_distr_l in R by lia. rewrite !Z.mul_mod_distr_l by lia.
      revert Hn. unfold lo. clear lo. destruct (Z.eqb_spec b' ((b + 1) mod H)) as [Q|Q]; revert R Q; rewrite !(mod_near H) by lia;
        repeat match goal with |- context [?x <? ?y] => destruct (Z.ltb_spec x y); try lia end.
  Qed.

  Theorem undetected_harmless cs : (forall p, In p cs -> cracked lay (snd p) (fst p)) ->
    (forall d, In d (detectors 0 0 0 0 (circuit_i lay)) -> watches lay d = true -> xsum (fun p => xsum (snd p) (d_meas d)) cs = false) ->
    Z.of_nat (width * length cs) < lines -> xsum (fun p => effect lay (snd p)) cs = false.
  Proof.
    intros Hcs HQ L. apply (undetected_free lay Hv Hobs Hs (fun c _ => between c) lines width cs Hcs HQ); [|exact L].
    intros p Hp. destruct (Hcs p Hp) as (_ & He & _). destruct (ab_data lay Hv _ _ He) as (Ha & Hb & _). destruct (few_lines _ _ He) as (h & Lh & Hh). exists h. split; [exact Lh|].
    intros c Hc Hn. destruct (Hh c Hc Hn) as [H1 H2]. unfold moved. cbv zeta. rewrite !clear_crossed by assumption. destruct (FaultQuiet.ahead _ _); reflexivity.
  Qed.

  (** ** From the record of a faulty run to the error alone *)
  (** what is known of an error by the data qubits it acts on *)
  Definition fits (one bare : Prop) (c : crack) : Prop :=
    (one -> cP c (e_left (ce c)) = bzero \/ cP c (e_right (ce c)) = bzero) /\ (bare -> cf c = true -> par (cP c) (edge_op (xyz (Z.of_nat (ck c))) (ce c)) = true).
  Lemma record_crack X Y one bare z A0 : (forall q, isdata lay q -> anti2 (pbits (init_basis lay)) (A0 q) = false) -> core lay X Y one bare ->
    exists p, cracked lay (snd p) (fst p) /\ fits one bare (fst p) /\
      (forall d, In d (detectors 0 0 0 0 (circuit_i lay)) -> xsum (fun j => nth j (frecord lay X Y z A0) false) (d_meas d) = xsum (snd p) (d_meas d)) /\
      effect lay (fun j => nth j (frecord lay X Y z A0) false) = effect lay (snd p).
  Proof.
    intros H0 (k & e0 & P & f & Hk & He0 & HP & Hfl & HX & _ & HF).
    set (Bf := fun i => nth i (recw lay (fl X Y) (Z.to_nat (sub_rounds lay)) ++ map (fun q => anti2 (pbits (final_basis lay)) (X (Z.to_nat (sub_rounds lay)) q)) (data_qubit_coords lay)) false).
    exists (mkCr k e0 P f, Bf). cbn [fst snd]. split; [|split; [exact HF|split]].
    - split; [exact Hk|]. split; [exact He0|]. split; [exact HP|]. cbn [ck ce cP cf]. split.
      + intros s e Hs' He. rewrite <- Hfl by assumption. apply (VE_bitw lay (fl X Y) Bf (Z.to_nat (sub_rounds lay))); [|exact Hs' | exact He]. intros s' e' Hs'' He'. unfold Bf. now apply (nth_recw lay Hv).
      + intros q Hq. unfold dat, Bf. rewrite (dat_at lay Hv) by exact Hq. now rewrite HX.
    - intros d Hd. rewrite (xsum_ext _ _ _ (fun i _ => record_split lay Hv X Y z A0 i)), xsum_xorb, (Bz_quiet lay Hv Hobs Hs z A0 H0 d Hd). apply xorb_false_l.
    - pose proof (Bz_effect lay Hv Hobs Hs z A0 H0) as Ez.
      pose proof (circuit_includes lay Hv Hobs (fun i => nth i (frecord lay X Y z A0) false) (oidx lay) Hs) as I0.
      pose proof (circuit_includes lay Hv Hobs (fun i => nth i (recw lay (m lay z A0) (Z.to_nat (sub_rounds lay)) ++ map (dbit lay z A0) (data_qubit_coords lay)) false) (oidx lay) Hs) as I1.
      pose proof (circuit_includes lay Hv Hobs Bf (oidx lay) Hs) as I2.
      unfold mine in *. rewrite Nat.eqb_refl in *. cbn [andb] in *. rewrite <- I0, (xsum_ext _ _ _ (fun i _ => record_split lay Hv X Y z A0 i)), xsum_xorb, I1, Ez, xorb_false_l. exact I2.
  Qed.

  Lemma nth_all_false (l : list bool) i : (forall b, In b l -> b = false) -> nth i l false = false.
  Proof. intros Hl. destruct (Nat.lt_ge_cases i (length l)) as [L|L]; [apply Hl; now apply nth_In | now apply nth_overflow]. Qed.
  Lemma accw_none w k e : (forall s e, w s e = false) -> accw lay w k e = false.
  Proof. intros Hw. induction k as [|k IH]; [reflexivity|]. cbn [accw]. rewrite IH, Hw. now destruct (emem _ _), (pc3 lay). Qed.
  Lemma record_clean z A0 : (forall q, isdata lay q -> anti2 (pbits (init_basis lay)) (A0 q) = false) ->
    (forall d, In d (detectors 0 0 0 0 (circuit_i lay)) -> xsum (fun j => nth j (frecord lay noX noY z A0) false) (d_meas d) = false) /\
    effect lay (fun j => nth j (frecord lay noX noY z A0) false) = false.
  Proof.
    intros H0. assert (Hfl : forall s e, fl noX noY s e = false) by (intros s e; unfold fl, noX, noY, par; rewrite xsum_false; [reflexivity | intros [p q] _; now destruct p]).
    assert (HB : forall i, nth i (recw lay (fl noX noY) (Z.to_nat (sub_rounds lay)) ++ map (fun q => anti2 (pbits (final_basis lay)) (noX (Z.to_nat (sub_rounds lay)) q)) (data_qubit_coords lay)) false = false).
    { intros i. apply nth_all_false. intros b Hb. apply in_app_or in Hb. destruct Hb as [Hb|Hb].
      - unfold recw in Hb. apply in_flat_map in Hb. destruct Hb as (s & _ & Hb). apply in_map_iff in Hb. destruct Hb as (e & <- & _). unfold bitw. rewrite accw_none, Hfl by exact Hfl. now destruct (pc3 lay).
      - apply in_map_iff in Hb. destruct Hb as (q & <- & _). now destruct (final_basis lay). }
    assert (Hn : forall i, nth i (frecord lay noX noY z A0) false = nth i (recw lay (m lay z A0) (Z.to_nat (sub_rounds lay)) ++ map (dbit lay z A0) (data_qubit_coords lay)) false)
      by (intros i; rewrite (record_split lay Hv), HB; apply xorb_false_r).
    split.
    - intros d Hd. rewrite (xsum_ext _ _ _ (fun i _ => Hn i)). exact (Bz_quiet lay Hv Hobs Hs z A0 H0 d Hd).
    - pose proof (Bz_effect lay Hv Hobs Hs z A0 H0) as Ez.
      pose proof (circuit_includes lay Hv Hobs (fun i => nth i (frecord lay noX noY z A0) false) (oidx lay) Hs) as I0.
      pose proof (circuit_includes lay Hv Hobs (fun i => nth i (recw lay (m lay z A0) (Z.to_nat (sub_rounds lay)) ++ map (dbit lay z A0) (data_qubit_coords lay)) false) (oidx lay) Hs) as I1.
      unfold mine in *. rewrite Nat.eqb_refl in *. cbn [andb] in *. rewrite <- I0, (xsum_ext _ _ _ (fun i _ => Hn i)), I1. exact Ez.
  Qed.
End S.

(** ** Runs of the generated circuit *)
Lemma clean_run : forall lay c, valid lay -> supported_input lay -> generate_honeycomb_circuit lay = Ok c ->
  forall g f0, exists st, run g (gates (flatten c)) (start f0) = Ok st /\ length (fdets st) = length (detectors 0 0 0 0 (flatten c)) /\ (forall j, nth j (fdets st) false = false) /\ forall x, fobs st x = false.
Proof.
  intros lay c Hv Hs E g f0. pose proof (proj1 (faulty_run lay c Hv Hs E)) as Ed.
  destruct (generated lay Hv Hs) as (c1 & nm & c2 & E1 & En & E2 & E3 & Fl & Fo & Hfine). rewrite E in E3. injection E3 as <-.
  pose proof (noisy_moments_any (unit_i lay) nm c1 c Fo (fun op Ho => fine_ideal lay op (Hfine op Ho)) E2) as HF. rewrite Fl in HF.
  pose proof (proj2 (proj2 (proj2 (C29_strengths lay nm (mkI "" [] []) En)))) as Hc.
  destruct (no_fault_record lay Hv (sup_obs lay Hs) (sup_sup lay Hs) g nm (fun a => In a (ancillas c1))) with (l := flatten c) (f0 := f0) as (st & z & A0 & Er & H0 & Hd & Ho); [|exact HF | |].
  - intros U. apply Hc in U. split; [exact U|]. intros a Ia q Hq. destruct (C32_honeycomb_ancilla_fresh lay c1 Hv Hs U E1) as [Ha M]. rewrite (Ha a Ia). pose proof (Prop_Noise3.ix_data lay Hv q (proj2 (in_data lay Hv q) Hq)). lia.
  - intros U op Hop. apply Hc in U. exact (proj2 (proj1 (Forall_forall _ _) (circuit_low lay Hv (em3_supported_em3 lay U)) op Hop)).
  - destruct (record_clean lay Hv (sup_obs lay Hs) (sup_sup lay Hs) z A0 H0) as [Q1 Q2].
    exists st. split; [exact Er|]. split; [rewrite Hd; apply map_length|]. split.
    + intros j. apply nth_all_false. intros b Hb. rewrite Hd, Ed in Hb. apply in_map_iff in Hb. destruct Hb as (d & <- & Hin). now apply Q1.
    + intros x. rewrite Ho, Q2. unfold mine. apply andb_false_r.
Qed.

(** A run with errors, as the sum of one record for each error. *)
Lemma run_cracks : forall lay c, valid lay -> supported_input lay -> generate_honeycomb_circuit lay = Ok c ->
  forall (one bare : Prop) lf, errors_of (flatten c) lf -> (forall f, In f (flat_map snd lf) -> (one -> is_em3 (style lay) = false \/ one_data lay f) /\ (bare -> data_only lay f)) -> forall g f0, exists st cs, run_errors g lf (start f0) = Ok st /\ length cs = error_count lf /\ length (fdets st) = length (detectors 0 0 0 0 (flatten c)) /\
    (forall p, In p cs -> cracked lay (snd p) (fst p) /\ fits one bare (fst p)) /\
    (forall j d, nth_error (detectors 0 0 0 0 (flatten c)) j = Some d -> nth j (fdets st) false = xsum (fun p => xsum (snd p) (d_meas d)) cs) /\
    forall x, fobs st x = mine lay x (xsum (fun p => effect lay (snd p)) cs).
Proof.
  intros lay c Hv Hs E one bare lf Hlf HQ g f0. destruct (clean_run lay c Hv Hs E g f0) as (base & Rb & Lb & Db & Ob). destruct (faulty_run lay c Hv Hs E) as [Ed K].
  destruct (errors_add g f0 (fun f => (one -> is_em3 (style lay) = false \/ one_data lay f) /\ (bare -> data_only lay f)) (flatten c) lf base Hlf HQ Rb) as (st & sts & RE & Hone & Ln & Ld & Hd & Ho).
  assert (G : exists cs, Forall2 (fun s p => (cracked lay (snd p) (fst p) /\ fits one bare (fst p)) /\ (forall j d, nth_error (detectors 0 0 0 0 (flatten c)) j = Some d -> nth j (fdets s) false = xsum (snd p) (d_meas d)) /\ forall x, fobs s x = mine lay x (effect lay (snd p))) sts cs).
  { clear -Hone K Ed Hv Hs. induction Hone as [|s sts Hs1 _ (cs & IH)]; [exists []; constructor|]. destruct Hs1 as (l1 & i & l2 & f & El & (Hf & [Qo Qb]) & R).
    destruct (K l1 i l2 f El Hf still (fun _ => bzero)) as (s' & X & Y & z & A0 & R' & Hc & H0 & Hd & Ho). assert (s' = s) by (rewrite R in R'; congruence). subst s'.
    destruct (record_crack lay Hv (sup_obs lay Hs) (sup_sup lay Hs) X Y _ _ z A0 H0 Hc) as (p & Hp & [F1 F2] & Q1 & Q2).
    exists (p :: cs). constructor; [|exact IH]. split; [split; [exact Hp | split; auto]|]. split.
    - intros j d Hj. rewrite Hd. apply nth_error_nth. rewrite nth_error_map, Hj. cbn [option_map]. f_equal. apply Q1. rewrite <- Ed. exact (nth_error_In _ _ Hj).
    - intros x. now rewrite Ho, Q2. }
  destruct G as (cs & G). exists st, cs. split; [exact RE|]. split; [rewrite <- Ln; symmetry; exact (F2_length _ _ _ G)|]. split; [congruence|]. split; [|split].
  - clear -G. induction G as [|s p sts cs H _ IH]; [intros p []|]. intros q [<-|Hq]; [apply H | now apply IH].
  - intros j d Hj. rewrite Hd, Db, xorb_false_l. clear -G Hj. induction G as [|s p sts cs H _ IH]; [reflexivity|]. rewrite !xsum_cons, IH. f_equal. now apply H.
  - intros x. rewrite Ho, Ob, xorb_false_l. clear -G. induction G as [|s p sts cs H _ IH]; [unfold mine; cbn; now rewrite andb_false_r|]. rewrite !xsum_cons, IH. destruct H as (_ & _ & ->). unfold mine. now destruct (x =? oidx lay)%nat.
Qed.

(** Errors of a kind that is harmless when undetected: *)
Definition forgiving (lay : layout) (one bare : Prop) (t : nat) : Prop :=
  forall cs, (forall p, In p cs -> cracked lay (snd p) (fst p) /\ fits one bare (fst p)) -> length cs = t ->
    (forall d, In d (detectors 0 0 0 0 (circuit_i lay)) -> watches lay d = true -> xsum (fun p => xsum (snd p) (d_meas d)) cs = false) -> xsum (fun p => effect lay (snd p)) cs = false.
(** what is known of the errors *)
Definition known (lay : layout) (one bare : Prop) (lf : list (instr * list fault)) : Prop :=
  forall f, In f (flat_map snd lf) -> (one -> is_em3 (style lay) = false \/ one_data lay f) /\ (bare -> data_only lay f).
(** they set off a detector on the observable's side if they flip the observable, *)
Lemma forgiving_detected : forall lay c, valid lay -> supported_input lay -> generate_honeycomb_circuit lay = Ok c ->
  forall one bare lf, errors_of (flatten c) lf -> known lay one bare lf -> forgiving lay one bare (error_count lf) ->
  forall g f0, exists st, run_errors g lf (start f0) = Ok st /\ length (fdets st) = length (detectors 0 0 0 0 (flatten c)) /\
    ((exists x, fobs st x = true) -> (1 <= set_off lay c true st)%nat).
Proof.
  intros lay c Hv Hs E one bare lf Hlf Hk L g f0. destruct (run_cracks lay c Hv Hs E one bare lf Hlf Hk g f0) as (st & cs & R & Lc & Ld & Hcs & Hd & Ho).
  exists st. split; [exact R|]. split; [exact Ld|]. intros (x & Hx). unfold set_off. destruct (filter _ _) as [|p l] eqn:F; [|cbn [length]; lia]. exfalso.
  rewrite Ho, (L cs Hcs Lc) in Hx; [unfold mine in Hx; rewrite andb_false_r in Hx; discriminate|].
  intros d Hin Hw. rewrite <- (proj1 (faulty_run lay c Hv Hs E)) in Hin. destruct (In_nth_error _ _ Hin) as (j & Hj). rewrite <- (Hd j d Hj). apply not_true_is_false. intros B.
  assert (Q : In (d, true) []); [|destruct Q]. rewrite <- F. apply filter_In. cbn [fst snd]. rewrite Hw. split; [|reflexivity].
  pose proof (nth_error_Some (detectors 0 0 0 0 (flatten c)) j) as Lj. rewrite Hj in Lj. assert (Lj' : (j < length (fdets st))%nat) by (rewrite Ld; apply Lj; discriminate).
  rewrite <- (nth_error_nth _ _ d Hj), <- B. rewrite <- combine_nth by (symmetry; exact Ld). apply nth_In. rewrite combine_length. lia.
Qed.
Lemma some_set_off lay c st : (1 <= set_off lay c true st)%nat -> exists d, In d (fdets st) /\ d = true.
Proof.
  intros K. unfold set_off in K. destruct (filter _ _) as [|[d b] l] eqn:F; [cbn in K; lia|].
  assert (Q : In (d, b) ((d, b) :: l)) by now left. rewrite <- F in Q. apply filter_In in Q. cbn [fst snd] in Q. destruct Q as [Q1 Q2]. apply andb_true_iff in Q2. exists b. split; [exact (in_combine_r _ _ _ _ Q1) | apply Q2].
Qed.
(** and two sets of them with the same detectors do the same to the observable. *)
Lemma forgiving_told_apart : forall lay c, valid lay -> supported_input lay -> generate_honeycomb_circuit lay = Ok c ->
  forall one bare lf lf', errors_of (flatten c) lf -> errors_of (flatten c) lf' -> known lay one bare lf -> known lay one bare lf' -> forgiving lay one bare (error_count lf + error_count lf') ->
  forall g f0 st g' f0' st', run_errors g lf (start f0) = Ok st -> run_errors g' lf' (start f0') = Ok st' -> fdets st = fdets st' -> forall x, fobs st x = fobs st' x.
Proof.
  intros lay c Hv Hs E one bare lf lf' Hlf Hlf' Hk Hk' L g f0 st g' f0' st' R R' Hd x.
  destruct (run_cracks lay c Hv Hs E one bare lf Hlf Hk g f0) as (s1 & cs & R1 & Lc & _ & Hcs & Hd1 & Ho1). assert (s1 = st) by congruence. subst s1.
  destruct (run_cracks lay c Hv Hs E one bare lf' Hlf' Hk' g' f0') as (s2 & cs' & R2 & Lc' & _ & Hcs' & Hd2 & Ho2). assert (s2 = st') by congruence. subst s2.
  pose proof (L (cs ++ cs')) as Q. rewrite xsum_app in Q. rewrite Ho1, Ho2. unfold mine. f_equal. apply xorb_eq. apply Q.
  - intros p Hp. apply in_app_or in Hp. destruct Hp; auto.
  - rewrite app_length, Lc, Lc'. reflexivity.
  - intros d Hin _. rewrite <- (proj1 (faulty_run lay c Hv Hs E)) in Hin. destruct (In_nth_error _ _ Hin) as (j & Hj). rewrite xsum_app, <- (Hd1 j d Hj), <- (Hd2 j d Hj), Hd. apply xorb_nilpotent.
Qed.

Lemma nothing_known lay lf : known lay False False lf.
Proof. intros f _. split; intros []. Qed.
Lemma any_forgiving lay t : valid lay -> supported_input lay -> (if (obs lay =? "V")%string then 2 * Z.of_nat t < data_width lay else 3 * Z.of_nat t < data_height lay) -> forgiving lay False False t.
Proof.
  intros Hv Hs L cs Hcs Lc HQ. apply (undetected_harmless lay Hv (sup_obs lay Hs) (sup_sup lay Hs) cs (fun p Hp => proj1 (Hcs p Hp)) HQ).
  rewrite Lc. unfold width, lines. destruct (obs lay =? "V")%string; lia.
Qed.
Lemma distance_lines lay t : valid lay -> 2 * t < code_distance_1qdep lay -> if (obs lay =? "V")%string then 2 * t < data_width lay else 3 * t < data_height lay.
Proof. intros Hv Ht. pose proof (valid_tiles lay Hv) as (T1 & T2 & T3 & T4). unfold code_distance_1qdep in Ht. destruct (obs lay =? "V")%string; [lia|]. revert Ht. dlia. Qed.

(** The sharper bound, and only the detectors on the observable's side are needed. *)
Theorem C81_observable_side : forall lay c, valid lay -> supported_input lay -> generate_honeycomb_circuit lay = Ok c ->
  forall lf, errors_of (flatten c) lf ->
  (if (obs lay =? "V")%string then 2 * Z.of_nat (error_count lf) < data_width lay else 3 * Z.of_nat (error_count lf) < data_height lay) ->
  forall g f0, exists st, run_errors g lf (start f0) = Ok st /\ length (fdets st) = length (detectors 0 0 0 0 (flatten c)) /\
    ((exists x, fobs st x = true) -> (1 <= set_off lay c true st)%nat).
Proof.
  intros lay c Hv Hs E lf Hlf L. exact (forgiving_detected lay c Hv Hs E False False lf Hlf (nothing_known lay lf) (any_forgiving lay _ Hv Hs L)).
Qed.
Print Assumptions C81_observable_side.

(** Fewer errors than half the code distance that flip the observable set off a detector. *)
Theorem C81_errors_detected : forall lay c, valid lay -> supported_input lay -> generate_honeycomb_circuit lay = Ok c ->
  forall lf, errors_of (flatten c) lf -> 2 * Z.of_nat (error_count lf) < code_distance_1qdep lay ->
  forall g f0, exists st, run_errors g lf (start f0) = Ok st /\ ((exists x, fobs st x = true) -> exists d, In d (fdets st) /\ d = true).
Proof.
  intros lay c Hv Hs E lf Hlf L g f0. destruct (C81_observable_side lay c Hv Hs E lf Hlf (distance_lines lay _ Hv L) g f0) as (st & R & _ & K).
  exists st. split; [exact R|]. intros Hx. exact (some_set_off lay c st (K Hx)).
Qed.
Print Assumptions C81_errors_detected.

(** So such errors can be told apart as far as the observable goes: when two sets of
    errors set off the same detectors, they do the same to the observable. *)
Theorem C81_correctable : forall lay c, valid lay -> supported_input lay -> generate_honeycomb_circuit lay = Ok c ->
  forall lf lf', errors_of (flatten c) lf -> errors_of (flatten c) lf' -> 2 * Z.of_nat (error_count lf + error_count lf') < code_distance_1qdep lay ->
  forall g f0 st g' f0' st', run_errors g lf (start f0) = Ok st -> run_errors g' lf' (start f0') = Ok st' -> fdets st = fdets st' -> forall x, fobs st x = fobs st' x.
Proof.
  intros lay c Hv Hs E lf lf' Hlf Hlf' L.
  exact (forgiving_told_apart lay c Hv Hs E False False lf lf' Hlf Hlf' (nothing_known lay lf) (nothing_known lay lf') (any_forgiving lay _ Hv Hs (distance_lines lay _ Hv L))).
Qed.
Print Assumptions C81_correctable.

(** ** Concrete errors *)
(** the errors fs at instruction k and none elsewhere *)
Definition place (l : list instr) (k : nat) (fs : list fault) : list (instr * list fault) :=
  map (fun i => (i, [])) (firstn k l) ++ (nth k l noop, fs) :: map (fun i => (i, [])) (skipn (S k) l).
Lemma place_errors l k fs : (k < length l)%nat -> (forall f, In f fs -> fault_of (nth k l noop) f) -> errors_of l (place l k fs) /\ error_count (place l k fs) = length fs.
Proof.
  intros L Hf. assert (Z0 : forall m : list instr, map fst (map (fun i => (i, @nil fault)) m) = m) by (intros m; rewrite map_map; apply map_id).
  assert (Z1 : forall m : list instr, flat_map snd (map (fun i => (i, @nil fault)) m) = []) by (induction m; auto).
  split; [split|].
  - unfold place. rewrite map_app. cbn [map fst]. rewrite !Z0. rewrite <- (firstn_skipn k l) at 4. f_equal.
    clear -L. revert k L. induction l as [|i l IH]; intros k L; cbn [length] in L; [lia|]. destruct k as [|k]; [reflexivity|]. cbn [nth skipn]. apply IH. lia.
  - intros i fs' f Hin Hf'. unfold place in Hin. apply in_app_or in Hin. destruct Hin as [Hin|[Hin|Hin]].
    + apply in_map_iff in Hin. destruct Hin as (x & Q & _). injection Q as <- <-. destruct Hf'.
    + injection Hin as <- <-. now apply Hf.
    + apply in_map_iff in Hin. destruct Hin as (x & Q & _). injection Q as <- <-. destruct Hf'.
  - unfold error_count, place. rewrite flat_map_app. cbn [flat_map snd]. now rewrite !Z1, app_nil_r.
Qed.
Definition tallies (lay : layout) (k : nat) (fs : list fault) : option (nat * nat * bool * bool) :=
  match generate_honeycomb_circuit lay with
  | Ok c =>
      match run_errors (fun _ => false) (place (flatten c) k fs) (start (fun _ => bzero)) with
      | Ok st => Some (set_off lay c true st, set_off lay c false st, fobs st 0%nat, Nat.ltb k (length (flatten c)))
      | Err _ => None
      end
  | Err _ => None
  end.
Definition six : layout := mkLayout 6 6 2 "EM3" "V" (1 # 1000).
Lemma six_pairs : exists ts1 ts2 ts3 args, nth 44 (written six) noop = mkI "DEPOLARIZE2" ([] ++ TQ 31 :: TQ 1 :: ts1) args /\
  nth 44 (written six) noop = mkI "DEPOLARIZE2" (map TQ [31; 1; 2; 3; 0; 5; 4; 10; 9; 8; 11; 6]%nat ++ TQ 7 :: TQ 13 :: ts2) args /\
  nth 44 (written six) noop = mkI "DEPOLARIZE2" (map TQ [31; 1; 2; 3; 0; 5; 4; 10; 9; 8; 11; 6; 7; 13; 14; 15; 12; 17; 16; 22; 21; 20; 23; 18]%nat ++ TQ 19 :: TQ 25 :: ts3) args.
Proof.
  assert (K : exists args, nth 44 (written six) noop = mkI "DEPOLARIZE2" (map TQ [31; 1; 2; 3; 0; 5; 4; 10; 9; 8; 11; 6; 7; 13; 14; 15; 12; 17; 16; 22; 21; 20; 23; 18; 19; 25; 26; 27; 24; 29; 28; 34; 33; 32; 35; 30]%nat) args) by (vm_compute; eexists; reflexivity).
  destruct K as (args & ->). eexists. eexists. eexists. exists args. repeat split; reflexivity.
Qed.
Lemma six_faults f : In f [Kick (both_at PX 31 PX 1); Kick (both_at PX 7 PX 13); Kick (both_at PX 19 PX 25)] -> fault_of (nth 44 (written six) noop) f.
Proof.
  destruct six_pairs as (ts1 & ts2 & ts3 & args & K1 & K2 & K3). intros [<-|[<-|[<-|[]]]].
  - rewrite K1. apply fault_dep2; [now exists 0%nat | apply only_both].
  - rewrite K2. apply fault_dep2; [now exists 6%nat | apply only_both].
  - rewrite K3. apply fault_dep2; [now exists 12%nat | apply only_both].
Qed.
Lemma six_valid : valid six /\ supported_input six.
Proof. split; [repeat split; reflexivity|]. split; [cbn; lia|]. split; [now left | cbn; tauto]. Qed.
(** Two errors on a patch six wide that flip the observable together: two detectors go off. *)
Example C81_example : valid six /\ supported_input six /\ obs six = "V"%string /\ (forall f, In f [Kick (both_at PX 31 PX 1); Kick (both_at PX 7 PX 13)] -> fault_of (nth 44 (written six) noop) f) /\ 2 * 2 < data_width six /\
  tallies six 44 [Kick (both_at PX 31 PX 1); Kick (both_at PX 7 PX 13)] = Some (2%nat, 0%nat, true, true).
Proof.
  split; [apply six_valid|]. split; [apply six_valid|]. split; [reflexivity|]. split; [|split; [reflexivity | vm_compute; reflexivity]].
  intros f Hf. apply six_faults. cbn [In] in *. tauto.
Qed.
(** The bound cannot be relaxed: three errors there set off nothing and flip it. *)
Lemma tallied_errors lay c k fs m m' o b : generate_honeycomb_circuit lay = Ok c -> tallies lay k fs = Some (m, m', o, b) ->
  exists st, run_errors (fun _ => false) (place (flatten c) k fs) (start (fun _ => bzero)) = Ok st /\ set_off lay c true st = m /\ set_off lay c false st = m' /\ fobs st 0%nat = o /\ Nat.ltb k (length (flatten c)) = b.
Proof. intros E. unfold tallies. rewrite E. destruct (run_errors _ _ _) as [st|]; [|discriminate]. intros K. exists st. split; [reflexivity|]. repeat split; congruence. Qed.
Theorem C81_half_distance_refuted : exists lay c lf g f0 st, valid lay /\ supported_input lay /\ generate_honeycomb_circuit lay = Ok c /\ errors_of (flatten c) lf /\
  obs lay = "V"%string /\ 2 * Z.of_nat (error_count lf) = data_width lay /\
  run_errors g lf (start f0) = Ok st /\ set_off lay c true st = 0%nat /\ set_off lay c false st = 0%nat /\ fobs st 0%nat = true.
Proof.
  destruct (made six (proj1 six_valid) (proj2 six_valid)) as (c & E).
  assert (Ew : written six = flatten c) by (unfold written; now rewrite E).
  assert (T : tallies six 44 [Kick (both_at PX 31 PX 1); Kick (both_at PX 7 PX 13); Kick (both_at PX 19 PX 25)] = Some (0%nat, 0%nat, true, true)) by (vm_compute; reflexivity).
  destruct (tallied_errors _ _ _ _ _ _ _ _ E T) as (st & Er & S1 & S2 & S3 & L). apply Nat.ltb_lt in L.
  destruct (place_errors (flatten c) 44 [Kick (both_at PX 31 PX 1); Kick (both_at PX 7 PX 13); Kick (both_at PX 19 PX 25)] L) as [P1 P2]; [rewrite <- Ew; exact six_faults|].
  exists six, c, (place (flatten c) 44 [Kick (both_at PX 31 PX 1); Kick (both_at PX 7 PX 13); Kick (both_at PX 19 PX 25)]), (fun _ => false), (fun _ => bzero), st.
  split; [apply six_valid|]. split; [apply six_valid|]. split; [exact E|]. split; [exact P1|]. split; [reflexivity|]. split; [rewrite P2; reflexivity|]. auto.
Qed.
Print Assumptions C81_half_distance_refuted.
