(** A run with one error: what the detectors and observables read, and the result. *)
From Coq Require Import QArith.
From Verif Require Import Prelude Layout LayoutFacts LayoutEdges LayoutLists LayoutHex LayoutHex2 Pauli LayoutObs LayoutLogic LayoutIndex
  Tracker TrackerFacts Stim Circuit Noise Annot Shift Ends Gen Gen2 Gen3 Traj Eval Frame Exec Exec2 Exec3 Exec4 Detectors Struct Moments NoiseFacts NoiseMoments NoiseAlign NoiseCorr
  FaultSpec FaultQuiet FaultCore FaultInv FaultObs FaultZ FaultInj FaultStep FaultNoise FaultChain FaultEnd FaultStyles FaultEm3.
Open Scope Z_scope.

(** ** Detectors and observables of concatenations *)
Lemma detectors_app a : forall x y t m, exists x' y' t', forall b, detectors x y t m (a ++ b) = detectors x y t m a ++ detectors x' y' t' (m + measurements a) b.
Proof.
  induction a as [|i a IH]; intros x y t m; cbn [app].
  - exists x, y, t. intros b. unfold measurements. cbn. now rewrite Nat.add_0_r.
  - cbn [detectors]. unfold measurements. cbn [map list_sum fold_right]. fold (list_sum (map results a)). fold (measurements a). destruct (canon (iname i) =? "DETECTOR")%string eqn:E1.
    + destruct (IH x y t m) as (x' & y' & t' & H). exists x', y', t'. intros b. rewrite (results_det i) by (left; now apply String.eqb_eq). cbn [app Nat.add]. f_equal. apply H.
    + destruct (canon (iname i) =? "SHIFT_COORDS")%string eqn:E2.
      * destruct (IH (Qred (x + arg i 0)) (Qred (y + arg i 1)) (Qred (t + arg i 2)) m) as (x' & y' & t' & H). exists x', y', t'. intros b. rewrite (results_det i) by (right; now apply String.eqb_eq). apply H.
      * destruct (IH x y t (m + results i)%nat) as (x' & y' & t' & H). exists x', y', t'. intros b. rewrite Nat.add_assoc. apply H.
Qed.
Lemma includes_app x a b : forall m, includes x m (a ++ b) = includes x m a ++ includes x (m + measurements a) b.
Proof.
  induction a as [|i a IH]; intros m; cbn [app].
  - unfold measurements. cbn. now rewrite Nat.add_0_r.
  - cbn [includes]. unfold measurements. cbn [map list_sum fold_right]. fold (list_sum (map results a)). fold (measurements a). destruct (canon (iname i) =? "OBSERVABLE_INCLUDE")%string eqn:E1.
    + rewrite (results_obs i) by now apply String.eqb_eq. cbn [Nat.add]. now rewrite IH, app_assoc.
    + now rewrite IH, Nat.add_assoc.
Qed.

(** ** The same notes: the same detectors and observables wherever it stands *)
Definition alike (a b : list instr) : Prop := (forall x y t m r, detectors x y t m (a ++ r) = detectors x y t m (b ++ r)) /\ (forall x m, includes x m a = includes x m b) /\ measurements a = measurements b.
Lemma alike_refl a : alike a a.
Proof. repeat split. Qed.
Lemma alike_sym a b : alike a b -> alike b a.
Proof. intros (H1 & H2 & H3). repeat split; auto. Qed.
Lemma alike_trans a b c : alike a b -> alike b c -> alike a c.
Proof. intros (H1 & H2 & H3) (K1 & K2 & K3). repeat split; [intros; now rewrite H1 | intros; now rewrite H2 | congruence]. Qed.
Lemma alike_app a a' b b' : alike a a' -> alike b b' -> alike (a ++ b) (a' ++ b').
Proof.
  intros (H1 & H2 & H3) (K1 & K2 & K3). split; [|split].
  - intros x y t m r. rewrite <- !app_assoc, H1. destruct (detectors_app a' x y t m) as (x' & y' & t' & E). rewrite !E. f_equal. apply K1.
  - intros x m. now rewrite !includes_app, H2, H3, K2.
  - now rewrite !measurements_app, H3, K3.
Qed.
Definition mute (i : instr) : Prop := relevant i = false /\ relob i = false.
Lemma alike_mute i : mute i -> alike [i] [].
Proof.
  intros [H1 H2]. split; [|split].
  - intros x y t m r. rewrite (detectors_keep ([i] ++ r)), (detectors_keep ([] ++ r)). cbn [app filter]. now rewrite H1.
  - intros x m. rewrite (includes_keep x [i]). cbn [filter]. now rewrite H2.
  - rewrite (measurements_keep [i]). cbn [filter]. now rewrite H1.
Qed.
Lemma alike_muted l : Forall mute l -> alike l [].
Proof. intros H. induction H as [|i l Hi H IH]; [apply alike_refl|]. change (i :: l) with ([i] ++ l). change (@nil instr) with (@nil instr ++ []). apply alike_app; [now apply alike_mute | exact IH]. Qed.
Lemma mute_noise i : is_noise i = true -> mute i.
Proof.
  intros H. unfold is_noise in H. apply existsb_exists in H. destruct H as (s & Hs & E). apply String.eqb_eq in E.
  cbn [In] in Hs. unfold mute, relevant, relob, results. rewrite E. repeat (destruct Hs as [<-|Hs]; [split; reflexivity|]). destruct Hs.
Qed.
Lemma mute_tick i : is_tick i = true -> mute i.
Proof. intros H. unfold is_tick in H. apply String.eqb_eq in H. unfold mute, relevant, relob, results. rewrite H. split; reflexivity. Qed.
Lemma alike_gates l : alike l (gates l).
Proof.
  induction l as [|i l IH]; [apply alike_refl|]. change (i :: l) with ([i] ++ l). rewrite gates_app. apply alike_app; [|exact IH].
  unfold gates. cbn [filter]. destruct (is_noise i) eqn:N; cbn [negb]; [apply alike_mute; now apply mute_noise | apply alike_refl].
Qed.
Lemma alike_moments l : forall now, alike (now ++ l) (concat (moments now l)).
Proof.
  induction l as [|i l IH]; intros now; cbn [moments]; [cbn [concat]; apply alike_refl|]. destruct (is_tick i) eqn:Ti.
  - cbn [concat]. apply alike_app; [apply alike_refl|]. change (i :: l) with ([i] ++ l). change (concat (moments [] l)) with ([] ++ concat (moments [] l)).
    apply alike_app; [now apply alike_mute, mute_tick | apply (IH [])].
  - specialize (IH (now ++ [i])). now rewrite <- app_assoc in IH.
Qed.
Lemma alike_concat ms ms' : Forall2 alike ms ms' -> alike (concat ms) (concat ms').
Proof. intros H. induction H; [apply alike_refl|]. cbn [concat]. now apply alike_app. Qed.

(** ** One moment with noise *)
Lemma alike_same i j : canon (iname i) = canon (iname j) -> itargets i = itargets j -> (canon (iname i) = "MPP"%string) -> alike [i] [j].
Proof.
  intros E1 E2 E3. assert (R : results i = results j) by (unfold results; now rewrite E1, E2). split; [|split].
  - intros x y t m r. cbn [app detectors]. rewrite <- E1, E3, R. reflexivity.
  - intros x m. cbn [includes]. rewrite <- E1, E3. reflexivity.
  - unfold measurements. cbn [map list_sum fold_right]. now rewrite R.
Qed.
Lemma alike_records a b : (forall i, In i (a ++ b) -> canon (iname i) <> "DETECTOR"%string /\ canon (iname i) <> "SHIFT_COORDS"%string /\ canon (iname i) <> "OBSERVABLE_INCLUDE"%string) -> measurements a = measurements b -> alike a b.
Proof.
  intros H Hm.
  assert (K : forall l, (forall i, In i l -> canon (iname i) <> "DETECTOR"%string /\ canon (iname i) <> "SHIFT_COORDS"%string /\ canon (iname i) <> "OBSERVABLE_INCLUDE"%string) ->
    (forall x y t m r, detectors x y t m (l ++ r) = detectors x y t (m + measurements l) r) /\ (forall x m, includes x m l = [])).
  { induction l as [|i l IH]; intros Hl; [split; [intros; unfold measurements; cbn; now rewrite Nat.add_0_r | reflexivity]|].
    destruct (Hl i (or_introl eq_refl)) as (N1 & N2 & N3). apply String.eqb_neq in N1, N2, N3. destruct (IH (fun j Hj => Hl j (or_intror Hj))) as [I1 I2]. split.
    - intros x y t m r. cbn [app detectors]. rewrite N1, N2, I1. unfold measurements. cbn [map list_sum fold_right]. now rewrite Nat.add_assoc.
    - intros x m. cbn [includes]. now rewrite N3, I2. }
  destruct (K a) as [A1 A2]; [intros; apply H, in_or_app; now left|]. destruct (K b) as [B1 B2]; [intros; apply H, in_or_app; now right|].
  split; [|split]; [intros; now rewrite A1, B1, Hm | intros; now rewrite A2, B2 | exact Hm].
Qed.
Lemma alike_sub nm a op : ideal_op op -> (use_correlated nm = true -> pauli_pairs op) -> alike [op] (sub_any nm a op).
Proof.
  intros (Ec & _ & _) Hpp. unfold sub_any. destruct (op_strength nm op) as [p|]; [|apply alike_refl]. destruct (String.eqb_spec (iname op) "MPP") as [M|M]; cbn [andb]; [|apply alike_refl].
  destruct (Qlt_bool 0 p); [|apply alike_refl]. destruct (use_correlated nm) eqn:Uc; [|apply alike_same; [reflexivity | reflexivity | congruence]].
  destruct (Hpp eq_refl M) as (l & El & _). rewrite El, triples_pair_targets. eapply alike_trans; [|apply alike_sym, alike_gates].
  apply alike_records.
  - intros i Hi. apply in_app_or in Hi. destruct Hi as [[<-|[]]|Hi]; [rewrite Ec, M; repeat split; discriminate|].
    clear El. induction l as [|[[[p1 q1] p2] q2] l IH]; [destruct Hi|]. cbn [map flat_map] in Hi. rewrite flatten_app, gates_app in Hi. apply in_app_or in Hi. destruct Hi as [Hi|Hi]; [|now apply IH].
    rewrite parity_gates in Hi. unfold gadget, both in Hi. destruct p1, p2; cbn in Hi; repeat (destruct Hi as [<-|Hi]; [cbn; repeat split; discriminate|]); destruct Hi.
  - transitivity (length l).
    + unfold measurements, results. cbn [map list_sum fold_right]. rewrite Ec, M. cbn [String.eqb Ascii.eqb Bool.eqb]. rewrite El, products_pair_targets, map_length. apply Nat.add_0_r.
    + clear El. induction l as [|[[[p1 q1] p2] q2] l IH]; [reflexivity|]. cbn [map flat_map length]. rewrite flatten_app, gates_app, measurements_app, <- IH, parity_gates.
      unfold gadget, both. destruct p1, p2; reflexivity.
Qed.
Lemma alike_noisy nm A m out : (use_correlated nm = true -> forall op, In op m -> pauli_pairs op) -> noise_rel nm A m out -> alike m out.
Proof.
  intros Hp (Hi & a & _ & pre & post & -> & H1 & H2).
  assert (K : alike m (flat_map (sub_any nm a) m)).
  { clear H1 H2. induction m as [|op m IH]; [apply alike_refl|]. cbn [flat_map]. change (op :: m) with ([op] ++ m).
    apply alike_app; [apply alike_sub; [apply Hi; now left | intros U; apply (Hp U); now left] | apply IH; [intros U o Ho; apply (Hp U); now right | intros o Ho; apply Hi; now right]]. }
  replace m with ([] ++ m ++ []) at 1 by (cbn [app]; apply app_nil_r).
  apply alike_app; [apply alike_sym, alike_muted, Forall_forall; intros i K'; apply mute_noise, (H1 i K')|].
  apply alike_app; [exact K | apply alike_sym, alike_muted, Forall_forall; intros i K'; apply mute_noise, (H2 i K')].
Qed.
Lemma in_moments i m l : forall now, In m (moments now l) -> In i m -> In i (now ++ l).
Proof.
  induction l as [|j l IH]; intros now Hm Hi; cbn [moments] in Hm.
  - destruct Hm as [<-|[]]. now rewrite app_nil_r.
  - destruct (is_tick j).
    + destruct Hm as [<-|Hm]; apply in_or_app; [now left | right; right; exact (IH [] Hm Hi)].
    + specialize (IH (now ++ [j]) Hm Hi). now rewrite <- app_assoc in IH.
Qed.
Lemma Forall2_in {A B} (R S : A -> B -> Prop) l l' : (forall a b, In a l -> R a b -> S a b) -> Forall2 R l l' -> Forall2 S l l'.
Proof. intros H F. induction F; constructor; [apply H; [now left | assumption] | apply IHF; intros; apply H; [now right | assumption]]. Qed.
Lemma alike_circuit nm A l l' : (use_correlated nm = true -> forall op, In op l -> pauli_pairs op) -> Forall2 (noise_rel nm A) (moments [] l) (moments [] l') -> alike l l'.
Proof.
  intros Hp H. eapply alike_trans; [apply (alike_moments l [])|]. eapply alike_trans; [|apply alike_sym, (alike_moments l' [])]. apply alike_concat.
  eapply Forall2_in; [|exact H]. intros m out Hm. apply alike_noisy. intros U op Ho. apply (Hp U). exact (in_moments op m l [] Hm Ho).
Qed.

(** ** What is read in a run with one error *)
Lemma flip_length j l : length (flip j l) = length l.
Proof. revert j. induction l as [|b l IH]; intros [|j]; cbn [flip length]; auto. Qed.
Lemma flip_nth j l k : (k < j)%nat -> nth k (flip j l) false = nth k l false.
Proof. revert j k. induction l as [|b l IH]; intros [|j] [|k] H; cbn [flip nth]; try lia; auto. apply IH. lia. Qed.
Lemma happens_state i f made st : let st' := happens f made st in
  length (frec st') = length (frec st) /\ fdets st' = fdets st /\ fobs st' = fobs st /\ (forall j, (j < made)%nat -> nth j (frec st') false = nth j (frec st) false) /\ (is_noise i = true -> fault_of i f -> frec st' = frec st).
Proof.
  destruct f as [err|k]; cbn [happens].
  - unfold strike, with_fr. cbn. auto.
  - unfold misread. cbn [frec fdets fobs]. rewrite flip_length. repeat split; auto.
    + intros j Hj. apply flip_nth. lia.
    + intros N H. inversion H; subst. discriminate.
Qed.
Theorem faulty_reads g l1 i f l2 st0 st : fault_of i f -> frec st0 = [] -> fdets st0 = [] -> run_faulty g l1 i f l2 st0 = Ok st ->
  fdets st = map (fun d => xsum (fun j => nth j (frec st) false) (d_meas d)) (detectors 0 0 0 0 (l1 ++ i :: l2)) /\
  forall x, fobs st x = xorb (fobs st0 x) (xsum (fun j => nth j (frec st) false) (includes x 0 (l1 ++ i :: l2))).
Proof.
  intros Hf R0 D0 H. unfold run_faulty in H.
  destruct (run g (gates l1) st0) as [s1|] eqn:E1; [|discriminate]. cbn [bind] in H. destruct (run g (gates [i]) s1) as [s2|] eqn:E2; [|discriminate]. cbn [bind] in H.
  set (s3 := happens f (length (frec s1)) s2) in *. destruct (happens_state i f (length (frec s1)) s2) as (L3 & F3 & O3 & N3 & _). fold s3 in L3, F3, O3, N3.
  assert (Q : detectors 0 0 0 0 (l1 ++ i :: l2) = detectors 0 0 0 0 (gates l1 ++ gates [i] ++ gates l2) /\ forall x, includes x 0 (l1 ++ i :: l2) = includes x 0 (gates l1 ++ gates [i] ++ gates l2)).
  { destruct (alike_gates (l1 ++ i :: l2)) as (A1 & A2 & _). change (l1 ++ i :: l2) with (l1 ++ [i] ++ l2) in *. rewrite !gates_app in A1, A2. split; [specialize (A1 0%Q 0%Q 0%Q 0%nat []); now rewrite !app_nil_r in A1 | intros; apply A2]. }
  destruct Q as [-> QI]. 
  destruct (detectors_app (gates l1) 0 0 0 0) as (x & y & t & Q1). rewrite Q1.
  destruct (run_detectors g _ _ _ 0 0 0 E1) as (r1 & A1 & A2 & A3 & A4). rewrite R0, D0 in *. cbn [app length Nat.add] in *.
  assert (M1 : measurements (gates l1) = length (frec s1)) by (now rewrite A1). rewrite M1.
  assert (NI : detectors x y t (length (frec s1)) (gates [i] ++ gates l2) = detectors x y t (length (frec s2)) (gates l2) /\ fdets s2 = fdets s1 /\ (exists r2, frec s2 = frec s1 ++ r2) /\ fobs s2 = fobs s1 /\
    forall z, includes z (length (frec s1)) (gates [i] ++ gates l2) = includes z (length (frec s2)) (gates l2)).
  { unfold gates in E2 |- *. cbn [filter] in *. destruct (is_noise i) eqn:Ni; cbn [negb] in *.
    - cbn [run] in E2. injection E2 as <-. repeat split. exists []. now rewrite app_nil_r.
    - destruct (fault_source i f Hf) as [K|K]; [congruence|]. cbn [run] in E2. destruct (run_instr g i s1) as [s|] eqn:Ei; [|discriminate]. cbn [bind] in E2. injection E2 as ->.
      assert (Kc : canon (iname i) = "MPP"%string) by (now rewrite K).
      destruct (run_instr_record g i s1 s2 Ei) as (r & B1 & B2 & B3). rewrite Kc in B3. cbn [String.eqb Ascii.eqb Bool.eqb] in B3. rewrite app_nil_r in B3.
      cbn [app detectors includes]. rewrite Kc. cbn [String.eqb Ascii.eqb Bool.eqb]. rewrite B1, app_length, B2. repeat split; auto; [eauto|]. apply (run_instr_fobs g i s1 s2 Ei). now rewrite Kc. }
  destruct NI as (-> & F2 & (r2 & B2) & O2 & NI).
  destruct (run_detectors g _ _ _ x y t H) as (r3 & C1 & C2 & C3 & C4). rewrite L3 in C3, C4.
  assert (Pre : forall j, (j < length (frec s1))%nat -> nth j (frec st) false = nth j (frec s1) false).
  { intros j Hj. rewrite C1, app_nth1 by (rewrite L3, B2, app_length; lia). rewrite N3 by exact Hj. rewrite B2, app_nth1 by exact Hj. reflexivity. }
  split.
  - rewrite C3, F3, F2, A3, map_app. f_equal. apply map_ext_in. intros d Hd. apply xsum_ext. intros j Hj. symmetry. apply Pre. eapply A4; eauto.
  - intros z. rewrite QI, includes_app, M1. cbn [Nat.add]. rewrite NI.
    destruct (run_includes g z _ _ _ E1) as [I1 I2]. destruct (run_includes g z _ _ _ H) as [I3 _]. rewrite R0 in I1, I2. cbn [length] in I1, I2.
    rewrite I3, O3, O2, I1, L3, xsum_app, xorb_assoc. f_equal. f_equal. apply xsum_ext. intros j Hj. symmetry. apply Pre. now apply I2.
Qed.

(** ** All styles *)
Section Ch.
  Variable lay : layout.
  Hypothesis Hv : valid lay.
  Hypothesis Hobs : obs lay = "V"%string \/ obs lay = "H"%string.
  Hypothesis Hs : supported lay.
  Variable gs : nat -> bool.
  Variable nm : noise_model.
  Variable An : nat -> Prop.
  Notation okx := (okx lay).
  Notation rel := (noise_rel nm An).
  Notation seg := (seg expl okx tx0 gs rel).
  Notation path := (path expl okx tx0 gs rel).
  Notation trk := (trk lay (tr0 lay)).
  Notation N := (Z.to_nat (sub_rounds lay)).
  Hypothesis Ha : use_correlated nm = true -> style lay = "EM3_v2"%string /\ forall a, An a -> forall q, isdata lay q -> ix lay q <> a.
  Local Opaque data_qubit_coords measure_qubit_coords q2i_dict hex_entries hexes round_edges all_edges isort.

  Lemma reads_nil len : reads gs len [].
  Proof. intros st _. exists st. auto. Qed.
  Lemma whole_path : path begin_at (moments [] (circuit_i lay)) (end_at lay).
  Proof.
    assert (G : forall pa body pre, starts lay pa -> NoDup (map fst pa) -> seg (Sx lay 0 0 0 0 0 false pa) body (last_at lay) -> Forall calm pre -> reads gs (tm (trk N)) pre ->
      body_i lay = body ++ pre -> path begin_at (moments [] (circuit_i lay)) (end_at lay)).
    { intros pa body pre H1 H2 H3 H4 H5 E. unfold circuit_i. rewrite E, app_assoc. apply (seg_begin lay Hv Hs gs nm An pa H1 H2). rewrite <- app_assoc. apply H3. now apply (path_fin lay Hv Hobs Hs). }
    destruct Hs as (Hn & Hst). unfold body_i in G.
    assert (Hp : style lay <> "PC3"%string -> pc3 lay = false) by (intros K; unfold pc3; now apply String.eqb_neq).
    destruct Hst as [Es|[Es|[Es|[Es|[Es H3]]]]]; rewrite Es in G; cbn [String.eqb Ascii.eqb Bool.eqb is_em3 orb] in G.
    - apply (G [] (sd6_body lay) []); [intros ? [] | constructor | | constructor | apply reads_nil | now rewrite app_nil_r].
      apply body_sd6; auto; [apply Hp; rewrite Es; discriminate | now rewrite Es].
    - apply (G [(0%nat, Idle)] (flat_map (pc3_i lay) (seq 0 (Z.to_nat (sub_rounds lay + 2)))) (pc3_obs_i lay (trk N))).
      + intros sp [<-|[]]. exists 0%nat. split; [reflexivity|]. split; [lia | now rewrite Es].
      + constructor; [intros [] | constructor].
      + apply body_pc3; auto; [unfold pc3; now rewrite Es | now rewrite Es].
      + apply calm_pc3_obs.
      + now apply pc3_reads.
      + reflexivity.
    - apply (G [] (em3_body lay) []); [intros ? [] | constructor | | constructor | apply reads_nil | now rewrite app_nil_r].
      apply body_em3; auto; [apply Hp; rewrite Es; discriminate | now rewrite Es].
    - apply (G [] (em3_body lay) []); [intros ? [] | constructor | | constructor | apply reads_nil | now rewrite app_nil_r].
      apply body_em3; auto; [apply Hp; rewrite Es; discriminate | now rewrite Es].
    - apply (G [(0%nat, Idle); (1%nat, Idle); (2%nat, Idle)] (si_body lay) []); [| | | constructor | apply reads_nil | now rewrite app_nil_r].
      + intros sp K. cbn [In] in K. destruct K as [<-|[<-|[<-|[]]]]; eexists; (split; [reflexivity|]); (split; [lia | now rewrite Es]).
      + cbn [map fst]. repeat constructor; cbn [In]; lia.
      + apply body_si; auto; [apply Hp; rewrite Es; discriminate | now rewrite Es].
  Qed.
  (** the detectors and observables after one error, as parities of a record *)
  Theorem one_fault_record l l1 i f l2 f0 : Forall2 rel (moments [] (circuit_i lay)) (moments [] l) -> (use_correlated nm = true -> forall op, In op (circuit_i lay) -> pauli_pairs op) ->
    l = l1 ++ i :: l2 -> fault_of i f ->
    exists st t z A0, run_faulty gs l1 i f l2 (start f0) = Ok st /\ okx f t /\ (forall q, isdata lay q -> anti2 (pbits (init_basis lay)) (A0 q) = false) /\
      let B := fun j => nth j (frecord lay (fst t) (snd t) z A0) false in
      detectors 0 0 0 0 l = detectors 0 0 0 0 (circuit_i lay) /\ fdets st = map (fun d => xsum B (d_meas d)) (detectors 0 0 0 0 l) /\ forall x, fobs st x = mine lay x (effect lay B).
  Proof.
    intros HF Hp El Hf. destruct (path_good _ _ _ _ _ _ _ _ whole_path l [] HF) as [_ G]. cbn [app] in G.
    destruct (G l1 i l2 f (start f0) El Hf (conj eq_refl eq_refl)) as (t & Ht & st & Er & (z & A0 & H0 & Efr)). exists st, t, z, A0. refine (conj Er (conj Ht (conj H0 _))). cbn zeta.
    destruct (faulty_reads gs l1 i f l2 (start f0) st Hf eq_refl eq_refl Er) as [R1 R2]. rewrite <- El in R1, R2.
    destruct (alike_circuit nm An _ _ Hp HF) as (Q1 & Q2 & _). specialize (Q1 0%Q 0%Q 0%Q 0%nat []). rewrite !app_nil_r in Q1.
    refine (conj (eq_sym Q1) (conj _ _)).
    - rewrite R1, Efr. reflexivity.
    - intros x. rewrite R2, <- Q2. cbn [start fobs]. rewrite xorb_false_l, Efr. apply (circuit_includes lay Hv Hobs _ x Hs).
  Qed.
  (** the same when no error happens *)
  Theorem no_fault_record l f0 : Forall2 rel (moments [] (circuit_i lay)) (moments [] l) -> (use_correlated nm = true -> forall op, In op (circuit_i lay) -> pauli_pairs op) ->
    exists st z A0, run gs (gates l) (start f0) = Ok st /\ (forall q, isdata lay q -> anti2 (pbits (init_basis lay)) (A0 q) = false) /\
      let B := fun j => nth j (frecord lay noX noY z A0) false in
      fdets st = map (fun d => xsum B (d_meas d)) (detectors 0 0 0 0 l) /\ forall x, fobs st x = mine lay x (effect lay B).
  Proof.
    intros HF Hp. destruct (path_good _ _ _ _ _ _ _ _ whole_path l [] HF) as [G _]. cbn [app] in G.
    destruct (G tx0 (start f0) (conj eq_refl eq_refl)) as (st & Er & (z & A0 & H0 & Efr)). exists st, z, A0. refine (conj Er (conj H0 _)). cbn zeta. unfold tx0 in Efr. cbn [fst snd] in Efr.
    destruct (alike_gates l) as (A1 & A2 & _). specialize (A1 0%Q 0%Q 0%Q 0%nat []). rewrite !app_nil_r in A1.
    destruct (alike_circuit nm An _ _ Hp HF) as (_ & Q2 & _).
    destruct (run_detectors gs _ _ _ 0 0 0 Er) as (r & _ & _ & Ed & _). cbn [start fdets frec length app] in Ed. split.
    - rewrite Ed, A1, Efr. reflexivity.
    - intros x. destruct (run_includes gs x _ _ _ Er) as [I1 _]. cbn [start fobs frec length] in I1. rewrite I1, xorb_false_l, <- A2, <- Q2, Efr. apply (circuit_includes lay Hv Hobs _ x Hs).
  Qed.
End Ch.
