(** C79: in the EM3_v2 style, too, every error is made of errors that set off at most
    two detectors on either side. *)
From Coq Require Import QArith.
From Verif Require Import Prelude Layout LayoutFacts LayoutEdges LayoutLists LayoutIndex Pauli LayoutLogic Stim Circuit Noise Annot Shift Ends Gen Gen3 Traj Eval Frame Exec Exec2 Exec3 Exec4 Detectors Struct Struct2 Struct3 Moments NoiseFacts NoiseMoments NoiseCorr NoiseAlign Prop_Circuit Prop_Noise Prop_Noise2 Prop_Noise3
  FaultSpec FaultQuiet FaultCore FaultObs FaultInv FaultZ FaultStep FaultNoise FaultEm3 FaultRun FaultCount FaultLin Prop_Fault Prop_Match Prop_Dist.
Open Scope Z_scope.

(** ** Errors that touch one data qubit, or only data qubits *)
Lemma record_two lay X Y one bare z A0 side : valid lay -> supported_input lay -> (one \/ bare) -> (forall q, isdata lay q -> anti2 (pbits (init_basis lay)) (A0 q) = false) -> core lay X Y one bare ->
  (length (filter (fun d => eqb (watches lay d) side && xsum (fun i => nth i (frecord lay X Y z A0) false) (d_meas d)) (detectors 0 0 0 0 (circuit_i lay))) <= 2)%nat.
Proof.
  intros Hv Hs Hob H0 (k & e0 & P & f & Hk & He0 & HP & Hfl & HX & _ & Hone & Hbare).
  set (N := Z.to_nat (sub_rounds lay)) in *.
  set (Bf := fun i => nth i (recw lay (fl X Y) N ++ map (fun q => anti2 (pbits (final_basis lay)) (X N q)) (data_qubit_coords lay)) false).
  rewrite (filter_ext_in _ (fun d => eqb (watches lay d) side && xsum Bf (d_meas d))).
  - etransitivity; [apply (few_fire lay Hv (sup_obs lay Hs) (sup_sup lay Hs) k Hk e0 He0 P HP f Bf)|].
    + intros s e Hs' He. rewrite <- Hfl by assumption. apply (VE_bitw lay (fl X Y) Bf N); [|exact Hs' | exact He]. intros s' e' Hs'' He'. unfold Bf. now apply (nth_recw lay Hv).
    + intros q Hq. unfold dat, Bf. rewrite (dat_at lay Hv) by exact Hq. rewrite (HX q Hq). reflexivity.
    + destruct (_ && _ && f) eqn:B; [|lia]. exfalso. apply andb_prop in B as [B Bf']. apply andb_prop in B as [B1 B2]. destruct Hob as [Ho|Hb].
      * destruct (Hone Ho) as [K|K]; rewrite K in *; rewrite anti2_zero_r in *; discriminate.
      * specialize (Hbare Hb Bf'). rewrite par_edge in Hbare. rewrite B1, B2 in Hbare. discriminate.
  - intros d Hd. f_equal. rewrite (xsum_ext _ _ _ (fun i _ => record_split lay Hv X Y z A0 i)), xsum_xorb, (Bz_quiet lay Hv (sup_obs lay Hs) (sup_sup lay Hs) z A0 H0 d Hd). apply xorb_false_l.
Qed.

(** ** Where an error of the EM3_v2 style happens *)
Lemma in_moment (i : instr) l : is_tick i = false -> forall now l1 l2, now ++ l = l1 ++ i :: l2 -> exists m A o1 o2 B, In m (moments now l) /\ m = o1 ++ i :: o2 /\ l1 = A ++ o1 /\ l2 = o2 ++ B.
Proof.
  intros Ti. induction l as [|j l IH]; intros now l1 l2 E; cbn [moments].
  - rewrite app_nil_r in E. exists now, [], l1, l2, []. rewrite app_nil_r. cbn [app]. auto using in_eq.
  - destruct (is_tick j) eqn:Tj.
    + destruct (app_split i l1 l2 now (j :: l) E) as [(r & -> & ->)|(r & -> & E2)].
      * exists (l1 ++ i :: r), [], l1, r, (j :: l). cbn [app]. auto using in_eq.
      * destruct r as [|x r]; cbn [app] in E2; injection E2 as E2 E3; [congruence|]. subst x. destruct (IH [] r l2 E3) as (m & A & o1 & o2 & B & H1 & H2 & -> & ->).
        exists m, (now ++ j :: A), o1, o2, B. split; [now right|]. rewrite <- app_assoc. auto.
    + apply IH. now rewrite <- app_assoc.
Qed.
Lemma in_flat {X} (i : instr) (f : X -> list instr) l : forall l1 l2, flat_map f l = l1 ++ i :: l2 -> exists x A o1 o2 B, In x l /\ f x = o1 ++ i :: o2 /\ l1 = A ++ o1 /\ l2 = o2 ++ B.
Proof.
  induction l as [|x l IH]; intros l1 l2 E; cbn [flat_map] in E; [destruct l1; discriminate|].
  destruct (app_split i l1 l2 _ _ E) as [(r & E1 & ->)|(r & -> & E2)].
  - exists x, [], l1, r, (flat_map f l). cbn [app]. auto using in_eq.
  - destruct (IH r l2 E2) as (y & A & o1 & o2 & B & H1 & H2 & -> & ->). exists y, (f x ++ A), o1, o2, B. rewrite <- app_assoc. split; [now right|auto].
Qed.
Lemma single_one lay err : valid lay -> single err -> one_data lay (Kick err).
Proof.
  intros Hv (x & Ho). destruct (lt_dec x (length (data_qubit_coords lay))) as [L|L].
  - destruct (Prop_Noise3.data_of_ix lay Hv x L) as (q0 & Hq0 & <-). exists q0. intros q Hq Hne. apply Ho. intros [K|[]]. apply Hne. symmetry. apply (ix_inj lay Hv); [apply in_or_app; now left| |exact K].
    now apply (data_in_qubits lay Hv).
  - exists (0, 0). intros q Hq _. apply Ho. intros [K|[]]. apply L. rewrite K. apply (Prop_Noise3.ix_data lay Hv). now apply (in_data lay Hv).
Qed.
Lemma pair_data lay err x y : valid lay -> (x < length (data_qubit_coords lay))%nat -> (y < length (data_qubit_coords lay))%nat -> only [x; y] err -> data_only lay (Kick err).
Proof.
  intros Hv Lx Ly Ho z Hz. apply Ho. intros [<-|[<-|[]]].
  - destruct (Prop_Noise3.data_of_ix lay Hv x Lx) as (q & Hq & E). exact (Hz q (proj1 (in_data lay Hv q) Hq) E).
  - destruct (Prop_Noise3.data_of_ix lay Hv y Ly) as (q & Hq & E). exact (Hz q (proj1 (in_data lay Hv q) Hq) E).
Qed.
(** the 31 instructions of one check *)
Definition in_block (lay : layout) (l1 : list instr) (i : instr) (l2 : list instr) : Prop :=
  exists A B r1 r2 q1 q2 a p, l1 = A ++ r1 /\ l2 = r2 ++ B /\ errors_i q1 q2 a p = r1 ++ i :: r2 /\
    (q1 < length (data_qubit_coords lay))%nat /\ (q2 < length (data_qubit_coords lay))%nat /\ ~ (a < length (data_qubit_coords lay))%nat.
Lemma v2_place lay c : valid lay -> supported_input lay -> generate_honeycomb_circuit lay = Ok c -> style lay = "EM3_v2"%string ->
  forall l1 i l2 f, flatten c = l1 ++ i :: l2 -> fault_of i f -> one_data lay f \/ data_only lay f \/ in_block lay l1 i l2.
Proof.
  intros Hv Hs E Est l1 i l2 f El Hf.
  destruct (generated lay Hv Hs) as (c1 & nm & c2 & E1 & En & E2 & E3 & Fl & Fo & Hfine). rewrite E in E3. injection E3 as <-.
  pose proof (noisy_moments_any (unit_i lay) nm c1 c Fo (fun op Ho => fine_ideal lay op (Hfine op Ho)) E2) as HF. rewrite Fl in HF.
  pose proof (proj2 (proj2 (proj2 (C29_strengths lay nm (mkI "" [] []) En)))) as Hc. assert (U : use_correlated nm = true) by (now apply Hc).
  pose proof (circuit_low lay Hv (em3_supported_em3 lay Est)) as Low. rewrite Forall_forall in Low.
  assert (Ti : is_tick i = false) by (destruct (is_tick i) eqn:T; [exfalso; exact (fault_not_tick _ _ T Hf)|reflexivity]).
  destruct (in_moment i (flatten c) Ti [] l1 l2 El) as (out & A & o1 & o2 & B & Hm & -> & -> & ->).
  assert (X : exists m, In m (moments [] (circuit_i lay)) /\ noise_rel nm (fun a => In a (ancillas c1)) m (o1 ++ i :: o2)).
  { clear - HF Hm. induction HF as [|m o ms os R F IH]; [destruct Hm|]. destruct Hm as [->|Hm]; [exists m; split; [now left|exact R]|]. destruct (IH Hm) as (m' & K1 & K2). exists m'. split; [now right|exact K2]. }
  destruct X as (m & Hm' & Hid & a & Ha & pre & post & Eo & Hpre & Hpost). symmetry in Eo.
  assert (Lw : forall op, In op m -> (forall q, In q (tqubits (itargets op)) -> (q < length (data_qubit_coords lay))%nat) /\ two_qubit_products op).
  { intros op Hop. apply Low. exact (in_moments op m (circuit_i lay) [] Hm' Hop). }
  assert (Pair : forall op ts err, In op m -> (forall q, In (TQ q) ts -> In q (tqubits (itargets op))) -> pair_of ts err -> data_only lay (Kick err)).
  { intros op ts err Hop Hts (b1 & x & y & b2 & -> & _ & Ho). apply (pair_data lay err x y Hv); [| |exact Ho]; apply (proj1 (Lw op Hop)), Hts; apply in_or_app; right; [now left|right; now left]. }
  destruct (app_split i o1 o2 _ _ Eo) as [(r & E4 & _)|(r & -> & E4)].
  { destruct (Hpre i) as [_ K]; [rewrite E4; apply in_or_app; right; now left|]. destruct (K f Hf) as (err & -> & [S|(op & Hop & _ & S)]); [left; now apply single_one|]. right. left.
    apply (Pair op _ err Hop) in S; [exact S|]. intros q Hq. unfold pair_values in Hq. apply in_map_iff in Hq as (t & Ht & Hin). apply filter_In in Hin as [Hin _].
    unfold tqubits. apply in_flat_map. exists t. split; [exact Hin|]. destruct t; cbn in Ht |- *; try discriminate; injection Ht as ->; auto. }
  destruct (app_split i r o2 _ _ E4) as [(r2 & E5 & ->)|(r2 & -> & E5)].
  2:{ destruct (Hpost i) as [_ K]; [rewrite E5; apply in_or_app; right; now left|]. destruct (K f Hf) as (err & -> & [S|(op & Hop & _ & S)]); [left; now apply single_one|]. right. left.
      apply (Pair op _ err Hop) in S; [exact S|]. intros q Hq. unfold tqubits. apply in_flat_map. exists (TQ q). split; [exact Hq|now left]. }
  destruct (in_flat i (sub_any nm a) m r r2 E5) as (op & A' & s1 & s2 & B' & Hop & E6 & -> & ->).
  unfold sub_any in E6. rewrite U in E6.
  assert (Self : [op] = s1 ++ i :: s2 -> one_data lay f).
  { intros K. assert (Ei : op = i) by (destruct s1 as [|? [|? ?]]; cbn [app] in K; [now injection K|discriminate|discriminate]). subst i. destruct (Hid op Hop) as (_ & _ & Nn). destruct Hf; try discriminate Nn. exact Logic.I. }
  destruct (op_strength nm op) as [p|]; [|left; now apply Self]. destruct ((iname op =? "MPP")%string && Qlt_bool 0 p) eqn:Bm; [|left; now apply Self].
  apply andb_prop in Bm as [Bm _]. apply String.eqb_eq in Bm. destruct (Lw op Hop) as [Lq Lp]. destruct (Lp Bm) as (prs & Et & Nq). rewrite Et, triples_pair_targets in E6.
  right. right.
  assert (Fm : forall l, flatten (flat_map (fun '(x, _, y) => parity_measurement_with_correlated_measurement_noise x y a p) (map (fun '(p1, q1, p2, q2) => (TP p1 q1, TComb, TP p2 q2)) l)) =
    flat_map (fun '(p1, q1, p2, q2) => both (TP p1 q1) (TP p2 q2) a ++ errors_i q1 q2 a p ++ [mkI "M" (qs [a]) []]) l).
  { clear. induction l as [|[[[p1 q1] p2] q2] l IH]; [reflexivity|]. cbn [map flat_map]. now rewrite flatten_app, parity_eq, IH. }
  rewrite Fm in E6. destruct (in_flat i _ prs s1 s2 E6) as ([[[p1 q1] p2] q2] & A2 & t1 & t2 & B2 & Hpr & E7 & -> & ->).
  destruct (app_split i t1 t2 _ _ E7) as [(u & E8 & ->)|(u & -> & E8)].
  { exfalso. assert (Hi : In i (both (TP p1 q1) (TP p2 q2) a)) by (rewrite E8; apply in_or_app; right; now left). exact (both_no_fault _ _ _ _ _ _ _ Hi Hf). }
  destruct (app_split i u t2 _ _ E8) as [(v & E9 & ->)|(v & -> & E9)].
  2:{ exfalso. destruct v as [|? [|? ?]]; cbn [app] in E9; try discriminate. injection E9 as E9 _. rewrite <- E9 in Hf. apply fault_source in Hf. destruct Hf; discriminate. }
  assert (Q : forall q, In q [q1; q2] -> (q < length (data_qubit_coords lay))%nat).
  { intros q Hq. apply Lq. rewrite Et. unfold tqubits, pair_targets. apply in_flat_map. destruct Hq as [<-|[<-|[]]].
    - exists (TP p1 q1). split; [|now left]. apply in_flat_map. exists (p1, q1, p2, q2). split; [exact Hpr|now left].
    - exists (TP p2 q2). split; [|now left]. apply in_flat_map. exists (p1, q1, p2, q2). split; [exact Hpr|right; right; now left]. }
  exists (A ++ pre ++ A' ++ A2 ++ both (TP p1 q1) (TP p2 q2) a), (((([mkI "M" (qs [a]) []] ++ B2) ++ B') ++ post) ++ B), u, v, q1, q2, a, p.
  split; [now rewrite <- !app_assoc|]. split; [now rewrite <- !app_assoc|]. split; [exact E9|]. split; [apply Q; now left|]. split; [apply Q; right; now left|].
  destruct (C32_honeycomb_ancilla_fresh lay c1 Hv Hs Est E1) as [Hanc _]. rewrite (Hanc a Ha). lia.
Qed.

(** ** Errors at the same place add up *)
Lemma struck_sum g l2 s z e1 e2 err sb st1 st2 st : sums s z s -> (forall x, err x = bxor (e1 x) (e2 x)) ->
  run g l2 s = Ok sb -> (forall j, nth j (fdets sb) false = false) -> (forall x, fobs sb x = false) ->
  run g l2 (strike e1 s) = Ok st1 -> run g l2 (strike e2 s) = Ok st2 -> run g l2 (strike err s) = Ok st ->
  fdets st = xors (fdets st1) (fdets st2) /\ forall x, fobs st x = xorb (fobs st1 x) (fobs st2 x).
Proof.
  intros Hz He Eb Db Ob R1 R2 R.
  assert (Gs : forall j, g j = xorb (g j) (still j)) by (intros j; unfold still; now rewrite xorb_false_r).
  assert (S1 : sums (strike e1 s) (strike e2 z) (strike err s)).
  { destruct Hz as (H1 & H). split; [|exact H]. intros x. cbn [strike with_fr fr]. rewrite He, (H1 x) at 1. destruct (fr s x) as [[] []], (fr z x) as [[] []], (e1 x) as [[] []], (e2 x) as [[] []]; reflexivity. }
  assert (S2 : sums s (strike e2 z) (strike e2 s)) by exact (happens_sum (Kick e2) 0 s z s Hz).
  destruct (run_sum g still g Gs l2 _ _ _ st1 S1 R1) as (w & c' & W & C & (_ & _ & (L1 & D1) & O1 & _)). rewrite R in C. injection C as <-.
  destruct (run_sum g still g Gs l2 _ _ _ sb S2 Eb) as (w' & c' & W' & C & (_ & _ & (L2 & D2) & O2 & _)). rewrite W in W'. injection W' as <-. rewrite R2 in C. injection C as <-.
  assert (Ew : fdets st2 = fdets w).
  { rewrite D2, xors_comm. apply xors_false; [now symmetry|]. apply Forall_forall. intros b Hb. destruct (In_nth _ _ false Hb) as (j & _ & <-). apply Db. }
  split; [now rewrite Ew|]. intros x. rewrite O1, O2, Ob. now rewrite xorb_false_l.
Qed.
Lemma product_at_app u v x : product_at (u ++ v) x = bxor (product_at u x) (product_at v x).
Proof.
  induction u as [|t u IH]; cbn [app product_at]; [destruct (product_at v x) as [[] []]; reflexivity|]. destruct t as [q|q|p q|]; auto. destruct (Nat.eqb q x); [|exact IH]. rewrite IH.
  destruct (pbits p) as [[] []], (product_at u x) as [[] []], (product_at v x) as [[] []]; reflexivity.
Qed.

(** ** Few detectors *)
Definition pair_at_most (lay : layout) (c : circuit) (l1 : list instr) (i : instr) (f : fault) (l2 : list instr) : Prop :=
  forall g f0, exists st, run_faulty g l1 i f l2 (start f0) = Ok st /\ forall side, (set_off lay c side st <= 2)%nat.
Lemma small_two lay c l1 i l2 f : valid lay -> supported_input lay -> generate_honeycomb_circuit lay = Ok c -> flatten c = l1 ++ i :: l2 -> fault_of i f -> one_data lay f \/ data_only lay f -> pair_at_most lay c l1 i f l2.
Proof.
  intros Hv Hs E El Hf Hob g f0. destruct (faulty_run lay c Hv Hs E) as [Ed K]. destruct (K l1 i l2 f El Hf g f0) as (st & X & Y & z & A0 & Er & Ht & H0 & Hd & Ho).
  exists st. split; [exact Er|]. intros side. unfold set_off. rewrite Hd, (filter_combine (fun d => eqb (watches lay d) side)), Ed.
  refine (record_two lay X Y _ _ z A0 side Hv Hs _ H0 Ht). tauto.
Qed.
Lemma block_cut l r1 i r2 : gates l = [] -> l = r1 ++ i :: r2 -> gates r1 = [] /\ gates [i] = [] /\ gates r2 = [].
Proof. intros G ->. change (i :: r2) with ([i] ++ r2) in G. rewrite !gates_app in G. apply app_eq_nil in G as [G1 G]. apply app_eq_nil in G as [G2 G3]. auto. Qed.
Lemma re_place (A B r1 r2 u1 u2 : list instr) i j : r1 ++ i :: r2 = u1 ++ j :: u2 -> (A ++ r1) ++ i :: (r2 ++ B) = (A ++ u1) ++ j :: (u2 ++ B).
Proof. intros H. rewrite <- !app_assoc. f_equal. rewrite !app_comm_cons, !app_assoc. now rewrite H. Qed.
Lemma block_run g A r1 i r2 B err st : gates r1 = [] -> gates [i] = [] -> gates r2 = [] ->
  run_faulty g (A ++ r1) i (Kick err) (r2 ++ B) st = let! s := run g (gates A) st in run g (gates B) (strike err s).
Proof.
  intros G1 G2 G3. unfold run_faulty. rewrite !gates_app, G1, G2, G3, app_nil_r. cbn [app]. destruct (run g (gates A) st) as [s|]; reflexivity.
Qed.
Theorem C79_decomposes : forall lay c, valid lay -> supported_input lay -> generate_honeycomb_circuit lay = Ok c ->
  forall l1 i l2 f, flatten c = l1 ++ i :: l2 -> fault_of i f ->
  pair_at_most lay c l1 i f l2 \/
  exists m1 j m2 fj n1 k n2 fk, flatten c = m1 ++ j :: m2 /\ fault_of j fj /\ pair_at_most lay c m1 j fj m2 /\
    flatten c = n1 ++ k :: n2 /\ fault_of k fk /\ pair_at_most lay c n1 k fk n2 /\
    forall g f0, exists st st1 st2, run_faulty g l1 i f l2 (start f0) = Ok st /\ run_faulty g m1 j fj m2 (start f0) = Ok st1 /\ run_faulty g n1 k fk n2 (start f0) = Ok st2 /\
      fdets st = xors (fdets st1) (fdets st2) /\ forall x, fobs st x = xorb (fobs st1 x) (fobs st2 x).
Proof.
  intros lay c Hv Hs E l1 i l2 f El Hf. destruct (String.eqb_spec (style lay) "EM3_v2") as [Est|Est].
  2:{ left. intros g f0. destruct (C79_at_most_two lay c Hv Hs E l1 i l2 f El Hf g f0) as (st & Er & _ & K). exists st. split; [exact Er|]. intros side. specialize (K side). apply String.eqb_neq in Est. now rewrite Est in K. }
  destruct (v2_place lay c Hv Hs E Est l1 i l2 f El Hf) as [Ho|[Ho|(A & B & r1 & r2 & q1 & q2 & a & p & -> & -> & Eb & Lq1 & Lq2 & La)]]; [left; apply small_two; auto|left; apply small_two; auto|].
  pose proof (gates_errors q1 q2 a p) as Gb. destruct (block_cut _ _ _ _ Gb Eb) as (G1 & G2 & G3).
  assert (Hi : In i (errors_i q1 q2 a p)) by (rewrite Eb; apply in_or_app; right; now left).
  apply in_map_iff in Hi as (ts & <- & Hts). assert (Hts' := Hts). apply filter_In in Hts as [Hts _]. apply in_flat_map in Hts as (x & Hx & Hts). apply in_flat_map in Hts as (y & Hy & Hts).
  apply in_map_iff in Hts as (m & <- & Hm).
  assert (Hf' : exists err, f = Kick err /\ forall z, err z = product_at (x ++ y ++ m) z) by (inversion Hf; eauto). destruct Hf' as (err & -> & He).
  assert (Qxy : forall pp q, In (TP pp q) (x ++ y) -> q = q1 \/ q = q2).
  { intros pp q Hin. apply in_app_or in Hin as [Hin|Hin]; [left; cbn in Hx|right; cbn in Hy]; repeat match goal with H : _ \/ _ |- _ => destruct H as [<-|H] | H : False |- _ => destruct H end; cbn in Hin; intuition congruence. }
  assert (Dxy : data_only lay (Kick (product_at (x ++ y)))).
  { apply (pair_data lay _ q1 q2 Hv Lq1 Lq2). intros z Hz. apply product_none. intros pp q Hin ->. apply Hz. destruct (Qxy _ _ Hin) as [->| ->]; [now left|right; now left]. }
  destruct Hm as [<-|[<-|[]]].
  { left. apply small_two; auto. right. intros z Hz. rewrite He, app_nil_r. now apply Dxy. }
  assert (Dm : forall q, isdata lay q -> product_at [TP PX a] (ix lay q) = bzero).
  { intros q Hq. apply product_none. intros pp q' [K|[]] K'. injection K as _ <-. subst a. apply La. apply (Prop_Noise3.ix_data lay Hv). now apply (in_data lay Hv). }
  assert (Om : one_data lay (Kick (product_at [TP PX a]))) by (exists (0, 0); intros q Hq _; now apply Dm).
  destruct (x ++ y) as [|t u] eqn:Exy.
  { left. apply small_two; auto. left. apply app_eq_nil in Exy as [-> ->]. exists (0, 0). intros q Hq _. rewrite He. now apply Dm. }
  right.
  assert (I1 : In (mkI "E" (t :: u) [Mix p 5]) (errors_i q1 q2 a p)).
  { apply (in_map (fun ts => mkI "E" ts [Mix p 5])). apply filter_In. split; [|reflexivity]. rewrite <- Exy. apply in_flat_map. exists x. split; [exact Hx|]. apply in_flat_map. exists y. split; [exact Hy|]. apply in_map_iff. exists []. split; [now rewrite app_nil_r|now left]. }
  assert (I2 : In (mkI "E" [TP PX a] [Mix p 5]) (errors_i q1 q2 a p)).
  { apply (in_map (fun ts => mkI "E" ts [Mix p 5])). apply filter_In. split; [|reflexivity]. apply in_flat_map. exists []. split; [now left|]. apply in_flat_map. exists []. split; [now left|]. right. now left. }
  apply in_split in I1 as (u1 & u2 & E1). apply in_split in I2 as (v1 & v2 & E2).
  destruct (block_cut _ _ _ _ Gb E1) as (F1 & F2 & F3). destruct (block_cut _ _ _ _ Gb E2) as (H1 & H2 & H3).
  assert (P1 : flatten c = (A ++ u1) ++ mkI "E" (t :: u) [Mix p 5] :: (u2 ++ B)).
  { rewrite El. apply re_place. exact (eq_trans (eq_sym Eb) E1). }
  assert (P2 : flatten c = (A ++ v1) ++ mkI "E" [TP PX a] [Mix p 5] :: (v2 ++ B)).
  { rewrite El. apply re_place. exact (eq_trans (eq_sym Eb) E2). }
  assert (J1 : fault_of (mkI "E" (t :: u) [Mix p 5]) (Kick (product_at (t :: u)))) by now apply fault_e.
  assert (J2 : fault_of (mkI "E" [TP PX a] [Mix p 5]) (Kick (product_at [TP PX a]))) by now apply fault_e.
  assert (S1 := small_two lay c _ _ _ _ Hv Hs E P1 J1 (or_intror Dxy)). assert (S2 := small_two lay c _ _ _ _ Hv Hs E P2 J2 (or_introl Om)).
  exists (A ++ u1), (mkI "E" (t :: u) [Mix p 5]), (u2 ++ B), (Kick (product_at (t :: u))), (A ++ v1), (mkI "E" [TP PX a] [Mix p 5]), (v2 ++ B), (Kick (product_at [TP PX a])).
  do 6 (split; [assumption|]). intros g f0.
  destruct (C79_at_most_two lay c Hv Hs E _ _ _ _ El Hf g f0) as (st & Er & _). destruct (S1 g f0) as (st1 & Er1 & _). destruct (S2 g f0) as (st2 & Er2 & _).
  exists st, st1, st2. do 3 (split; [assumption|]).
  rewrite block_run in Er by assumption. rewrite block_run in Er1 by assumption. rewrite block_run in Er2 by assumption.
  destruct (clean_run lay c Hv Hs E g f0) as (sb & Rb & _ & Db & Ob). rewrite El, !gates_app in Rb. change (mkI "E" (x ++ y ++ [TP PX a]) [Mix p 5] :: r2 ++ B) with ([mkI "E" (x ++ y ++ [TP PX a]) [Mix p 5]] ++ r2 ++ B) in Rb.
  rewrite !gates_app, G1, G2, G3, app_nil_r in Rb. cbn [app] in Rb. rewrite run_app in Rb. destruct (run g (gates A) (start f0)) as [s|] eqn:Rs; [|discriminate]. cbn [bind] in Er, Er1, Er2, Rb.
  assert (Gs : forall j, g j = xorb (g j) (still j)) by (intros j; unfold still; now rewrite xorb_false_r).
  assert (S0 : sums (start f0) (start (fun _ => bzero)) (start f0)) by (apply sums_clean; [apply zero_clean|reflexivity|reflexivity|reflexivity]).
  destruct (run_sum g still g Gs (gates A) _ _ _ s S0 Rs) as (z & s' & _ & Rs' & Sz). rewrite Rs in Rs'. injection Rs' as <-.
  refine (struck_sum g (gates B) s z (product_at (t :: u)) (product_at [TP PX a]) err sb st1 st2 st Sz _ Rb Db Ob Er1 Er2 Er).
  intros w. rewrite He, app_assoc, Exy. apply product_at_app.
Qed.
Print Assumptions C79_decomposes.
(** The error of [C79_two_refuted], with four detectors on one side, and the two errors it is made of, with two each. *)
Example C79_decomposes_example :
  (exists args, nth 61 (written strong) noop = mkI "E" [TP PZ 21; TP PZ 3; TP PX 24] args /\ nth 60 (written strong) noop = mkI "E" [TP PZ 21; TP PZ 3] args /\ nth 31 (written strong) noop = mkI "E" [TP PX 24] args) /\
  tally strong 61 (product_at [TP PZ 21; TP PZ 3; TP PX 24]) = Some (4%nat, 0%nat, false) /\
  tally strong 60 (product_at [TP PZ 21; TP PZ 3]) = Some (2%nat, 0%nat, false) /\
  tally strong 31 (product_at [TP PX 24]) = Some (2%nat, 0%nat, false).
Proof. split; [vm_compute; eexists; repeat split|]. split; [exact strong_tally|split]; vm_compute; reflexivity. Qed.
