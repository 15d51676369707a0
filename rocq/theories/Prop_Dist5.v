(** C81, continued: half the distance is also enough in the style EM3_v2, where a pair
    measurement is replaced by gates on an extra qubit with correlated errors. *)
From Coq Require Import QArith.
From Verif Require Import Prelude Layout LayoutFacts LayoutEdges LayoutLists LayoutHex LayoutHex2 LayoutIndex Pauli LayoutObs LayoutLogic Tracker TrackerFacts Stim Circuit Noise Annot Shift Ends Gen Gen2 Gen3 Traj Eval Frame Exec Exec2 Exec3 Exec4 Moments NoiseFacts NoiseMoments NoiseCorr NoiseAlign GenShape Prop_Circuit Prop_Noise Prop_Noise2 Prop_Noise3
  Detectors Struct Struct2 Struct3 Distance2 FaultSpec FaultQuiet FaultCore FaultObs FaultStep FaultInv FaultZ FaultInj FaultNoise FaultChain FaultEm3 FaultEnd FaultRun FaultCount FaultLin FaultLine FaultDist FaultTilt FaultReach FaultFinal FaultPairs Prop_Fault Prop_Match Prop_Dist Prop_Distance Prop_Dist2 Prop_Dist3 Prop_Dist4.
Open Scope Z_scope.

(** ** Lemmas *)
Lemma errors_sum g lf : forall a b c a', sums a b c -> run g (gates (map fst lf)) a = Ok a' -> exists b' c', run_errors still lf b = Ok b' /\ run_errors g lf c = Ok c' /\ sums a' b' c'.
Proof.
  induction lf as [|[i fs] lf IH]; intros a b c a' HS R; [injection R as <-; exists b, c; auto|]. cbn [map fst] in R. change (i :: map fst lf) with ([i] ++ map fst lf) in R. rewrite gates_app, run_app in R.
  destruct (run g (gates [i]) a) as [a1|] eqn:R1; [|discriminate]. cbn [bind] in R. destruct (run_sum g still g) with (l := gates [i]) (a := a) (b := b) (c := c) (a' := a1) as (b1 & c1 & Rb & Rc & S1);
    [intros j; unfold still; now rewrite xorb_false_r | exact HS | exact R1 |].
  cbn [run_errors]. rewrite Rb, Rc. cbn [bind]. replace (length (frec c)) with (length (frec b)) by (destruct (sums_same _ _ _ HS) as (K & _); destruct HS as (_ & (L & _) & _); congruence).
  apply (IH a1); [|exact R]. exact (after_sum a1 (length (frec b)) fs b1 c1 S1).
Qed.
Lemma no_errors g lf : error_count lf = 0%nat -> forall st, run_errors g lf st = run g (gates (map fst lf)) st.
Proof.
  unfold error_count. induction lf as [|[i fs] lf IH]; intros H st; [reflexivity|]. cbn [flat_map snd] in H. destruct fs as [|f fs]; [|discriminate]. cbn [app] in H. cbn [map fst run_errors]. change (i :: map fst lf) with ([i] ++ map fst lf).
  rewrite gates_app, run_app. destruct (run g (gates [i]) st) as [s|]; [|reflexivity]. cbn [bind fold_left]. now apply IH.
Qed.
Lemma errors_app a b la lb : errors_of a la -> errors_of b lb -> errors_of (a ++ b) (la ++ lb) /\ error_count (la ++ lb) = (error_count la + error_count lb)%nat.
Proof.
  intros [A1 A2] [B1 B2]. split; [split|].
  - rewrite map_app. congruence.
  - intros i fs f Hi. apply in_app_or in Hi. destruct Hi as [Hi|Hi]; [now apply A2 | now apply B2].
  - unfold error_count. now rewrite flat_map_app, app_length.
Qed.
Lemma errors_plain a : errors_of a (map (fun i => (i, [])) a) /\ error_count (map (fun i => (i, [])) a) = 0%nat.
Proof.
  split; [split|].
  - rewrite map_map. apply map_id.
  - intros i fs f Hi Hf. apply in_map_iff in Hi. destruct Hi as (x & Q & _). injection Q as <- <-. destruct Hf.
  - unfold error_count. induction a; auto.
Qed.
Lemma run_tickless g t r st : is_tick t = true -> run g (gates (t :: r)) st = run g (gates r) st.
Proof. intros Ht. unfold gates. cbn [filter]. destruct (negb (is_noise t)); [|reflexivity]. cbn [run]. now rewrite run_tick. Qed.
(** the replacement of a pair measurement, nothing random, with an error on the pair *)
Lemma gadget_still p q1 q2 a st err : q1 <> q2 -> q1 <> a -> q2 <> a -> only [q1; q2] err ->
  let s2 := do_measure still (strike err (with_fr (do_reset still PZ st a) (ap2 p PX (ap2 p PX (fr (do_reset still PZ st a)) q1 a) q2 a))) [(PZ, a)] in
  frec s2 = frec st ++ [xorb (anti2 (pbits p) (fr st q1)) (anti2 (pbits p) (fr st q2))] /\ (forall x, x <> a -> fr s2 x = bxor (fr st x) (err x)) /\ fdets s2 = fdets st /\ fobs s2 = fobs st.
Proof.
  intros N0 N1 N2 Ho s2. assert (Ea : err a = bzero) by (apply Ho; cbn; intuition).
  destruct (gadget_state still p q1 q2 a st (strike err (with_fr (do_reset still PZ st a) (ap2 p PX (ap2 p PX (fr (do_reset still PZ st a)) q1 a) q2 a))) err N0 N1 N2) as (F1 & _ & F3); [intros x Hx; apply Ho; cbn in *; tauto | reflexivity | reflexivity |].
  fold s2 in F1, F3. rewrite Ea in F1. split; [rewrite F1; cbn [anti2 pbits bzero]; f_equal; f_equal; now rewrite xorb_false_r || reflexivity|]. split; [|split; reflexivity].
  intros x Hx. apply Nat.eqb_neq in Hx. assert (Hx' : Nat.eqb a x = false) by (rewrite Nat.eqb_sym; exact Hx).
  assert (M0 : Nat.eqb q1 q2 = false) by (now apply Nat.eqb_neq). assert (M0' : Nat.eqb q2 q1 = false) by (apply Nat.eqb_neq; congruence).
  assert (M1 : Nat.eqb a q1 = false) by (apply Nat.eqb_neq; congruence). assert (M2 : Nat.eqb a q2 = false) by (apply Nat.eqb_neq; congruence).
  assert (M1' : Nat.eqb q1 a = false) by (apply Nat.eqb_neq; congruence). assert (M2' : Nat.eqb q2 a = false) by (apply Nat.eqb_neq; congruence).
  unfold s2, do_measure, strike, do_reset, with_fr, ap2, ap1, still. cbn [fr fold_left fst snd bsel fgi]. rewrite ?Hx, ?Hx', ?Nat.eqb_refl, ?M0, ?M0', ?M1, ?M2, ?M1', ?M2'.
  destruct (Nat.eqb_spec x q1) as [K1|K1], (Nat.eqb_spec x q2) as [K2|K2]; try congruence; subst; rewrite ?M0, ?M0';
    try destruct (fr st q1) as [[] []]; try destruct (fr st q2) as [[] []]; try destruct p; try reflexivity; try (destruct (fr st x) as [[] []]; reflexivity).
Qed.

Section S.
  Variable lay : layout.
  Hypothesis Hv : valid lay.
  Hypothesis Hobs : obs lay = "V"%string \/ obs lay = "H"%string.
  Hypothesis Hs : supported lay.
  Hypothesis Hem : is_em3 (style lay) = true.
  Hypothesis Hn : 2 <= sub_rounds lay.
  Notation E := (round_edges lay).
  Notation zk := Z.of_nat.
  Notation n := (sub_rounds lay).
  Notation N := (Z.to_nat n).
  Notation ne := (length (round_edges lay 0)).
  Notation D := (data_qubit_coords lay).
  Notation trk := (Shift.trk lay (tr0 lay)).
  Notation annk := (Shift.annk lay (tr0 lay)).
  Notation ix := (ix lay).
  Local Opaque data_qubit_coords measure_qubit_coords q2i_dict hex_entries hexes round_edges all_edges isort.

  Definition agrees (M : nat) (st : fstate) (e : edge) : Prop := xorb (anti2 (pbits (xyz (zk M))) (fr st (ix (e_left e)))) (anti2 (pbits (xyz (zk M))) (fr st (ix (e_right e)))) = false.
  Definition struck_pair (e : edge) : nat -> bits := both_at (what lay) (ix (e_left e)) (what lay) (ix (e_right e)).
  Definition unread (s s' : fstate) (k : nat) : Prop := frec s' = frec s ++ repeat false k /\ fdets s' = fdets s /\ fobs s' = fobs s.
  Lemma one_piece M e a p (h : bool) : In e (E (zk M)) -> (forall q, isdata lay q -> ix q <> a) ->
    exists lf, errors_of (piece lay M e a p) lf /\ error_count lf = (if h then 1 else 0)%nat /\
    forall st, agrees M st e -> exists st', run_errors still lf st = Ok st' /\ unread st st' 1 /\ forall x, x <> a -> fr st' x = bxor (fr st x) (if h then struck_pair e x else bzero).
  Proof.
    intros He Ha. destruct (round_edge_facts lay Hv _ e He) as (Q1 & Q2 & P1 & P2 & _). set (q1 := ix (e_left e)). set (q2 := ix (e_right e)).
    assert (N0 : q1 <> q2). { intros K. apply (ix_inj lay Hv _ _ (data_in_qubits lay Hv _ Q1) (data_in_qubits lay Hv _ Q2)) in K. rewrite K in P1. congruence. }
    assert (N1 : q1 <> a) by now apply Ha. assert (N2 : q2 <> a) by now apply Ha.
    unfold piece. rewrite parity_eq. fold q1 q2. set (b := both (TP (xyz (zk M)) q1) (TP (xyz (zk M)) q2) a).
    assert (Gb : gates b = b) by apply both_gates. assert (Rb := fun st => run_both still (xyz (zk M)) q1 (xyz (zk M)) q2 a st N1 N2). fold b in Rb.
    assert (Ni : forall j, In j (errors_i q1 q2 a p) -> is_noise j = true) by (intros j Hj; apply in_map_iff in Hj; now destruct Hj as (ts & <- & _)).
    destruct h.
    - assert (Hi : In (mkI "E" [TP (what lay) q1; TP (what lay) q2] [Mix p 5]) (errors_i q1 q2 a p)).
      { unfold errors_i. apply (in_map (fun ts => mkI "E" ts [Mix p 5])). unfold correlated_errors. apply filter_In. split; [|reflexivity]. apply in_flat_map. exists [TP (what lay) q1]. split; [destruct (what lay); cbn; tauto|].
        apply in_flat_map. exists [TP (what lay) q2]. split; [destruct (what lay); cbn; tauto|]. cbn. now left. }
      set (i := mkI "E" _ _) in Hi. apply in_split in Hi. destruct Hi as (r1 & r2 & Er).
      assert (Hf : fault_of i (Kick (struck_pair e))).
      { apply fault_e. intros x. unfold struck_pair, both_at. fold q1 q2. cbn [product_at]. rewrite (Nat.eqb_sym q1 x), (Nat.eqb_sym q2 x). destruct (Nat.eqb_spec x q1) as [->|_]; [apply Nat.eqb_neq in N0; rewrite N0; now rewrite bxor_zero_r|]. destruct (Nat.eqb x q2); [now rewrite bxor_zero_r | reflexivity]. }
      rewrite Er. replace (b ++ (r1 ++ i :: r2) ++ [mkI "M" (qs [a]) []]) with ((b ++ r1) ++ i :: (r2 ++ [mkI "M" (qs [a]) []])) by (rewrite <- !app_assoc; reflexivity).
      destruct (at_one_errors (b ++ r1) i [Kick (struck_pair e)] (r2 ++ [mkI "M" (qs [a]) []])) as [Her Hsnd]; [intros f [<-|[]]; exact Hf|].
      exists (at_one (b ++ r1) i [Kick (struck_pair e)] (r2 ++ [mkI "M" (qs [a]) []])). split; [exact Her|]. split; [unfold error_count; now rewrite Hsnd|].
      intros st Hag. destruct (gadget_still (xyz (zk M)) q1 q2 a st (struck_pair e) N0 N1 N2 (only_both _ _ _ _)) as (F1 & F2 & F3 & F4).
      eexists. split; [|split; [split; [|split; [exact F3 | exact F4]]|exact F2]].
      + unfold at_one. rewrite run_errors_app, run_plain, gates_app, Gb, (gates_noise r1) by (intros j Hj; apply Ni; rewrite Er; apply in_or_app; now left). rewrite app_nil_r, Rb. cbn [bind run_errors]. change (gates [i]) with (@nil instr). cbn [run bind].
        rewrite run_plain, gates_app, (gates_noise r2) by (intros j Hj; apply Ni; rewrite Er; apply in_or_app; right; now right). cbn [app fold_left happens]. apply run_M1.
      + rewrite F1. unfold agrees in Hag. fold q1 q2 in Hag. now rewrite Hag.
    - destruct (errors_plain (b ++ errors_i q1 q2 a p ++ [mkI "M" (qs [a]) []])) as [Her Hc]. eexists. split; [exact Her|]. split; [exact Hc|]. intros st Hag.
      destruct (gadget_still (xyz (zk M)) q1 q2 a st (fun _ => bzero) N0 N1 N2 (fun x _ => eq_refl)) as (F1 & F2 & F3 & F4).
      set (s0 := with_fr (do_reset still PZ st a) (ap2 (xyz (zk M)) PX (ap2 (xyz (zk M)) PX (fr (do_reset still PZ st a)) q1 a) q2 a)) in *.
      exists (do_measure still s0 [(PZ, a)]). split; [|split; [split; [|split]|]].
      + rewrite run_plain, !gates_app, Gb, (gates_noise (errors_i _ _ _ _) Ni), run_app, Rb. cbn [bind app]. apply run_M1.
      + unfold agrees in Hag. fold q1 q2 in Hag. rewrite Hag in F1. cbn [repeat]. rewrite <- F1. unfold do_measure, strike, with_fr. cbn [frec]. f_equal. f_equal. unfold xsum. cbn [fold_right fst snd fr]. now rewrite bxor_zero_r.
      + exact F3.
      + exact F4.
      + intros x Hx. rewrite <- (F2 x Hx). unfold do_measure, strike, with_fr. cbn [fr fold_left fst snd bsel]. unfold ap1. destruct (Nat.eqb x a); now rewrite ?bxor_zero_r, ?bxor_zero_l.
  Qed.
  Lemma ends_cons e l : ends (e :: l) = e_left e :: e_right e :: ends l.
  Proof. reflexivity. Qed.
  Lemma struck_bsel e x : ix (e_left e) <> ix (e_right e) -> struck_pair e x = bsel (xorb (Nat.eqb x (ix (e_left e))) (Nat.eqb x (ix (e_right e)))) (pbits (what lay)).
  Proof. intros K. unfold struck_pair, both_at. destruct (Nat.eqb_spec x (ix (e_left e))) as [K1|K1], (Nat.eqb_spec x (ix (e_right e))) as [K2|K2]; try reflexivity. congruence. Qed.
  Lemma all_pieces M a p (h : edge -> bool) r : incl r (E (zk M)) -> NoDup (map ix (ends r)) -> (forall q, isdata lay q -> ix q <> a) ->
    exists lf, errors_of (flat_map (fun e => piece lay M e a p) r) lf /\ error_count lf = length (filter h r) /\
    forall st, (forall e, In e r -> agrees M st e) -> exists st', run_errors still lf st = Ok st' /\ unread st st' (length r) /\
      forall x, x <> a -> fr st' x = bxor (fr st x) (bsel (xsum (fun q => Nat.eqb x (ix q)) (ends (filter h r))) (pbits (what lay))).
  Proof.
    intros Hr Hd Ha. induction r as [|e r IH].
    - exists []. split; [split; [reflexivity | intros ? ? ? []]|]. split; [reflexivity|]. intros st _. exists st. split; [reflexivity|]. split; [split; [cbn; now rewrite app_nil_r | auto]|]. intros x _. cbn. now rewrite bxor_zero_r.
    - assert (He : In e (E (zk M))) by (apply Hr; now left). rewrite ends_cons in Hd. cbn [map] in Hd. inversion Hd as [|? ? H1 Hd1]; subst. inversion Hd1 as [|? ? H2 Hd2]; subst.
      destruct (IH (fun x Hx => Hr x (or_intror Hx)) Hd2) as (lf & L1 & L2 & L3). destruct (one_piece M e a p (h e) He Ha) as (le & M1 & M2 & M3).
      destruct (errors_app _ _ _ _ M1 L1) as [Her Hc]. exists (le ++ lf). split; [exact Her|]. split; [rewrite Hc, M2, L2; cbn [filter]; destruct (h e); reflexivity|].
      intros st Hag. destruct (M3 st (Hag e (or_introl eq_refl))) as (s1 & R1 & (U1 & U2 & U3) & F1).
      destruct (round_edge_facts lay Hv _ e He) as (Q1 & Q2 & _).
      destruct (L3 s1) as (s2 & R2 & (V1 & V2 & V3) & F2).
      { intros e' He'. destruct (round_edge_facts lay Hv _ e' (Hr e' (or_intror He'))) as (Q1' & Q2' & _).
        assert (K : forall q, isdata lay q -> In q (ends r) -> fr s1 (ix q) = fr st (ix q)).
        { intros q Hq Hin. rewrite F1 by now apply Ha. destruct (h e); [|now rewrite bxor_zero_r]. unfold struck_pair, both_at. apply (in_map ix) in Hin. cbn [In] in H1.
          destruct (Nat.eqb_spec (ix q) (ix (e_left e))) as [K|_]; [exfalso; apply H1; right; now rewrite <- K|]. destruct (Nat.eqb_spec (ix q) (ix (e_right e))) as [K|_]; [exfalso; apply H2; now rewrite <- K|]. now rewrite bxor_zero_r. }
        unfold agrees. rewrite !K; [exact (Hag e' (or_intror He')) | exact Q2' | | exact Q1' |]; unfold ends; apply in_flat_map; exists e'; (split; [exact He' | cbn; tauto]). }
      exists s2. split; [rewrite run_errors_app, R1; exact R2|]. split; [split; [rewrite V1, U1, <- app_assoc; reflexivity | split; congruence]|].
      intros x Hx. rewrite F2, F1 by exact Hx. rewrite <- bxor_assoc. f_equal. cbn [filter]. destruct (h e); [|apply bxor_zero_l]. rewrite ends_cons, !xsum_cons, struck_bsel by (intros K; apply H1; left; now symmetry). rewrite <- bsel_xorb. f_equal. apply xorb_assoc.
  Qed.

  (** the noisy moments *)
  Variable nm : noise_model.
  Variable p : Q.
  Hypothesis Uc : use_correlated nm = true.
  Hypothesis Es : forall k, op_strength nm (mpp_i lay k) = Ok p.
  Hypothesis Pp : Qlt_bool 0 p = true.
  Variable An : nat -> Prop.
  Hypothesis Ha : forall a, An a -> forall q, isdata lay q -> ix q <> a.
  Lemma sub_mpp a k : sub_any nm a (mpp_i lay k) = flat_map (fun e => piece lay k e a p) (E (zk k)).
  Proof.
    unfold sub_any. rewrite Es, Pp, Uc. cbn [mpp_i iname String.eqb Ascii.eqb Bool.eqb andb].
    assert (Et : forall l, triples (flat_map (fun e => [TP (xyz (zk k)) (ix (e_left e)); TComb; TP (xyz (zk k)) (ix (e_right e))]) l) = Some (map (fun e => (TP (xyz (zk k)) (ix (e_left e)), TComb, TP (xyz (zk k)) (ix (e_right e)))) l)).
    { induction l as [|e l IH]; [reflexivity|]. cbn [flat_map app map triples]. now rewrite IH. }
    unfold mpp_i, mpp_targets. cbn [itargets]. rewrite Et. generalize (E (zk k)). intros l. induction l as [|e l IH]; [reflexivity|]. cbn [map flat_map]. rewrite flatten_app, IH. reflexivity.
  Qed.
  Lemma sub_other a l : (forall op, In op l -> iname op <> "MPP"%string) -> flat_map (sub_any nm a) l = l.
  Proof.
    induction l as [|i l IH]; intros H; [reflexivity|]. cbn [flat_map]. rewrite IH by (intros; apply H; now right). unfold sub_any. destruct (op_strength nm i); [|reflexivity]. destruct (String.eqb_spec (iname i) "MPP") as [K|_]; [|reflexivity]. exfalso. exact (H i (or_introl eq_refl) K).
  Qed.
  Lemma ann_other k op : In op (annk k) -> iname op <> "MPP"%string.
  Proof. intros H. apply (proj1 (Forall_forall _ _) (calm_annk lay k)) in H. destruct H as (K & _). exact K. Qed.
  Lemma gates_ann k : gates (annk k) = annk k.
  Proof.
    unfold gates. apply filter_all. intros i Hi. apply (proj1 (Forall_forall _ _) (quiet_annk lay k)) in Hi. unfold quiet, is_noise in *. cbn [In] in Hi. 
    apply negb_true_iff. apply not_true_is_false. intros K. apply existsb_exists in K. destruct K as (x & Hx & Ex). apply String.eqb_eq in Ex. subst x. cbn [In] in Hx. destruct Hx as [K|[K|[K|[K|[K|[]]]]]]; rewrite <- K in Hi; cbn in Hi; intuition discriminate.
  Qed.
  Definition round_moment (k : nat) : list instr := mpp_i lay k :: annk k.
  Lemma NoDup_ix_ends r : NoDup (map ix (ends (E r))).
  Proof.
    replace (map ix (ends (E r))) with (flat_map (fun e => [ix (e_left e); ix (e_right e)]) (E r)); [now apply NoDup_lr|]. induction (E r) as [|e l IH]; [reflexivity|]. rewrite ends_cons. cbn [flat_map app map]. now rewrite IH.
  Qed.
  Lemma noisy_round k out st st' : (when lay <= zk k < n) -> noise_rel nm An (round_moment k) out -> run still (gates out) st = Ok st' -> marked lay st -> marked lay st' /\ frec st' = frec st ++ repeat false ne.
  Proof.
    intros Hk (_ & a & HA & pre & post & -> & H1 & H2) R Mk. rewrite !gates_app, (gates_noise pre), (gates_noise post), app_nil_r in R by (intros i H; (apply (H1 i H) || apply (H2 i H))). cbn [app] in R.
    unfold round_moment in R. cbn [flat_map] in R. rewrite sub_mpp, (sub_other a (annk k)), gates_app, gates_ann, run_app in R by apply ann_other.
    destruct (all_pieces k a p (fun _ => false) (E (zk k)) (incl_refl _) (NoDup_ix_ends _) (Ha a HA)) as (lf & [L1 _] & L2 & L3).
    destruct (L3 st) as (s1 & R1 & (U1 & _) & F1); [intros e He; now apply (commutes_here lay Hv Hobs k st e)|].
    assert (F0 : filter (fun _ : edge => false) (E (zk k)) = []) by (clear; induction (E (zk k)) as [|x l IH]; [reflexivity | exact IH]). rewrite F0 in L2, F1. rewrite (no_errors still lf L2), L1 in R1. rewrite R1 in R. cbn [bind] in R.
    apply quiet_run in R; [|apply quiet_annk]. destruct R as [E1 E2]. split.
    - intros q Hq. rewrite E1, F1 by now apply (Ha a HA). cbn. rewrite bxor_zero_r. now apply Mk.
    - rewrite E2, U1. now rewrite (length_E lay Hv).
  Qed.
  Lemma noisy_rounds m : forall k outs st st', Forall2 (noise_rel nm An) (map round_moment (seq k m)) outs -> run still (gates (concat outs)) st = Ok st' -> when lay <= zk k -> zk k + zk m <= n -> marked lay st ->
    marked lay st' /\ frec st' = frec st ++ repeat false (m * ne).
  Proof.
    induction m as [|m IH]; intros k outs st st' F R Hk Hm Mk; cbn [seq map] in F; inversion F as [|? out ? outs' F1 F2]; subst.
    - injection R as <-. split; [exact Mk | cbn; now rewrite app_nil_r].
    - cbn [concat] in R. rewrite gates_app, run_app in R. destruct (run still (gates out) st) as [s|] eqn:R1; [|discriminate]. cbn [bind] in R.
      assert (Hk' : when lay <= zk k < n) by lia. destruct (noisy_round k out st s Hk' F1 R1 Mk) as [M1 E1]. destruct (IH (S k) outs' s st' F2 R) as [M2 E2]; [lia | lia | exact M1 |]. split; [exact M2|]. rewrite E2, E1, <- app_assoc, <- repeat_app. reflexivity.
  Qed.
  Lemma noisy_other ms outs : (forall m op, In m ms -> In op m -> iname op <> "MPP"%string) -> Forall2 (noise_rel nm An) ms outs -> forall st, run still (gates (concat outs)) st = run still (gates (concat ms)) st.
  Proof.
    intros H F. revert H. induction F as [|m out ms outs (Hi & a & _ & pre & post & -> & H1 & H2) F IH]; intros H st; [reflexivity|]. cbn [concat].
    assert (K : gates (pre ++ flat_map (sub_any nm a) m ++ post) = gates m).
    { rewrite !gates_app, (gates_noise pre), (gates_noise post), app_nil_r by (intros i Hx; (apply (H1 i Hx) || apply (H2 i Hx))). now rewrite (sub_other a m) by (intros op; apply H; now left). }
    rewrite (gates_app (pre ++ _)), (gates_app m), K, !run_app. destruct (run still (gates m) st) as [s|]; [|reflexivity]. cbn [bind]. apply IH. intros m' op Hm. apply H. now right.
  Qed.

  (** what is left of the chain at the end *)
  Lemma record_end L1 l2 z k st rest : detectors 0 0 0 0 (gates L1 ++ gates l2) = detectors 0 0 0 0 (circuit_i lay) -> (forall x, includes x 0 (gates L1 ++ gates l2) = includes x 0 (circuit_i lay)) ->
    measurements (gates L1 ++ gates l2) = measurements (circuit_i lay) ->
    run still (gates L1) (start (fun _ => bzero)) = Ok z -> clean z -> frec k = frec z -> fdets k = fdets z -> fobs k = fobs z ->
    run still (gates l2) k = Ok st -> frec st = rest ++ map (fun q => cmem q (pchain lay)) D -> Forall (fun b => b = false) rest ->
    (forall j, nth j (fdets st) false = false) /\ forall x, fobs st x = mine lay x true.
  Proof.
    intros Ed Ei Em Rz (C1 & C2 & C3 & C4) A1 A2 A3 R Ef Hrest.
    destruct (run_detectors still _ _ _ 0 0 0 Rz) as (r1 & B1 & B2 & _). cbn [start frec app] in B1.
    assert (Lz : length rest = (N * ne)%nat /\ (length (frec z) <= N * ne + length D)%nat).
    { destruct (run_detectors still _ _ _ 0 0 0 R) as (r2 & G1 & G2 & _). rewrite (circuit_measurements lay Hv Hs), measurements_app in Em. rewrite A1 in G1. rewrite G1 in Ef. apply (f_equal (@length bool)) in Ef. rewrite !app_length, map_length in Ef. rewrite B1 in *. lia. }
    destruct Lz as [Lz _]. set (B := fun j => nth j (frec st) false).
    assert (HB : forall j, (j < N * ne)%nat -> B j = false).
    { intros j Hj. unfold B. rewrite Ef, app_nth1 by lia. rewrite Forall_forall in Hrest. apply Hrest, nth_In. lia. }
    assert (HD : forall q, In q D -> dat lay B q = cmem q (pchain lay)).
    { intros q Hq. unfold dat, B. rewrite Ef, app_nth2, Lz by lia. replace (N * ne + index cpx_eqb q D - N * ne)%nat with (index cpx_eqb q D) by lia. apply (nth_index cpx_eqb cpx_eqb_eq (fun q => cmem q (pchain lay))). exact Hq. }
    split.
    - destruct (detectors_app (gates L1) 0 0 0 0) as (x & y & t & Q1). rewrite Q1 in Ed. cbn [Nat.add] in Ed. rewrite <- B2 in Ed.
      destruct (run_detectors still _ _ _ x y t R) as (r2 & _ & _ & Dt & _). rewrite A1, A2, B1 in Dt. intros j. rewrite Dt.
      destruct (Nat.lt_ge_cases j (length (fdets z))) as [L|L]; [rewrite app_nth1 by exact L; rewrite Forall_forall in C3; now apply C3, nth_In|]. rewrite app_nth2 by exact L.
      set (j' := (j - length (fdets z))%nat). destruct (nth_in_or_default j' (map (fun d => xsum (fun j0 => nth j0 (frec st) false) (d_meas d)) (detectors x y t (length r1) (gates l2))) false) as [K| ->]; [|reflexivity].
      apply in_map_iff in K. destruct K as (d & Ed' & Hd). rewrite <- Ed'. apply (any_silent lay Hv Hobs Hs (pchain lay) (pchain_edge lay Hv Hobs) (pchain_hex lay Hv Hobs) B HB HD). rewrite <- Ed. apply in_or_app. now right.
    - intros x. specialize (Ei x). rewrite includes_app in Ei. cbn [Nat.add] in Ei. rewrite <- B2 in Ei.
      destruct (run_includes still x _ _ _ R) as [I1 _]. rewrite A1, A3, B1, C4, xorb_false_l in I1. rewrite I1. change (fun j : nat => nth j (frec st) false) with B.
      pose proof (circuit_includes lay Hv Hobs B x Hs) as CI. rewrite <- Ei, xsum_app, (any_effect lay Hv Hobs (pchain lay) (pchain_flips lay Hv Hobs) B HB HD) in CI. rewrite <- CI.
      rewrite (xsum_false _ (includes x 0 (gates L1))); [now rewrite xorb_false_l|]. intros j Hj. destruct (run_includes still x _ _ _ Rz) as [_ I2]. cbn [start frec length] in I2. specialize (I2 j Hj).
      destruct (run_detectors still _ _ _ 0 0 0 R) as (r2 & G1 & _). unfold B. rewrite G1, A1, app_nth1 by exact I2. rewrite Forall_forall in C2. now apply C2, nth_In.
  Qed.
End S.

Lemma clean_prefix g l f0 s1 : run g (gates l) (start f0) = Ok s1 -> exists z, run still (gates l) (start (fun _ => bzero)) = Ok z /\ FaultLin.clean z.
Proof.
  intros R1. destruct (run_sum g still g) with (l := gates l) (a := start f0) (b := start (fun _ => bzero)) (c := start f0) (a' := s1) as (z & s1' & Rz & R1' & S1);
    [intros j; unfold still; now rewrite xorb_false_r | apply sums_clean; [exact zero_clean | reflexivity | reflexivity | reflexivity] | exact R1 |].
  destruct (run_sum still still still) with (l := gates l) (a := start (fun _ => bzero)) (b := start (fun _ => bzero)) (c := start (fun _ => bzero)) (a' := z) as (z2 & z3 & Rz2 & Rz3 & S2); [reflexivity | apply clean_sums, zero_clean | exact Rz |].
  assert (z2 = z) by congruence. assert (z3 = z) by congruence. subst z2 z3. apply clean_sums in S2. eauto.
Qed.
Lemma round_moments lay k m x : is_em3 (style lay) = true -> moments [] (flat_map (em3_i lay) (seq k m) ++ x) = map (round_moment lay) (seq k m) ++ moments [] x.
Proof.
  intros Hem. revert k. induction m as [|m IH]; intros k; [reflexivity|]. cbn [seq flat_map map app]. unfold em3_i at 1, mop. rewrite Hem. cbn [app].
  transitivity (moments [] (round_moment lay k ++ tick_i :: flat_map (em3_i lay) (seq (S k) m) ++ x)).
  { f_equal. unfold round_moment, mpp_i. cbn [app]. rewrite <- !app_assoc. reflexivity. }
  rewrite (FaultFinal.moments_tick (round_moment lay k) tick_i) by reflexivity. rewrite moments_notick; [cbn [app]; now rewrite IH|]. unfold round_moment. cbn [forallb]. apply andb_true_intro. split; [reflexivity|]. apply forallb_forall. intros i Hi. apply (proj1 (Forall_forall _ _) (calm_annk lay k)) in Hi. destruct Hi as (_ & _ & ->). reflexivity.
Qed.
Lemma fin_other_names lay tr op : In op (fin lay tr) -> tr = Shift.trk lay (tr0 lay) (Z.to_nat (sub_rounds lay)) -> iname op <> "MPP"%string.
Proof.
  intros H ->. unfold fin in H. apply in_app_or in H. destruct H as [H|H].
  - unfold hdata in H. destruct (pauli_eqb _ _); [destruct H|]. destruct H as [<-|[<-|[]]]; [cbn [iname]; destruct (final_basis lay); discriminate | discriminate].
  - apply in_app_or in H. destruct H as [[<-|[]]|H]; [discriminate|]. apply (proj1 (Forall_forall _ _) (calm_fin_ann lay)) in H. destruct H as (K & _). exact K.
Qed.

(** ** Theorem *)
(** The same for the style EM3_v2. *)
Theorem C81_half_distance_reached_correlated : forall lay c, valid lay -> supported_input lay -> style lay = "EM3_v2"%string -> 2 <= sub_rounds lay -> (0 < noise lay)%Q -> generate_honeycomb_circuit lay = Ok c ->
  exists lf, errors_of (flatten c) lf /\ (if (obs lay =? "V")%string then 2 * Z.of_nat (error_count lf) = data_width lay else 3 * Z.of_nat (error_count lf) = data_height lay) /\
  forall g f0, exists st, run_errors g lf (start f0) = Ok st /\ (forall d, In d (fdets st) -> d = false) /\ exists x, fobs st x = true.
Proof.
  intros lay c Hv Hs Hsty Hn Hp E. pose proof (clean_run lay c Hv Hs E) as HC. assert (Hem : is_em3 (style lay) = true) by now rewrite Hsty.
  pose proof (sup_obs lay Hs) as Hobs. pose proof (sup_sup lay Hs) as Hsup.
  destruct (generated lay Hv Hs) as (c1 & nm & c2 & E1 & En & E2 & E3 & Fl & Fo & Hfine). rewrite E in E3. injection E3 as <-.
  pose proof (noisy_moments_any (unit_i lay) nm c1 c Fo (fun op Ho => fine_ideal lay op (Hfine op Ho)) E2) as HA. rewrite Fl in HA. set (An := fun a => In a (ancillas c1)) in HA.
  assert (Es : forall k, op_strength nm (mpp_i lay k) = Ok (noise lay)).
  { intros k. rewrite (proj1 (C29_strengths lay nm (mpp_i lay k) En)). cbn [mpp_i iname]. rewrite Hsty. reflexivity. }
  assert (Uc : use_correlated nm = true) by (apply (C29_strengths lay nm (mkI "" [] []) En); exact Hsty).
  assert (Ha : forall a, An a -> forall q, isdata lay q -> ix lay q <> a).
  { intros a Ia q Hq. destruct (C32_honeycomb_ancilla_fresh lay c1 Hv Hs Hsty E1) as [Ha M]. rewrite (Ha a Ia). pose proof (Prop_Noise3.ix_data lay Hv q (proj2 (in_data lay Hv q) Hq)). lia. }
  assert (Pp : Qlt_bool 0 (noise lay) = true).
  { unfold Qlt_bool. apply negb_true_iff. apply not_true_is_false. intros K. apply Qle_bool_iff in K. exact (Qlt_not_le _ _ Hp K). }
  assert (Hpp : use_correlated nm = true -> forall op, In op (circuit_i lay) -> pauli_pairs op).
  { intros _ op Ho. exact (proj2 (proj1 (Forall_forall _ _) (circuit_low lay Hv Hem) op Ho)). }
  destruct (alike_trans _ _ _ (alike_circuit nm _ _ _ Hpp HA) (alike_gates (flatten c))) as (Q1 & Q2 & Q3).
  destruct (em3_place lay Hem Hn) as (A & Ec). pose proof HA as F. rewrite Ec, moments_tick, (moments_tick (measured lay)), (moments_notick (measured lay)) in F by (reflexivity || exact (measured_calm lay)). cbn [app] in F.
  apply Forall2_app_inv_l in F. destruct F as (ms1 & ms' & _ & F & El). inversion F as [|? out ? ms2 R F2]; subst. destruct (moments_some (later lay) []) as (b & bs & Eb). pose proof F2 as F3. rewrite Eb in F3. inversion F3 as [|? m2 ? ms3 _ _]; subst. clear F3.
  destruct (moments_cut (flatten c) [] ms1 out m2 ms3 El) as (l0 & t & r & K & Kt & Km). cbn [app] in K.
  destruct R as (_ & a & HAn & pre & post & Eo & H1 & H2). set (s := sub lay) in *.
  assert (Eo' : flat_map (sub_any nm a) (measured lay) = flat_map (fun e => piece lay s e a (noise lay)) (round_edges lay (Z.of_nat s)) ++ Shift.annk lay (tr0 lay) s).
  { unfold measured. fold s. cbn [flat_map]. rewrite (sub_mpp lay nm (noise lay) Uc Es Pp), (sub_other nm a (Shift.annk lay (tr0 lay) s)) by apply ann_other. reflexivity. }
  rewrite Eo' in Eo. clear Eo'. set (P := flat_map _ (round_edges lay (Z.of_nat s))) in Eo. set (L0 := l0 ++ pre). set (l2 := Shift.annk lay (tr0 lay) s ++ post ++ t :: r).
  assert (Ef : flatten c = L0 ++ P ++ l2) by (rewrite K, Eo; unfold L0, l2; rewrite <- !app_assoc; reflexivity).
  set (hb := fun e => cmem (e_left e) (pchain lay)).
  destruct (all_pieces lay Hv Hobs s a (noise lay) hb (round_edges lay (Z.of_nat s)) (incl_refl _) (NoDup_ix_ends lay Hv _) (Ha a HAn)) as (lfp & P1 & P2 & P3). fold P in P1.
  destruct (all_pieces lay Hv Hobs s a (noise lay) (fun _ => false) (round_edges lay (Z.of_nat s)) (incl_refl _) (NoDup_ix_ends lay Hv _) (Ha a HAn)) as (lfn & [N1 _] & N2 & N3). fold P in N1.
  assert (F0 : filter (fun _ : edge => false) (round_edges lay (Z.of_nat s)) = []) by (clear; induction (round_edges lay (Z.of_nat s)) as [|x l IH]; [reflexivity | exact IH]). rewrite F0 in N2.
  destruct (errors_plain L0) as [L0e L0c]. destruct (errors_plain l2) as [L2e L2c].
  destruct (errors_app _ _ _ _ P1 L2e) as [PLe PLc]. destruct (errors_app _ _ _ _ L0e PLe) as [LFe LFc]. rewrite <- Ef in LFe.
  exists (map (fun i => (i, [])) L0 ++ lfp ++ map (fun i => (i, [])) l2). split; [exact LFe|]. split.
  - rewrite LFc, PLc, L0c, L2c, P2, Nat.add_0_r. cbn [Nat.add]. pose proof (hit_count lay Hv Hobs) as HK. unfold hit in HK. rewrite (sub_when lay Hn) in HK. fold s hb in HK. unfold observable_distance in HK. pose proof (valid_tiles lay Hv) as (T1 & T2 & T3 & T4).
    destruct (obs lay =? "V")%string; [exact HK|]. revert HK T4. dlia.
  - intros g f0. destruct (HC g f0) as (base & Rb & _ & Db & Ob).
    destruct (errors_sum g (map (fun i => (i, [])) L0 ++ lfp ++ map (fun i => (i, [])) l2) (start f0) (start (fun _ => bzero)) (start f0) base) as (st & cur & Re & Rc & S3);
      [apply sums_clean; [exact zero_clean | reflexivity | reflexivity | reflexivity] | rewrite (proj1 LFe); exact Rb |].
    assert (De : (forall j, nth j (fdets st) false = false) /\ forall x, fobs st x = mine lay x true).
    { rewrite Ef, !gates_app, run_app in Rb. destruct (run g (gates L0) (start f0)) as [b0|] eqn:R0; [|discriminate]. cbn [bind] in Rb. rewrite run_app in Rb. destruct (run g (gates P) b0) as [b1|] eqn:R1; [|discriminate].
      destruct (clean_prefix g L0 f0 b0 R0) as (z0 & Rz0 & C0). destruct (clean_prefix g (L0 ++ P) f0 b1) as (z & Rz & Cz); [now rewrite gates_app, run_app, R0|].
      assert (Ag : forall e, In e (round_edges lay (Z.of_nat s)) -> agrees lay s z0 e) by (intros e _; unfold agrees; rewrite !(proj1 C0); destruct (xyz _); reflexivity).
      destruct (P3 z0 Ag) as (k & Rk & (U1 & U2 & U3) & Fk). destruct (N3 z0 Ag) as (z' & Rz' & (W1 & W2 & W3) & _). rewrite (no_errors still lfn N2), N1 in Rz'.
      assert (z' = z) by (rewrite gates_app, run_app, Rz0 in Rz; cbn [bind] in Rz; congruence). subst z'.
      rewrite run_errors_app, run_plain, Rz0 in Re. cbn [bind] in Re. rewrite run_errors_app, Rk in Re. cbn [bind] in Re. rewrite run_plain in Re.
      assert (Mk : marked lay k).
      { intros q Hq. rewrite Fk by now apply (Ha a HAn). rewrite (proj1 C0), bxor_zero_l. change (filter hb (round_edges lay (Z.of_nat s))) with (filter (fun e => cmem (e_left e) (pchain lay)) (round_edges lay (Z.of_nat s))). unfold s. rewrite <- (sub_when lay Hn). fold (hit lay).
        rewrite (xsum_perm _ _ _ (hit_ends lay Hv Hobs)), (xsum_ext _ (cpx_eqb q)).
        - rewrite xsum_member by now apply pchain_NoDup. now destruct (cmem q (pchain lay)).
        - intros r' Hr. apply (pchain_data lay Hv Hobs) in Hr. destruct (cpx_eqb q r') eqn:Q; [apply cpx_eqb_eq in Q; subst r'; apply Nat.eqb_refl|]. apply Nat.eqb_neq. intros K'.
          apply (ix_inj lay Hv q r' (data_in_qubits lay Hv q Hq) (data_in_qubits lay Hv r' Hr)) in K'. subst r'. rewrite (proj2 (cpx_eqb_eq q q) eq_refl) in Q. discriminate. }
      pose proof Re as Re0. unfold l2 in Re0. assert (Np : gates post = []) by (apply gates_noise; intros i Hx; apply (H2 i Hx)). rewrite !gates_app, Np, gates_ann, run_app in Re0. destruct (run still (Shift.annk lay (tr0 lay) s) k) as [k1|] eqn:Rk1; [|discriminate]. cbn [bind app] in Re0.
      apply quiet_run in Rk1; [|apply quiet_annk]. destruct Rk1 as [K1 K2]. rewrite run_tickless in Re0 by exact Kt. change r with ([] ++ r) in Re0. rewrite run_moments, Km in Re0.
      unfold later in F2. rewrite round_moments in F2 by exact Hem. apply Forall2_app_inv_l in F2. destruct F2 as (outs1 & outs2 & G1 & G2 & Em). rewrite Em, concat_app, gates_app, run_app in Re0.
      destruct (run still (gates (concat outs1)) k1) as [k2|] eqn:Rk2; [|discriminate]. cbn [bind] in Re0.
      pose proof (sub_lt lay Hn) as Ls. pose proof (sub_when lay Hn) as Lw. fold s in Ls, Lw.
      destruct (noisy_rounds lay Hv Hobs nm (noise lay) Uc Es Pp An Ha _ (S s) outs1 k1 k2 G1 Rk2) as [Mk2 Ek2]; [lia | lia | intros q Hq; rewrite K1; now apply Mk |].
      rewrite (noisy_other nm An (moments [] (fin lay (Shift.trk lay (tr0 lay) (Z.to_nat (sub_rounds lay))))) outs2) in Re0; [|intros m op Hm Hop; apply (in_moments op m _ [] Hm) in Hop; cbn [app] in Hop; exact (fin_other_names lay _ op Hop eq_refl) | exact G2].
      rewrite <- (run_moments still _ []) in Re0. cbn [app] in Re0.
      assert (Gf : gates (fin lay (Shift.trk lay (tr0 lay) (Z.to_nat (sub_rounds lay)))) = fin lay (Shift.trk lay (tr0 lay) (Z.to_nat (sub_rounds lay)))).
      { unfold gates. apply filter_all. intros op Ho. assert (Ho' : In op (circuit_i lay)) by (unfold circuit_i; do 3 (apply in_or_app; right); exact Ho).
        destruct (fine_ideal lay op (proj1 (Forall_forall _ _) (circuit_fine lay Hsup) op Ho')) as (_ & _ & ->). reflexivity. }
      rewrite Gf in Re0. pose proof (fin_still lay Hv k2 st Re0 Mk2) as Es2.
      assert (Gi : gates (flatten c) = gates (L0 ++ P) ++ gates l2) by (rewrite Ef, !gates_app, app_assoc; reflexivity). rewrite Gi in Q1, Q2, Q3.
      destruct C0 as (_ & C02 & _). assert (Z0 : forall k, Forall (fun b => b = false) (repeat false k)) by (intros k'; apply Forall_forall; intros x Hx; now apply repeat_spec in Hx).
      refine (record_end lay Hv Hobs Hsup Hn (L0 ++ P) l2 z k st (frec k2) _ _ _ Rz Cz _ _ _ Re Es2 _).
      - specialize (Q1 0%Q 0%Q 0%Q 0%nat []). rewrite !app_nil_r in Q1. now symmetry.
      - intros x. symmetry. apply Q2.
      - now symmetry.
      - congruence.
      - congruence.
      - congruence.
      - rewrite Ek2, K2, U1. apply Forall_app. split; [apply Forall_app; split; [exact C02 | apply Z0] | apply Z0].
      - exact Hobs. }
    destruct De as [De Oe]. exists cur. split; [exact Rc|]. split.
    + destruct S3 as (_ & _ & (L3 & D3) & _). intros d Hd. apply (In_nth _ _ false) in Hd. destruct Hd as (j & _ & <-). rewrite D3, xors_nth, Db, De by exact L3. reflexivity.
    + exists (oidx lay). destruct S3 as (_ & _ & _ & O3 & _). rewrite O3, Ob, Oe. unfold mine. now rewrite Nat.eqb_refl.
Qed.
Print Assumptions C81_half_distance_reached_correlated.
(** For one of the two observables these are half as many errors as the code distance. *)
Theorem C81_half_code_distance_reached_correlated : forall lay, valid lay -> supported_input lay -> style lay = "EM3_v2"%string -> 2 <= sub_rounds lay -> (0 < noise lay)%Q ->
  exists o c lf, (o = "V" \/ o = "H")%string /\ generate_honeycomb_circuit (protecting lay o) = Ok c /\ errors_of (flatten c) lf /\ 2 * Z.of_nat (error_count lf) = code_distance_1qdep lay /\
    forall g f0, exists st, run_errors g lf (start f0) = Ok st /\ (forall d, In d (fdets st) -> d = false) /\ exists x, fobs st x = true.
Proof.
  intros lay Hv Hs Hst Hn Hp. set (o := if data_width lay <=? 2 * (data_height lay / 3) then "V"%string else "H"%string).
  assert (Ho : (o = "V" \/ o = "H")%string) by (unfold o; destruct (_ <=? _); auto).
  assert (Hv' : valid (protecting lay o)) by exact Hv. assert (Hs' : supported_input (protecting lay o)) by (destruct Hs as (S1 & _ & S3); split; [exact S1|]; split; [exact Ho | exact S3]).
  destruct (generated (protecting lay o) Hv' Hs') as (c1 & nm & c & _ & _ & _ & E & _).
  destruct (C81_half_distance_reached_correlated (protecting lay o) c Hv' Hs' Hst Hn Hp E) as (lf & H1 & H2 & H3).
  exists o, c, lf. split; [exact Ho|]. split; [exact E|]. split; [exact H1|]. split; [|exact H3]. unfold code_distance_1qdep. cbn [protecting obs data_width data_height] in H2. pose proof (valid_tiles lay Hv) as (T1 & T2 & T3 & T4).
  revert H2. unfold o. destruct (Z.leb_spec (data_width lay) (2 * (data_height lay / 3))); cbn [String.eqb Ascii.eqb Bool.eqb]; intros H2; [lia|]. assert (K : data_height lay / 3 = Z.of_nat (error_count lf)) by (revert H2; clear; dlia). lia.
Qed.
Print Assumptions C81_half_code_distance_reached_correlated.
(** Non-vacuity: a supported input of this style, and the number of errors. *)
Definition v2_lay := mkLayout 4 6 2 "EM3_v2" "H" (1 # 1000).
Example C81_half_distance_correlated_example : valid v2_lay /\ supported_input v2_lay /\ (0 < noise v2_lay)%Q /\ 2 <= sub_rounds v2_lay /\ 3 * 2 = data_height v2_lay /\
  exists c, generate_honeycomb_circuit v2_lay = Ok c.
Proof.
  assert (V : valid v2_lay) by (repeat split; vm_compute; congruence || reflexivity). assert (S : supported_input v2_lay) by (repeat split; vm_compute; auto; congruence).
  split; [exact V|]. split; [exact S|]. split; [reflexivity|]. split; [vm_compute; discriminate|]. split; [reflexivity|].
  destruct (generated v2_lay V S) as (c1 & nm & c2 & _ & _ & _ & E3 & _). eauto.
Qed.
