(** C22 for observables: stim's num_observables of a generated circuit is one more than the
    number of the preserved observable (0 for V, 1 for H), which is the only one that any
    OBSERVABLE_INCLUDE names.  So an "H" circuit has two observables, and its observable 0
    includes no measurement. *)
From Coq Require Import QArith.
From Coq Require Import Reals.
From Coq Require Import Ascii.
From Verif Require Import Prelude Layout GenShape LayoutFacts LayoutEdges LayoutLists LayoutIndex Pauli Stim Circuit Noise Ends Gen3 Frame Exec4 NoiseFacts NoiseMoments NoiseCorr NoiseAlign Prop_Circuit Prop_Noise Prop_Noise2 Prop_Noise3
  Tracker TrackerFacts Annot Shift Gen Gen2 Traj Eval Detectors Struct Struct2 Moments FaultSpec FaultQuiet FaultCore FaultObs FaultInv FaultZ FaultNoise FaultRun Prop_Fault Decoding Collect Paper Plot Example.
Open Scope Z_scope.

Definition is_include (i : instr) : bool := (canon (iname i) =? "OBSERVABLE_INCLUDE")%string.
Definition same_includes (a b : list instr) : Prop := filter is_include a = filter is_include b.
Lemma same_app a a' b b' : same_includes a a' -> same_includes b b' -> same_includes (a ++ b) (a' ++ b').
Proof. unfold same_includes. rewrite !filter_app. congruence. Qed.
Lemma same_none a : (forall i, In i a -> is_include i = false) -> same_includes a [].
Proof. intros H. unfold same_includes. cbn. apply filter_none, Forall_forall. exact H. Qed.
Lemma noise_none i : is_noise i = true -> is_include i = false.
Proof. intros H. apply mute_noise in H. destruct H as [_ H]. unfold relob in H. apply orb_false_iff in H. exact (proj1 H). Qed.
Lemma same_moments l : forall now, same_includes (now ++ l) (concat (moments now l)).
Proof.
  induction l as [|i l IH]; intros now; cbn [moments]; [cbn [concat]; reflexivity|]. destruct (is_tick i) eqn:Ti.
  - cbn [concat]. apply same_app; [reflexivity|]. specialize (IH []). cbn [app] in IH. unfold same_includes in *. rewrite <- IH. cbn [filter].
    unfold is_tick in Ti. apply String.eqb_eq in Ti. unfold is_include at 1. rewrite Ti. reflexivity.
  - specialize (IH (now ++ [i])). now rewrite <- app_assoc in IH.
Qed.

Lemma same_concat ms ms' : Forall2 same_includes ms ms' -> same_includes (concat ms) (concat ms').
Proof. intros H. induction H; [reflexivity|]. cbn [concat]. now apply same_app. Qed.
Lemma same_sub nm a op : ideal_op op -> (use_correlated nm = true -> pauli_pairs op) -> same_includes [op] (sub_any nm a op).
Proof.
  intros (Ec & _ & _) Hpp. unfold sub_any. destruct (op_strength nm op) as [p|]; [|reflexivity]. destruct (String.eqb_spec (iname op) "MPP") as [M|M]; cbn [andb]; [|reflexivity].
  assert (K0 : is_include op = false) by (unfold is_include; rewrite Ec, M; reflexivity).
  destruct (Qlt_bool 0 p); [|reflexivity]. destruct (use_correlated nm) eqn:Uc; [|unfold same_includes; cbn [filter]; rewrite K0; unfold is_include; cbn [iname]; rewrite M; reflexivity].
  destruct (Hpp eq_refl M) as (l & El & _). rewrite El, triples_pair_targets. unfold same_includes. cbn [filter]. rewrite K0. symmetry. apply filter_none, Forall_forall. intros i Hi.
  destruct (is_noise i) eqn:Ni; [now apply noise_none|]. match type of Hi with In i ?x => assert (Hg : In i (gates x)) by (unfold gates; apply filter_In; split; [exact Hi | now rewrite Ni]) end.
  clear El Hi. induction l as [|[[[p1 q1] p2] q2] l IH]; [destruct Hg|]. cbn [map flat_map] in Hg. rewrite flatten_app, gates_app in Hg. apply in_app_or in Hg. destruct Hg as [Hg|Hg]; [|now apply IH].
  rewrite parity_gates in Hg. unfold gadget, both in Hg. destruct p1, p2; cbn in Hg; repeat (destruct Hg as [<-|Hg]; [reflexivity|]); destruct Hg.
Qed.
Lemma same_noisy nm A m out : (use_correlated nm = true -> forall op, In op m -> pauli_pairs op) -> noise_rel nm A m out -> same_includes m out.
Proof.
  intros Hp (Hi & a & _ & pre & post & -> & H1 & H2).
  assert (K : same_includes m (flat_map (sub_any nm a) m)).
  { clear H1 H2. induction m as [|op m IH]; [reflexivity|]. cbn [flat_map]. change (op :: m) with ([op] ++ m).
    apply same_app; [apply same_sub; [apply Hi; now left | intros U; apply (Hp U); now left] | apply IH; [intros U o Ho; apply (Hp U); now right | intros o Ho; apply Hi; now right]]. }
  replace m with ([] ++ m ++ []) at 1 by (cbn [app]; apply app_nil_r).
  apply same_app; [symmetry; apply same_none; intros i K'; apply noise_none, (H1 i K')|].
  apply same_app; [exact K | symmetry; apply same_none; intros i K'; apply noise_none, (H2 i K')].
Qed.
Lemma same_circuit nm A l l' : (use_correlated nm = true -> forall op, In op l -> pauli_pairs op) -> Forall2 (noise_rel nm A) (moments [] l) (moments [] l') -> same_includes l l'.
Proof.
  intros Hp H. transitivity (filter is_include (concat (moments [] l))); [apply (same_moments l [])|]. transitivity (filter is_include (concat (moments [] l'))); [|symmetry; apply (same_moments l' [])]. apply same_concat.
  eapply Forall2_in; [|exact H]. intros m out Hm. apply same_noisy. intros U op Ho. apply (Hp U). exact (in_moments op m l [] Hm Ho).
Qed.
Lemma same_generated lay c : valid lay -> supported_input lay -> generate_honeycomb_circuit lay = Ok c -> same_includes (circuit_i lay) (flatten c).
Proof.
  intros Hv Hs E. destruct (generated lay Hv Hs) as (c1 & nm & c2 & E1 & En & E2 & E3 & Fl & Fo & Hfine). rewrite E in E3. injection E3 as <-.
  pose proof (noisy_moments_any (unit_i lay) nm c1 c Fo (fun op Ho => fine_ideal lay op (Hfine op Ho)) E2) as HF. rewrite Fl in HF.
  pose proof (proj2 (proj2 (proj2 (C29_strengths lay nm (mkI "" [] []) En)))) as Hc.
  assert (Hp : use_correlated nm = true -> forall op, In op (circuit_i lay) -> pauli_pairs op).
  { intros U op Ho. apply Hc in U. exact (proj2 (proj1 (Forall_forall _ _) (circuit_low lay Hv (em3_supported_em3 lay U)) op Ho)). }
  exact (same_circuit nm _ _ _ Hp HF).
Qed.

(** ** The include lines of the circuit *)
Section Lines.
  Variable lay : layout.
  Hypothesis Hv : valid lay.
  Hypothesis Hs : supported_input lay.
  Notation n := (sub_rounds lay).
  Notation N := (Z.to_nat n).
  Notation trk := (trk lay (tr0 lay)).
  Lemma relob_include l : filter is_include l = filter is_include (filter relob l).
  Proof. induction l as [|i l IH]; [reflexivity|]. cbn [filter]. unfold relob at 1. fold (is_include i). destruct (is_include i) eqn:Ei; cbn [orb filter]; [rewrite Ei; now f_equal|]. destruct (negb _); cbn [filter]; rewrite ?Ei; exact IH. Qed.
  Definition named (i : instr) : Prop := iargs i = [int_arg (Z.of_nat (oidx lay))].
  Lemma row_named k i : In i (orow lay k) -> is_include i = true -> named i.
  Proof.
    unfold orow. intros Hi Ki. apply in_app_or in Hi. destruct Hi as [Hi|Hi].
    - unfold Struct2.mline, Annot.mop in Hi. destruct (is_em3 (style lay)); cbn [In] in Hi; repeat (destruct Hi as [<-|Hi]; [discriminate Ki|]); destruct Hi.
    - unfold obsinc in Hi. destruct (pc3 lay); [destruct Hi|]. destruct (comb _); [destruct Hi as [<-|[]]; reflexivity | destruct Hi].
  Qed.
  Lemma all_named i : In i (circuit_i lay) -> is_include i = true -> named i.
  Proof.
    intros Hi Ki. assert (H : In i (filter relob (circuit_i lay))) by (apply filter_In; split; [exact Hi | unfold relob; fold (is_include i); now rewrite Ki]).
    rewrite (circuit_kob lay Hv) in H by exact (sup_sup lay Hs). apply in_app_or in H. destruct H as [H|H].
    - apply in_flat_map in H. destruct H as (k & _ & H). exact (row_named k i H Ki).
    - apply in_app_or in H. destruct H as [H|[<-|H]]; [|discriminate Ki|].
      + destruct (pc3 lay); [|destruct H]. unfold pc3_obs_i in H. apply in_flat_map in H. destruct H as (k & _ & H). destruct (comb _); [destruct H as [<-|[]]; reflexivity | destruct H].
      + unfold fin_obs in H. destruct (comb _); [destruct H as [<-|[]]; reflexivity | destruct H].
  Qed.
  Lemma some_named : exists i, In i (circuit_i lay) /\ is_include i = true.
  Proof.
    assert (G : exists i, In i (fin_obs lay (trk N))).
    { unfold fin_obs.
      assert (G : exists T, sd (fun _ => false) T (comb (map (dq lay (trk N)) (snd (obr lay n)))) (xsum (dat lay (fun _ => false)) (snd (obr lay n)))).
      { eexists. apply sd_comb_map. intros q Hq. apply (dq_sd lay Hv _ q). exact (proj2 (in_data lay Hv _) (obr_data lay Hv (sup_obs lay Hs) n q Hq)). }
      destruct G as (T & G & _). destruct (comb _); [eexists; now left | congruence]. }
    destruct G as (i & Hi). exists i. assert (Ki : is_include i = true) by (unfold fin_obs in Hi; destruct (comb _); [destruct Hi as [<-|[]]; reflexivity | destruct Hi]).
    split; [|exact Ki]. assert (H : In i (filter relob (circuit_i lay))); [|apply filter_In in H; exact (proj1 H)].
    rewrite (circuit_kob lay Hv) by exact (sup_sup lay Hs). apply in_or_app. right. apply in_or_app. right. now right.
  Qed.
End Lines.

Theorem C22_observables : forall lay c, valid lay -> supported_input lay -> generate_honeycomb_circuit lay = Ok c ->
  let k := if (obs lay =? "V")%string then 0%nat else 1%nat in
  circuit_observables c = S k /\
  (exists i, In i (flatten c) /\ iname i = "OBSERVABLE_INCLUDE"%string) /\
  (forall i, In i (flatten c) -> canon (iname i) = "OBSERVABLE_INCLUDE"%string -> obs_arg (iargs i) = Ok k).
Proof.
  intros lay c Hv Hs E k. pose proof (same_generated lay c Hv Hs E) as S. unfold same_includes in S.
  assert (A : forall i, In i (flatten c) -> is_include i = true -> obs_arg (iargs i) = Ok k).
  { intros i Hi Ki. assert (H : In i (filter is_include (circuit_i lay))) by (rewrite S; apply filter_In; auto). apply filter_In in H. rewrite (all_named lay Hv Hs i (proj1 H) Ki).
    unfold k, oidx. destruct (obs lay =? "V")%string; reflexivity. }
  destruct (some_named lay Hv Hs) as (i & Hi & Ki). assert (H : In i (filter is_include (flatten c))) by (rewrite <- S; apply filter_In; auto). apply filter_In in H. destruct H as [Hi' _].
  split; [|split].
  - unfold circuit_observables. revert A Hi'. generalize (flatten c). induction l as [|j l IH]; intros A Hin; [destruct Hin|]. cbn [fold_right]. fold (is_include j).
    assert (Le : forall l, (forall i, In i l -> is_include i = true -> obs_arg (iargs i) = Ok k) -> (fold_right (fun i n => Nat.max (if is_include i then match obs_arg (iargs i) with Ok k => Datatypes.S k | Err _ => O end else O) n) O l <= Datatypes.S k)%nat).
    { clear. induction l as [|j l IH]; intros A; [cbn; lia|]. cbn [fold_right]. specialize (IH (fun i Hi => A i (or_intror Hi))). specialize (A j (or_introl eq_refl)). destruct (is_include j); [rewrite A by reflexivity|]; lia. }
    destruct Hin as [->|Hin].
    + rewrite Ki, (A i (or_introl eq_refl) Ki). apply Nat.max_l. apply (Le l). intros x Hx. apply A. now right.
    + rewrite IH; [|intros x Hx; apply A; now right | exact Hin]. destruct (is_include j) eqn:Kj; [rewrite (A j (or_introl eq_refl) Kj); apply Nat.max_id | reflexivity].
  - exists i. split; [exact Hi'|]. destruct (fine_ideal lay i (proj1 (Forall_forall _ _) (circuit_fine lay (sup_sup lay Hs)) i Hi)) as (Ec & _).
    unfold is_include in Ki. apply String.eqb_eq in Ki. congruence.
  - intros j Hj Kj. apply A; [exact Hj | now apply String.eqb_eq].
Qed.
Print Assumptions C22_observables.
Example C22_observables_example : exists c c', generate_honeycomb_circuit (mkLayout 4 12 7 "EM3_v2" "H" (1 # 1000)) = Ok c /\ circuit_observables c = 2%nat /\
  generate_honeycomb_circuit (mkLayout 8 6 7 "PC3" "V" (1 # 1000)) = Ok c' /\ circuit_observables c' = 1%nat.
Proof.
  assert (Hv : valid (mkLayout 4 12 7 "EM3_v2" "H" (1 # 1000))) by (repeat split; reflexivity). assert (Hs : supported_input (mkLayout 4 12 7 "EM3_v2" "H" (1 # 1000))) by (split; [discriminate | split; [now right | right; right; right; now left]]).
  assert (Hv' : valid (mkLayout 8 6 7 "PC3" "V" (1 # 1000))) by (repeat split; reflexivity). assert (Hs' : supported_input (mkLayout 8 6 7 "PC3" "V" (1 # 1000))) by (split; [discriminate | split; [now left | right; now left]]).
  destruct (made _ Hv Hs) as (c & E). destruct (made _ Hv' Hs') as (c' & E'). exists c, c'. split; [exact E|]. split; [exact (proj1 (C22_observables _ c Hv Hs E))|]. split; [exact E'|]. exact (proj1 (C22_observables _ c' Hv' Hs' E')).
Qed.
