(** C78: a single physical error anywhere in the generated noisy circuit never flips
    the logical observable without setting off a detector. *)
From Coq Require Import QArith.
From Verif Require Import Prelude Layout LayoutFacts LayoutEdges LayoutLists LayoutIndex Pauli Stim Circuit Noise Ends Gen3 Frame Exec4 NoiseFacts NoiseMoments NoiseCorr NoiseAlign Prop_Circuit Prop_Noise Prop_Noise2 Prop_Noise3
  Detectors Struct2 FaultSpec FaultQuiet FaultCore FaultObs FaultInv FaultZ FaultNoise FaultRun.
Open Scope Z_scope.

(** a faulty run of the generated circuit, in terms of the error it leaves *)
Lemma faulty_run : forall lay c, valid lay -> supported_input lay -> generate_honeycomb_circuit lay = Ok c ->
  detectors 0 0 0 0 (flatten c) = detectors 0 0 0 0 (circuit_i lay) /\
  forall l1 i l2 f, flatten c = l1 ++ i :: l2 -> fault_of i f ->
  forall g f0, exists st X Y z A0, run_faulty g l1 i f l2 (start f0) = Ok st /\ core lay X Y (is_em3 (style lay) = false \/ one_data lay f) (data_only lay f) /\ (forall q, isdata lay q -> anti2 (pbits (init_basis lay)) (A0 q) = false) /\
    fdets st = map (fun d => xsum (fun j => nth j (frecord lay X Y z A0) false) (d_meas d)) (detectors 0 0 0 0 (flatten c)) /\
    forall x, fobs st x = mine lay x (effect lay (fun j => nth j (frecord lay X Y z A0) false)).
Proof.
  intros lay c Hv Hs E.
  destruct (generated lay Hv Hs) as (c1 & nm & c2 & E1 & En & E2 & E3 & Fl & Fo & Hfine). rewrite E in E3. injection E3 as <-.
  pose proof (noisy_moments_any (unit_i lay) nm c1 c Fo (fun op Ho => fine_ideal lay op (Hfine op Ho)) E2) as HF. rewrite Fl in HF.
  pose proof (proj2 (proj2 (proj2 (C29_strengths lay nm (mkI "" [] []) En)))) as Hc.
  assert (Hp : use_correlated nm = true -> forall op, In op (circuit_i lay) -> pauli_pairs op).
  { intros U op Ho. apply Hc in U. exact (proj2 (proj1 (Forall_forall _ _) (circuit_low lay Hv (em3_supported_em3 lay U)) op Ho)). }
  split.
  - destruct (alike_circuit nm _ _ _ Hp HF) as (Q1 & _). specialize (Q1 0%Q 0%Q 0%Q 0%nat []). rewrite !app_nil_r in Q1. now symmetry.
  - intros l1 i l2 f El Hf g f0.
    destruct (one_fault_record lay Hv (sup_obs lay Hs) (sup_sup lay Hs) g nm (fun a => In a (ancillas c1))) with (l := flatten c) (l1 := l1) (i := i) (f := f) (l2 := l2) (f0 := f0) as (st & [X Y] & z & A0 & Er & Ht & H0 & _ & Hd & Ho); auto.
    + intros U. apply Hc in U. split; [exact U|]. intros a Ia q Hq. destruct (C32_honeycomb_ancilla_fresh lay c1 Hv Hs U E1) as [Ha M]. rewrite (Ha a Ia). pose proof (Prop_Noise3.ix_data lay Hv q (proj2 (in_data lay Hv q) Hq)). lia.
    + exists st, X, Y, z, A0. auto.
Qed.

(** [flatten c] is the circuit with its REPEAT blocks written out, so an error can
    happen in any repetition.  [g] and [f0] are the random choices of the run. *)
Theorem C78_single_fault_detected : forall lay c, valid lay -> supported_input lay -> 4 <= data_width lay -> generate_honeycomb_circuit lay = Ok c ->
  forall l1 i l2 f, flatten c = l1 ++ i :: l2 -> fault_of i f ->
  forall g f0, exists st, run_faulty g l1 i f l2 (start f0) = Ok st /\
    ((exists x, fobs st x = true) -> exists d, In d (fdets st) /\ d = true).
Proof.
  intros lay c Hv Hs Hw E l1 i l2 f El Hf g f0.
  destruct (faulty_run lay c Hv Hs E) as [Ed K]. destruct (K l1 i l2 f El Hf g f0) as (st & X & Y & z & A0 & Er & Ht & H0 & Hd & Ho).
  exists st. split; [exact Er|]. intros (x & Hx). destruct (existsb (fun d => d) (fdets st)) eqn:B; [apply existsb_exists in B; exact B|].
  assert (Q : forall d, In d (fdets st) -> d = false).
  { intros d Hin. apply not_true_is_false. intros ->. assert (K' : existsb (fun d => d) (fdets st) = true) by (apply existsb_exists; eauto). congruence. }
  rewrite Ho, (record_harmless lay Hv (sup_obs lay Hs) (sup_sup lay Hs) Hw X Y z A0 H0 _ _ Ht) in Hx; [unfold mine in Hx; rewrite andb_false_r in Hx; discriminate|].
  intros d Hin _. apply Q. rewrite Hd, Ed. apply in_map_iff. eauto.
Qed.
Print Assumptions C78_single_fault_detected.

(** ** Concrete errors, run with all random choices 0 *)
Definition both_at (p1 : pauli) (a : nat) (p2 : pauli) (b : nat) : nat -> bits := fun x => if Nat.eqb x a then pbits p1 else if Nat.eqb x b then pbits p2 else bzero.
Definition written (lay : layout) : list instr := match generate_honeycomb_circuit lay with Ok c => flatten c | Err _ => [] end.
Definition noop : instr := mkI "" [] [].
Definition outcome (r : res fstate) : option (nat * bool) := match r with Ok st => Some (length (filter (fun d => d) (fdets st)), fobs st 0%nat) | Err _ => None end.
(** the number of detectors that go off, and the observable, with the error [err] at instruction k *)
Definition with_fault (lay : layout) (k : nat) (err : nat -> bits) : option (nat * bool) :=
  outcome (run_faulty (fun _ => false) (firstn k (written lay)) (nth k (written lay) noop) (Kick err) (skipn (S k) (written lay)) (start (fun _ => bzero))).
Lemma only_both p1 a p2 b : only [a; b] (both_at p1 a p2 b).
Proof. intros x Hx. unfold both_at. destruct (Nat.eqb_spec x a) as [->|_]; [destruct Hx; now left|]. destruct (Nat.eqb_spec x b) as [->|_]; [destruct Hx; right; now left | reflexivity]. Qed.
Definition wide : layout := mkLayout 4 6 4 "EM3" "V" (1 # 1000).
(** An error of a patch of width 4 that flips the observable; it sets off two detectors. *)
Lemma cut_at (l : list instr) k : nth k l noop <> noop -> l = firstn k l ++ nth k l noop :: skipn (S k) l.
Proof.
  intros N. revert k N. induction l as [|i l IH]; intros k N; [destruct k; contradiction|]. destruct k as [|k]; [reflexivity|]. cbn [firstn nth skipn app]. f_equal. exact (IH k N).
Qed.
Lemma cut_nth (l : list instr) k : nth k l noop <> noop -> nth_error (firstn k l ++ nth k l noop :: skipn (S k) l) k = Some (nth k l noop).
Proof. intros N. rewrite <- cut_at by exact N. revert k N. induction l as [|i l IH]; intros [|k] N; try contradiction; [reflexivity | exact (IH k N)]. Qed.
Example C78_example : valid wide /\ supported_input wide /\ 4 <= data_width wide /\ (exists c, generate_honeycomb_circuit wide = Ok c /\ nth_error (flatten c) 32 = Some (nth 32 (written wide) noop)) /\
  fault_of (nth 32 (written wide) noop) (Kick (both_at PX 19 PZ 1)) /\ with_fault wide 32 (both_at PX 19 PZ 1) = Some (2%nat, true).
Proof.
  assert (V : valid wide /\ supported_input wide) by (split; [repeat split; reflexivity|]; split; [cbn; lia|]; split; [now left | cbn; tauto]).
  assert (K : exists ts args, nth 32 (written wide) noop = mkI "DEPOLARIZE2" ([] ++ TQ 19 :: TQ 1 :: ts) args) by (vm_compute; eexists; eexists; reflexivity). destruct K as (ts & args & K).
  split; [apply V|]. split; [apply V|]. split; [cbn; lia|]. split; [|split].
  - destruct (made wide (proj1 V) (proj2 V)) as (c & E). exists c. split; [exact E|]. assert (Ew : written wide = flatten c) by (unfold written; now rewrite E).
    rewrite Ew in *. rewrite (cut_at (flatten c) 32) at 1 by (rewrite K; discriminate). apply cut_nth. rewrite K. discriminate.
  - rewrite K. apply fault_dep2; [now exists 0%nat | apply only_both].
  - vm_compute. reflexivity.
Qed.

(** Width 2 is not enough: on a patch two data qubits wide one two-qubit error flips
    the observable and sets off nothing. *)
Definition narrow : layout := mkLayout 2 6 2 "EM3" "V" (1 # 1000).
Lemma silent r : outcome r = Some (0%nat, true) -> exists st, r = Ok st /\ (forall d, In d (fdets st) -> d = false) /\ fobs st 0%nat = true.
Proof.
  destruct r as [st|]; [|discriminate]. cbn [outcome]. intros K. exists st. split; [reflexivity|].
  assert (K1 : length (filter (fun d => d) (fdets st)) = 0%nat) by congruence. split; [|congruence].
  intros d Hd. destruct d; [|reflexivity]. exfalso. assert (Q : In true (filter (fun d => d) (fdets st))) by (apply filter_In; auto). destruct (filter (fun d => d) (fdets st)); [destruct Q | discriminate].
Qed.
Theorem C78_width_two_refuted : exists lay c l1 i l2 f, valid lay /\ supported_input lay /\ data_width lay = 2 /\ generate_honeycomb_circuit lay = Ok c /\ flatten c = l1 ++ i :: l2 /\ fault_of i f /\
  exists g f0 st, run_faulty g l1 i f l2 (start f0) = Ok st /\ (forall d, In d (fdets st) -> d = false) /\ fobs st 0%nat = true.
Proof.
  assert (V : valid narrow /\ supported_input narrow) by (split; [repeat split; reflexivity|]; split; [cbn; lia|]; split; [now left | cbn; tauto]).
  destruct (made narrow (proj1 V) (proj2 V)) as (c & E).
  assert (K : exists ts args, nth 20 (written narrow) noop = mkI "DEPOLARIZE2" ([] ++ TQ 7 :: TQ 1 :: ts) args) by (vm_compute; eexists; eexists; reflexivity). destruct K as (ts & args & K).
  assert (Ew : written narrow = flatten c) by (unfold written; now rewrite E).
  exists narrow, c, (firstn 20 (written narrow)), (nth 20 (written narrow) noop), (skipn 21 (written narrow)), (Kick (both_at PX 7 PX 1)).
  split; [repeat split; reflexivity|]. split; [split; [cbn; lia|]; split; [now left | cbn; tauto]|]. split; [reflexivity|]. split; [exact E|]. split; [|split].
  - rewrite <- Ew. apply cut_at. rewrite K. discriminate.
  - rewrite K. apply fault_dep2; [now exists 0%nat | apply only_both].
  - exists (fun _ => false), (fun _ => bzero). apply silent. vm_compute. reflexivity.
Qed.
Print Assumptions C78_width_two_refuted.
