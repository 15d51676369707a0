(** C79: one error sets off at most two detectors on either side, so errors are edges
    of a graph; C80: detectors are told apart by their coordinates. *)
From Coq Require Import QArith.
From Verif Require Import Prelude Layout LayoutFacts LayoutEdges LayoutLists LayoutIndex Pauli Stim Circuit Noise Ends Gen3 Frame Exec4 Detectors Struct2 NoiseFacts NoiseMoments Prop_Circuit Prop_Noise Prop_Noise2
  FaultSpec FaultQuiet FaultCore FaultObs FaultInv FaultZ FaultNoise FaultRun FaultCount Prop_Fault.
Open Scope Z_scope.

(** The number of detectors on one side ([watches] in FaultSpec.v) that go off. *)
Definition set_off (lay : layout) (c : circuit) (side : bool) (st : fstate) : nat :=
  length (filter (fun p => eqb (watches lay (fst p)) side && snd p) (combine (detectors 0 0 0 0 (flatten c)) (fdets st))).

Lemma filter_combine {T} (p : T -> bool) (g : T -> bool) l : length (filter (fun x => p (fst x) && snd x) (combine l (map g l))) = length (filter (fun x => p x && g x) l).
Proof. induction l as [|x l IH]; [reflexivity|]. cbn [map combine filter fst snd]. destruct (p x && g x); cbn [length]; now rewrite IH. Qed.

Theorem C79_at_most_two : forall lay c, valid lay -> supported_input lay -> generate_honeycomb_circuit lay = Ok c ->
  forall l1 i l2 f, flatten c = l1 ++ i :: l2 -> fault_of i f ->
  forall g f0, exists st, run_faulty g l1 i f l2 (start f0) = Ok st /\
    length (fdets st) = length (detectors 0 0 0 0 (flatten c)) /\
    forall side, (set_off lay c side st <= if (style lay =? "EM3_v2")%string then 4 else 2)%nat.
Proof.
  intros lay c Hv Hs E l1 i l2 f El Hf g f0.
  destruct (faulty_run lay c Hv Hs E) as [Ed K]. destruct (K l1 i l2 f El Hf g f0) as (st & X & Y & z & A0 & Er & Ht & H0 & Hd & Ho).
  exists st. split; [exact Er|]. split; [rewrite Hd; apply map_length|]. intros side. unfold set_off. rewrite Hd, (filter_combine (fun d => eqb (watches lay d) side)), Ed.
  exact (record_few lay Hv (sup_obs lay Hs) (sup_sup lay Hs) X Y _ _ z A0 side H0 Ht).
Qed.
Print Assumptions C79_at_most_two.

(** An error that flips the observable shows on the observable's side. *)
Theorem C79_observable_side : forall lay c, valid lay -> supported_input lay -> 4 <= data_width lay -> generate_honeycomb_circuit lay = Ok c ->
  forall l1 i l2 f, flatten c = l1 ++ i :: l2 -> fault_of i f ->
  forall g f0 st, run_faulty g l1 i f l2 (start f0) = Ok st -> (exists x, fobs st x = true) -> (1 <= set_off lay c true st)%nat.
Proof.
  intros lay c Hv Hs Hw E l1 i l2 f El Hf g f0 st Er (x & Hx).
  destruct (faulty_run lay c Hv Hs E) as [Ed K]. destruct (K l1 i l2 f El Hf g f0) as (st' & X & Y & z & A0 & Er' & Ht & H0 & Hd & Ho). rewrite Er in Er'. injection Er' as <-.
  unfold set_off. rewrite Hd, (filter_combine (fun d => eqb (watches lay d) true)), Ed.
  destruct (filter _ _) as [|d l] eqn:F; [|cbn [length]; lia]. exfalso.
  rewrite Ho, (record_harmless lay Hv (sup_obs lay Hs) (sup_sup lay Hs) Hw X Y z A0 H0 _ _ Ht) in Hx; [unfold mine in Hx; rewrite andb_false_r in Hx; discriminate|].
  intros d Hin Hwd. destruct (xsum _ (d_meas d)) eqn:G; [|reflexivity]. exfalso.
  assert (Q : In d []) by (rewrite <- F; apply filter_In; split; [exact Hin|]; rewrite Hwd, G; reflexivity). destruct Q.
Qed.
Print Assumptions C79_observable_side.

(** ** Concrete errors, run with all random choices 0 *)
Definition tally (lay : layout) (k : nat) (err : nat -> bits) : option (nat * nat * bool) :=
  match generate_honeycomb_circuit lay with
  | Ok c =>
      match run_faulty (fun _ => false) (firstn k (flatten c)) (nth k (flatten c) noop) (Kick err) (skipn (S k) (flatten c)) (start (fun _ => bzero)) with
      | Ok st => Some (set_off lay c true st, set_off lay c false st, fobs st 0%nat)
      | Err _ => None
      end
  | Err _ => None
  end.
(** An error that flips the observable, with two detectors on its side and one on the other. *)
Definition longer : layout := mkLayout 4 6 6 "EM3" "V" (1 # 1000).
Example C79_example : fault_of (nth 32 (written longer) noop) (Kick (both_at PX 19 PZ 1)) /\ tally longer 32 (both_at PX 19 PZ 1) = Some (2%nat, 1%nat, true).
Proof.
  assert (K : exists ts args, nth 32 (written longer) noop = mkI "DEPOLARIZE2" ([] ++ TQ 19 :: TQ 1 :: ts) args) by (vm_compute; eexists; eexists; reflexivity). destruct K as (ts & args & K).
  split; [rewrite K; apply fault_dep2; [now exists 0%nat | apply only_both]|]. vm_compute. reflexivity.
Qed.
(** In the EM3_v2 style two is not enough: an error that strikes both qubits of a check
    and its result sets off four on one side. *)
Definition strong : layout := mkLayout 4 6 2 "EM3_v2" "H" (1 # 1000).
Lemma strong_tally : tally strong 61 (product_at [TP PZ 21; TP PZ 3; TP PX 24]) = Some (4%nat, 0%nat, false).
Proof. vm_compute. reflexivity. Qed.
Lemma tallied lay c k err m m' o : generate_honeycomb_circuit lay = Ok c -> tally lay k err = Some (m, m', o) ->
  exists st, run_faulty (fun _ => false) (firstn k (flatten c)) (nth k (flatten c) noop) (Kick err) (skipn (S k) (flatten c)) (start (fun _ => bzero)) = Ok st /\ set_off lay c true st = m.
Proof. intros E. unfold tally. rewrite E. destruct (run_faulty _ _ _ _ _ _) as [st|]; [|discriminate]. intros K. exists st. split; [reflexivity | congruence]. Qed.
Theorem C79_two_refuted : exists lay c l1 i l2 f g f0 st, valid lay /\ supported_input lay /\ style lay = "EM3_v2"%string /\ generate_honeycomb_circuit lay = Ok c /\ flatten c = l1 ++ i :: l2 /\ fault_of i f /\
  run_faulty g l1 i f l2 (start f0) = Ok st /\ set_off lay c true st = 4%nat.
Proof.
  assert (V : valid strong /\ supported_input strong) by (split; [repeat split; reflexivity|]; split; [cbn; lia|]; split; [now right | cbn; tauto]).
  destruct (made strong (proj1 V) (proj2 V)) as (c & E).
  assert (Ew : written strong = flatten c) by (unfold written; now rewrite E).
  pose proof strong_tally as T.
  assert (K : exists args, nth 61 (written strong) noop = mkI "E" [TP PZ 21; TP PZ 3; TP PX 24] args) by (vm_compute; eexists; reflexivity). destruct K as (args & Ek).
  destruct (tallied _ _ _ _ _ _ _ E T) as (st & Er & Hst).
  exists strong, c, (firstn 61 (flatten c)), (nth 61 (flatten c) noop), (skipn 62 (flatten c)), (Kick (product_at [TP PZ 21; TP PZ 3; TP PX 24])), (fun _ => false), (fun _ => bzero), st.
  split; [repeat split; reflexivity|]. split; [split; [cbn; lia|]; split; [now right | cbn; tauto]|]. split; [reflexivity|]. split; [exact E|]. split; [|split; [|split; [exact Er | exact Hst]]].
  - apply cut_at. rewrite <- Ew, Ek. discriminate.
  - rewrite <- Ew, Ek. apply fault_e. reflexivity.
Qed.
Print Assumptions C79_two_refuted.

(** ** C80 *)
Theorem C80_coordinates_distinct : forall lay c, valid lay -> supported_input lay -> generate_honeycomb_circuit lay = Ok c ->
  forall i j d d', nth_error (detectors 0 0 0 0 (flatten c)) i = Some d -> nth_error (detectors 0 0 0 0 (flatten c)) j = Some d' ->
  (d_x d == d_x d')%Q -> (d_y d == d_y d')%Q -> (d_t d == d_t d')%Q -> i = j.
Proof.
  intros lay c Hv Hs E i j d d' Hi Hj Hx Hy Ht. rewrite (proj1 (faulty_run lay c Hv Hs E)) in Hi, Hj.
  pose proof (keys_distinct lay Hv (sup_sup lay Hs)) as ND.
  destruct (keyed lay Hv (sup_sup lay Hs) d (nth_error_In _ _ Hi)) as (t1 & c1 & K1). destruct (keyed lay Hv (sup_sup lay Hs) d' (nth_error_In _ _ Hj)) as (t2 & c2 & K2).
  assert (K : dkey d = dkey d').
  { assert (R : forall a b, Qred a == Qred b -> Qred a = Qred b) by (intros a b H; apply Qred_complete; rewrite <- (Qred_correct a), <- (Qred_correct b); exact H).
    pose proof (f_equal (fun x => fst (fst x)) K1) as A1. pose proof (f_equal (fun x => snd (fst x)) K1) as A2. pose proof (f_equal snd K1) as A3.
    pose proof (f_equal (fun x => fst (fst x)) K2) as A4. pose proof (f_equal (fun x => snd (fst x)) K2) as A5. pose proof (f_equal snd K2) as A6.
    unfold dkey, kt in A1, A2, A3, A4, A5, A6. cbn [fst snd] in A1, A2, A3, A4, A5, A6. rewrite A1, A4 in Ht. rewrite A2, A5 in Hx. rewrite A3, A6 in Hy.
    rewrite K1, K2. unfold kt. now rewrite (R _ _ Ht), (R _ _ Hx), (R _ _ Hy). }
  apply (proj1 (NoDup_nth_error _) ND).
  - rewrite map_length. apply nth_error_Some. congruence.
  - rewrite !nth_error_map, Hi, Hj. cbn [option_map]. now rewrite K.
Qed.
Print Assumptions C80_coordinates_distinct.
Example C80_example : exists d d' : detector, nth_error (detectors 0 0 0 0 (written wide)) 0 = Some d /\ nth_error (detectors 0 0 0 0 (written wide)) 1 = Some d' /\ (d_t d == d_t d')%Q /\ (length (detectors 0 0 0 0 (written wide)) = 24)%nat.
Proof. eexists. eexists. split; [vm_compute; reflexivity|]. split; [vm_compute; reflexivity|]. split; vm_compute; reflexivity. Qed.
