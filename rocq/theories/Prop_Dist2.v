(** C82: errors of one data qubit each.  Fewer of them than the code distance, anywhere
    in the generated noisy circuit, never flip the logical observable unnoticed. *)
From Coq Require Import QArith.
From Verif Require Import Prelude Layout LayoutFacts LayoutEdges LayoutLists LayoutHex LayoutHex2 LayoutIndex Pauli LayoutObs LayoutLogic Stim Circuit Noise Annot Ends Gen3 Traj Eval Frame Exec2 Exec4 NoiseFacts NoiseMoments NoiseCorr NoiseAlign Prop_Circuit Prop_Noise Prop_Noise2 Prop_Noise3
  Detectors Struct2 FaultSpec FaultQuiet FaultCore FaultObs FaultInv FaultZ FaultInj FaultNoise FaultChain FaultRun FaultCount FaultLin FaultLine FaultDist FaultTilt Prop_Fault Prop_Match Prop_Dist.
Open Scope Z_scope.

Section S.
  Variable lay : layout.
  Hypothesis Hv : valid lay.
  Hypothesis Hobs : obs lay = "V"%string \/ obs lay = "H"%string.
  Hypothesis Hs : supported lay.
  Notation W := (data_width lay).
  Notation H := (data_height lay).
  Local Opaque data_qubit_coords measure_qubit_coords q2i_dict hex_entries hexes round_edges all_edges isort.

  (** one data qubit is in the way of one column, or of two rows *)
  Lemma one_lines q : isdata lay q -> exists h, (length h <= if (obs lay =? "V")%string then 1 else 2)%nat /\ forall c, 0 <= c < lines lay -> ~ In c h -> clear_of lay c q.
  Proof.
    intros Hq. pose proof (valid_tiles lay Hv) as (T1 & T2 & T3 & T4). destruct (data_ab lay Hv q Hq) as (a & b & -> & Ha & Hb). unfold lines, clear_of. destruct (obs lay =? "V")%string; cbn [fst snd].
    - exists [a]. split; [cbn; lia|]. intros c _ Hn E. apply Hn. left. lia.
    - exists [b; (b - 1) mod H]. split; [cbn; lia|]. intros c Hc Hn. cbn [In] in Hn. rewrite Z.mul_mod_distr_l by lia. rewrite (mod_near H) in Hn |- * by lia.
      repeat match goal with |- context [?x <? ?y] => destruct (Z.ltb_spec x y) | K : context [?x <? ?y] |- _ => destruct (Z.ltb_spec x y) end; lia.
  Qed.
  (** with one data qubit only, all that matters is at that qubit *)
  Definition moved_at (R : Z -> cpx -> bool) (c : crack) (q : cpx) : bool :=
    let k := Z.of_nat (ck c) in
    if ahead lay k then xorb (crossed lay R (k + 2) (k + 2) k q && xorb (pu c) (pv c)) (crossed lay R k k (k + 4) q && cf c) else crossed lay R k (k + 3) (k + 1) q && pw c.
  Lemma moved_one B c : cracked lay B c -> cP c (e_left (ce c)) = bzero \/ cP c (e_right (ce c)) = bzero ->
    exists q, isdata lay q /\ forall R, moved lay R c = moved_at R c q.
  Proof.
    intros (Hk & He & _). destruct (ab_data lay Hv (ck c) (ce c) He) as (Ha & Hb & _ & Eb & _). intros [Z0|Z0].
    - exists (e_right (ce c)). split; [exact Hb|]. intros R'. unfold moved, moved_at. cbv zeta. rewrite !(crossed_partner lay Hv _ (Z.of_nat (ck c)) _ _ (ce c) He Ha Eb).
      replace (pu c) with false by (unfold pu; rewrite Z0; now destruct (xyz _)). rewrite andb_false_r, !xorb_false_l. reflexivity.
    - exists (e_left (ce c)). split; [exact Ha|]. intros R'. unfold moved, moved_at. cbv zeta.
      replace (pv c) with false by (unfold pv; rewrite Z0; now destruct (xyz _)). rewrite andb_false_r, !xorb_false_l, xorb_false_r. reflexivity.
  Qed.
  Lemma one_harmless cs : (forall p, In p cs -> cracked lay (snd p) (fst p) /\ fits True False (fst p)) ->
    (forall d, In d (detectors 0 0 0 0 (circuit_i lay)) -> watches lay d = true -> xsum (fun p => xsum (snd p) (d_meas d)) cs = false) ->
    (if (obs lay =? "V")%string then Z.of_nat (length cs) < W else 2 * Z.of_nat (length cs) < H) -> xsum (fun p => effect lay (snd p)) cs = false.
  Proof.
    intros Hcs HQ L. apply (undetected_free lay Hv Hobs Hs (fun c _ => between lay c) (lines lay) (if (obs lay =? "V")%string then 1 else 2)%nat cs (fun p Hp => proj1 (Hcs p Hp)) HQ).
    - intros p Hp. destruct (Hcs p Hp) as [Hc [F _]]. destruct (moved_one _ _ Hc (F Logic.I)) as (q & Hq & M). destruct (one_lines q Hq) as (h & Lh & Hh). exists h. split; [exact Lh|].
      intros c Hr Hn. rewrite M. unfold moved_at. cbv zeta. rewrite !(clear_crossed lay Hv) by auto. destruct (ahead _ _); reflexivity.
    - unfold lines. destruct (obs lay =? "V")%string; lia.
  Qed.
  Lemma bare_harmless cs : obs lay <> "V"%string -> (forall p, In p cs -> cracked lay (snd p) (fst p) /\ fits True True (fst p)) ->
    (forall d, In d (detectors 0 0 0 0 (circuit_i lay)) -> watches lay d = true -> xsum (fun p => xsum (snd p) (d_meas d)) cs = false) ->
    3 * Z.of_nat (length cs) < 2 * H -> xsum (fun p => effect lay (snd p)) cs = false.
  Proof.
    intros Ho Hcs HQ L. apply (undetected_free lay Hv Hobs Hs (RT lay) (2 * H) 3%nat cs (fun p Hp => proj1 (Hcs p Hp)) HQ); [|lia].
    intros p Hp. destruct (Hcs p Hp) as [Hc [F1 F2]]. specialize (F1 Logic.I). specialize (F2 Logic.I). destruct (moved_one _ _ Hc F1) as (q & Hq & M). set (c := fst p) in *. clearbody c. clear F1.
    assert (Par : cf c = true -> xorb (pu c) (pv c) = true).
    { intros Cf. rewrite <- (F2 Cf). unfold par, edge_op, pstr. cbn [map]. rewrite !xsum_cons. cbn [fst snd]. unfold pu, pv. change (xsum _ []) with false. now rewrite xorb_false_r. }
    set (k := Z.of_nat (ck c)) in *. destruct (ahead lay k) eqn:Ak.
    - assert (Ev : k mod 2 = 0) by (unfold ahead in Ak; destruct (String.eqb_spec (obs lay) "V"); [contradiction | now apply Z.eqb_eq]).
      destruct (cf c) eqn:Cf.
      + destruct (few_sheets_flip lay Hv k q Ho Hq Ev) as (h & Lh & Hh). exists h. split; [lia|]. intros z Hz Hn. rewrite M. unfold moved_at. cbv zeta. fold k. rewrite Ak, Cf, Par, !andb_true_r by reflexivity. now apply Hh.
      + destruct (few_sheets lay Hv (k + 2) k q Ho Hq Ev) as (h & Lh & Hh). exists h. split; [lia|]. intros z Hz Hn. rewrite M. unfold moved_at. cbv zeta. fold k. rewrite Ak, Cf, Hh by assumption. now rewrite andb_false_r.
    - assert (Ev : (k + 1) mod 2 = 0) by (unfold ahead in Ak; destruct (String.eqb_spec (obs lay) "V"); [contradiction | apply Z.eqb_neq in Ak; revert Ak; dlia]).
      destruct (few_sheets lay Hv k (k + 1) q Ho Hq Ev) as (h & Lh & Hh). exists h. split; [lia|]. intros z Hz Hn. rewrite M. unfold moved_at. cbv zeta. fold k. rewrite Ak. replace (k + 3) with (k + 1 + 2) by lia. rewrite Hh by assumption. reflexivity.
  Qed.
End S.

Lemma one_forgiving lay t : valid lay -> supported_input lay -> (if (obs lay =? "V")%string then Z.of_nat t < data_width lay else 2 * Z.of_nat t < data_height lay) -> forgiving lay True False t.
Proof. intros Hv Hs L cs Hcs Lc HQ. apply (one_harmless lay Hv (sup_obs lay Hs) (sup_sup lay Hs) cs Hcs HQ). now rewrite Lc. Qed.
Lemma bare_forgiving lay t : valid lay -> supported_input lay -> Z.of_nat t < code_distance_1qdep lay -> forgiving lay True True t.
Proof.
  intros Hv Hs L cs Hcs Lc HQ. pose proof (valid_tiles lay Hv) as (T1 & T2 & T3 & T4). unfold code_distance_1qdep in L. destruct (String.eqb_spec (obs lay) "V") as [E|N].
  - apply (one_harmless lay Hv (sup_obs lay Hs) (sup_sup lay Hs) cs); [|exact HQ | rewrite E, Lc; cbn [String.eqb Ascii.eqb Bool.eqb]; lia].
    intros p Hp. destruct (Hcs p Hp) as [Q1 [Q2 _]]. split; [exact Q1|]. split; [exact Q2 | intros []].
  - apply (bare_harmless lay Hv (sup_obs lay Hs) (sup_sup lay Hs) cs N Hcs HQ). rewrite Lc. revert L. dlia.
Qed.

(** the errors lf are all of the kind Q *)
Definition all_errors (Q : fault -> Prop) (lf : list (instr * list fault)) : Prop := forall i fs f, In (i, fs) lf -> In f fs -> Q f.
Lemma all_in Q lf : all_errors Q lf -> forall f, In f (flat_map snd lf) -> Q f.
Proof. intros K f Hf. apply in_flat_map in Hf. destruct Hf as ([i fs] & Hi & Hf). exact (K i fs f Hi Hf). Qed.
(** a Pauli error on one data qubit, and on nothing else *)
Definition data_error (lay : layout) (f : fault) : Prop := one_data lay f /\ data_only lay f.

(** How many errors of one data qubit each (with or without measurement qubits) are always noticed. *)
Definition few_data (lay : layout) (n : nat) : Prop := if (obs lay =? "V")%string then Z.of_nat n < data_width lay else 2 * Z.of_nat n < data_height lay.

(** Errors that touch one data qubit each, and any measurement qubits. *)
Theorem C82_one_data_qubit : forall lay c, valid lay -> supported_input lay -> generate_honeycomb_circuit lay = Ok c ->
  forall lf, errors_of (flatten c) lf -> all_errors (one_data lay) lf -> few_data lay (error_count lf) ->
  forall g f0, exists st, run_errors g lf (start f0) = Ok st /\ ((exists x, fobs st x = true) -> (1 <= set_off lay c true st)%nat).
Proof.
  intros lay c Hv Hs E lf Hlf Ha L g f0.
  destruct (forgiving_detected lay c Hv Hs E True False lf Hlf) with (g := g) (f0 := f0) as (st & R & _ & K); [|exact (one_forgiving lay _ Hv Hs L)|now exists st].
  intros f Hf. split; [|intros []]. intros _. right. exact (all_in _ _ Ha f Hf).
Qed.
Print Assumptions C82_one_data_qubit.

(** In the gate based styles no error touches two data qubits, so all errors count. *)
Theorem C82_gate_styles : forall lay c, valid lay -> supported_input lay -> In (style lay) ["SD6"; "PC3"; "SI1000"]%string -> generate_honeycomb_circuit lay = Ok c ->
  forall lf, errors_of (flatten c) lf -> few_data lay (error_count lf) ->
  forall g f0, exists st, run_errors g lf (start f0) = Ok st /\ ((exists x, fobs st x = true) -> (1 <= set_off lay c true st)%nat).
Proof.
  intros lay c Hv Hs Hg E lf Hlf L g f0.
  destruct (forgiving_detected lay c Hv Hs E True False lf Hlf) with (g := g) (f0 := f0) as (st & R & _ & K); [|exact (one_forgiving lay _ Hv Hs L)|now exists st].
  intros f Hf. split; [|intros []]. intros _. left. destruct Hg as [<-|[<-|[<-|[]]]]; reflexivity.
Qed.
Print Assumptions C82_gate_styles.
Theorem C82_gate_correctable : forall lay c, valid lay -> supported_input lay -> In (style lay) ["SD6"; "PC3"; "SI1000"]%string -> generate_honeycomb_circuit lay = Ok c ->
  forall lf lf', errors_of (flatten c) lf -> errors_of (flatten c) lf' -> few_data lay (error_count lf + error_count lf') ->
  forall g f0 st g' f0' st', run_errors g lf (start f0) = Ok st -> run_errors g' lf' (start f0') = Ok st' -> fdets st = fdets st' -> forall x, fobs st x = fobs st' x.
Proof.
  intros lay c Hv Hs Hg E lf lf' Hlf Hlf' L.
  refine (forgiving_told_apart lay c Hv Hs E True False lf lf' Hlf Hlf' _ _ (one_forgiving lay _ Hv Hs L)); (intros f Hf; split; [|intros []]; intros _; left; destruct Hg as [<-|[<-|[<-|[]]]]; reflexivity).
Qed.
Print Assumptions C82_gate_correctable.

(** Pauli errors on single data qubits: fewer than the code distance are noticed, *)
Theorem C82_code_distance : forall lay c, valid lay -> supported_input lay -> generate_honeycomb_circuit lay = Ok c ->
  forall lf, errors_of (flatten c) lf -> all_errors (data_error lay) lf -> Z.of_nat (error_count lf) < code_distance_1qdep lay ->
  forall g f0, exists st, run_errors g lf (start f0) = Ok st /\ ((exists x, fobs st x = true) -> exists d, In d (fdets st) /\ d = true).
Proof.
  intros lay c Hv Hs E lf Hlf Ha L g f0.
  destruct (forgiving_detected lay c Hv Hs E True True lf Hlf) with (g := g) (f0 := f0) as (st & R & _ & K); [|exact (bare_forgiving lay _ Hv Hs L)|].
  - intros f Hf. destruct (all_in _ _ Ha f Hf). auto.
  - exists st. split; [exact R|]. intros Hx. exact (some_set_off lay c st (K Hx)).
Qed.
Print Assumptions C82_code_distance.
(** and fewer than half as many can be corrected. *)
Theorem C82_code_distance_correctable : forall lay c, valid lay -> supported_input lay -> generate_honeycomb_circuit lay = Ok c ->
  forall lf lf', errors_of (flatten c) lf -> errors_of (flatten c) lf' -> all_errors (data_error lay) lf -> all_errors (data_error lay) lf' ->
  2 * Z.of_nat (error_count lf) < code_distance_1qdep lay -> 2 * Z.of_nat (error_count lf') < code_distance_1qdep lay ->
  forall g f0 st g' f0' st', run_errors g lf (start f0) = Ok st -> run_errors g' lf' (start f0') = Ok st' -> fdets st = fdets st' -> forall x, fobs st x = fobs st' x.
Proof.
  intros lay c Hv Hs E lf lf' Hlf Hlf' Ha Ha' L L'.
  refine (forgiving_told_apart lay c Hv Hs E True True lf lf' Hlf Hlf' _ _ (bare_forgiving lay _ Hv Hs _)); try lia; intros f Hf; [destruct (all_in _ _ Ha f Hf) | destruct (all_in _ _ Ha' f Hf)]; auto.
Qed.
Print Assumptions C82_code_distance_correctable.

(** ** Concrete errors *)
Definition lone (p : pauli) (a : nat) : nat -> bits := fun x => if Nat.eqb x a then pbits p else bzero.
Lemma only_lone p a : only [a] (lone p a).
Proof. intros x Hx. unfold lone. destruct (Nat.eqb_spec x a) as [->|_]; [destruct Hx; now left | reflexivity]. Qed.
Lemma lone_data lay p q : valid lay -> isdata lay q -> data_error lay (Kick (lone p (ix lay q))).
Proof.
  intros Hv Hq. split; cbn [one_data data_only].
  - exists q. intros r Hr N. unfold lone. destruct (Nat.eqb_spec (ix lay r) (ix lay q)) as [E|_]; [|reflexivity]. exfalso. apply N. exact (ix_inj lay Hv r q (data_in_qubits lay Hv r Hr) (data_in_qubits lay Hv q Hq) E).
  - intros x Hx. unfold lone. destruct (Nat.eqb_spec x (ix lay q)) as [E|_]; [|reflexivity]. exfalso. apply (Hx q Hq). now symmetry.
Qed.
Definition four : layout := mkLayout 4 6 2 "EM3" "H" (1 # 1000).
Definition seen (lay : layout) (k : nat) (fs : list fault) : option (nat * nat * bool) :=
  match generate_honeycomb_circuit lay with
  | Ok c =>
      match run_errors (fun _ => false) (place (flatten c) k fs) (start (fun _ => bzero)) with
      | Ok st => Some (set_off lay c true st, set_off lay c false st, fobs st 1%nat)
      | Err _ => None
      end
  | Err _ => None
  end.
Lemma four_valid : valid four /\ supported_input four.
Proof. split; [repeat split; reflexivity|]. split; [cbn; lia|]. split; [now right | cbn; tauto]. Qed.
Lemma four_faults a : In a (seq 0 24) -> fault_of (nth 52 (written four) noop) (Kick (lone PX a)).
Proof.
  intros Ha. assert (K : exists args, nth 52 (written four) noop = mkI "X_ERROR" (map TQ (seq 0 24)) args) by (vm_compute; eexists; reflexivity).
  destruct K as (args & ->). apply (fault_x _ _ a); [now apply in_map | apply only_lone | unfold lone; now rewrite Nat.eqb_refl].
Qed.
(** Three X errors before the final measurement, fewer than the distance 4, flip the observable and set off two detectors. *)
Example C82_example : valid four /\ supported_input four /\ code_distance_1qdep four = 4 /\
  (forall a, In a [0; 1; 3]%nat -> fault_of (nth 52 (written four) noop) (Kick (lone PX a)) /\ data_error four (Kick (lone PX a))) /\
  seen four 52 (map (fun a => Kick (lone PX a)) [0; 1; 3]%nat) = Some (2%nat, 0%nat, true) /\
  seen four 52 (map (fun a => Kick (lone PX a)) [0; 1; 3; 4]%nat) = Some (0%nat, 0%nat, true).
Proof.
  split; [apply four_valid|]. split; [apply four_valid|]. split; [reflexivity|]. split; [|split; vm_compute; reflexivity].
  intros a Ha. split; [apply four_faults, in_seq; cbn [In] in Ha; lia|].
  assert (K : forall b, 0 <= b < 6 -> ix four (2, 2 * b) = Z.to_nat b).
  { intros b Hb. assert (J : forallb (fun b => Nat.eqb (ix four (2, 2 * b)) (Z.to_nat b)) (zrange 0 6) = true) by (vm_compute; reflexivity).
    rewrite forallb_forall in J. apply Nat.eqb_eq, J. apply in_zrange. lia. }
  replace a with (ix four (2, 2 * Z.of_nat a)) by (rewrite K by (cbn [In] in Ha; lia); lia).
  apply lone_data; [apply four_valid|]. cbn [In] in Ha. destruct Ha as [<-|[<-|[<-|[]]]]; vm_compute; repeat split; congruence.
Qed.
