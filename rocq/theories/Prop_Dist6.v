(** C82, continued: in the styles with measurement qubits the bound of C82 is exact on a
    patch four wide and six high, and lies below the code distance the package reports. *)
From Coq Require Import QArith.
From Verif Require Import Prelude Layout LayoutFacts LayoutEdges LayoutLists LayoutHex LayoutHex2 LayoutIndex Pauli LayoutObs LayoutLogic Tracker TrackerFacts Stim Circuit Noise Annot Shift Ends Gen Gen2 Gen3 Traj Eval Frame Exec Exec2 Exec3 Exec4 Moments NoiseFacts NoiseMoments NoiseCorr NoiseAlign GenShape Prop_Circuit Prop_Noise Prop_Noise2 Prop_Noise3
  Detectors Struct Struct2 Struct3 Distance2 FaultSpec FaultQuiet FaultCore FaultObs FaultStep FaultInv FaultZ FaultInj FaultNoise FaultChain FaultEm3 FaultEnd FaultRun FaultCount FaultLin FaultLine FaultDist FaultTilt FaultReach FaultFinal FaultPairs Prop_Fault Prop_Match Prop_Dist Prop_Distance Prop_Dist2 Prop_Dist3 Prop_Dist4 Prop_Dist5.
Open Scope Z_scope.

(** The error that applies p to qubit a and q to qubit b. *)
Definition kicks (a : nat) (p : bits) (b : nat) (q : bits) : nat -> bits := fun x => if Nat.eqb x a then p else if Nat.eqb x b then q else bzero.
Lemma only_kicks a p b q : only [a; b] (kicks a p b q).
Proof.
  intros x Hx. unfold kicks. destruct (Nat.eqb_spec x a) as [->|]; [elim Hx; now left|]. destruct (Nat.eqb_spec x b) as [->|]; [elim Hx; right; now left | reflexivity].
Qed.
(** The errors fs at instruction k set off nothing and flip observable o. *)
Definition silent_flip (w : list instr) (k : nat) (fs : list fault) (o : nat) : bool :=
  match run_errors still (place w k fs) (start (fun _ => bzero)) with
  | Ok st => forallb negb (fdets st) && fobs st o && Nat.ltb k (length w)
  | Err _ => false
  end.
(** Errors that do so in one run do so in every run. *)
Lemma silent_always lay c k fs o : valid lay -> supported_input lay -> generate_honeycomb_circuit lay = Ok c -> silent_flip (flatten c) k fs o = true ->
  (forall f, In f fs -> fault_of (nth k (flatten c) noop) f) ->
  errors_of (flatten c) (place (flatten c) k fs) /\ error_count (place (flatten c) k fs) = length fs /\
  forall g f0, exists st, run_errors g (place (flatten c) k fs) (start f0) = Ok st /\ (forall d, In d (fdets st) -> d = false) /\ exists x, fobs st x = true.
Proof.
  intros Hv Hs E T Hf. unfold silent_flip in T. destruct (run_errors still _ _) as [sf|] eqn:Rf; [|discriminate]. apply andb_prop in T. destruct T as [T L]. apply andb_prop in T. destruct T as [Td To]. apply Nat.ltb_lt in L.
  destruct (place_errors (flatten c) k fs L Hf) as [P1 P2]. split; [exact P1|]. split; [exact P2|].
  intros g f0. destruct (clean_run _ c Hv Hs E g f0) as (base & Rb & _ & Db & Ob).
  destruct (errors_sum g (place (flatten c) k fs) (start f0) (start (fun _ => bzero)) (start f0) base) as (st & cur & Re & Rc & S3);
    [apply sums_clean; [exact zero_clean | reflexivity | reflexivity | reflexivity] | rewrite (proj1 P1); exact Rb |].
  rewrite Rf in Re. injection Re as <-. exists cur. split; [exact Rc|]. destruct S3 as (_ & _ & (L3 & D3) & O3 & _). split.
  - intros d Hd. apply (In_nth _ _ false) in Hd. destruct Hd as (j & _ & <-). rewrite D3, xors_nth, Db by exact L3.
    destruct (Nat.lt_ge_cases j (length (fdets sf))) as [Lj|Lj]; [|rewrite nth_overflow by exact Lj; reflexivity].
    rewrite forallb_forall in Td. specialize (Td _ (nth_In _ false Lj)). now destruct (nth j (fdets sf) false).
  - exists o. rewrite O3, Ob, To. reflexivity.
Qed.

Lemma is_written lay c : generate_honeycomb_circuit lay = Ok c -> written lay = flatten c.
Proof. intros E. unfold written. now rewrite E. Qed.

(** ** Three errors *)
(** An error on the two qubits of a pair of a two-qubit gate. *)
Definition hit := (nat * bits * nat * bits)%type.
Definition kick (h : hit) : fault := let '(a, p, b, q) := h in Kick (kicks a p b q).
Fixpoint has_pair (a b : nat) (ts : list target) : bool :=
  match ts with
  | x :: y :: r => match x, y with TQ u, TQ v => Nat.eqb u a && Nat.eqb v b | _, _ => false end || has_pair a b r
  | _ => false
  end.
Lemma has_pair_spec a b : forall n ts, (length ts <= n)%nat -> has_pair a b ts = true -> exists ts1 ts2, Nat.Even (length ts1) /\ ts = ts1 ++ TQ a :: TQ b :: ts2.
Proof.
  induction n as [|n IH]; intros ts L H; destruct ts as [|x [|y r]]; try discriminate; cbn [length] in L; [lia|]. cbn [has_pair] in H. apply orb_prop in H. destruct H as [H|H].
  - destruct x as [u| | |]; try discriminate. destruct y as [v| | |]; try discriminate. apply andb_prop in H. destruct H as [H1 H2]. apply Nat.eqb_eq in H1, H2. subst u v. exists [], r. split; [now exists 0%nat | reflexivity].
  - destruct (IH r ltac:(lia) H) as (t1 & t2 & (k & Hk) & ->). exists (x :: y :: t1), t2. split; [exists (S k); cbn [length]; lia | reflexivity].
Qed.
Definition check (hs : list hit) (k : nat) (w : list instr) : bool :=
  silent_flip w k (map kick hs) 1 && (String.eqb (iname (nth k w noop)) "DEPOLARIZE2" && forallb (fun '(a, _, b, _) => has_pair a b (itargets (nth k w noop))) hs).
Lemma check_spec hs k w : check hs k w = true -> silent_flip w k (map kick hs) 1 = true /\ forall f, In f (map kick hs) -> fault_of (nth k w noop) f.
Proof.
  unfold check. intros T. apply andb_prop in T. destruct T as [T1 T2]. split; [exact T1|]. apply andb_prop in T2. destruct T2 as [Tn T2].
  destruct (nth k w noop) as [n ts args]. cbn [iname itargets] in Tn, T2. apply String.eqb_eq in Tn. subst n. intros f Hf. apply in_map_iff in Hf. destruct Hf as ([[[a p] b] q] & <- & Hh).
  rewrite forallb_forall in T2. specialize (T2 _ Hh). destruct (has_pair_spec a b _ ts (le_n _) T2) as (t1 & t2 & Ev & ->). apply fault_dep2; [exact Ev | apply only_kicks].
Qed.

Definition patch (sty : string) (n : Z) : layout := mkLayout 4 6 n sty "H" (1 # 1000).
Definition three : list hit := [(0, (true, false), 27, bzero); (4, (true, false), 30, (true, false)); (2, bzero, 34, (true, false))]%nat.
Lemma checked_SD6 : check three 109 (written (patch "SD6" 4)) = true.
Proof. vm_compute. reflexivity. Qed.
Lemma checked_PC3 : check three 96 (written (patch "PC3" 4)) = true.
Proof. vm_compute. reflexivity. Qed.
(** SI1000 needs other errors and a longer run. *)
Definition three' : list hit := [(5, bzero, 26, (false, true)); (1, (true, false), 27, (false, true)); (3, (true, false), 30, bzero)]%nat.
Lemma checked_SI1000 : check three' 102 (written (patch "SI1000" 6)) = true.
Proof. vm_compute. reflexivity. Qed.
Lemma patch_valid sty n : 1 <= n -> In sty ["SD6"; "PC3"]%string \/ sty = "SI1000"%string /\ n mod 3 = 0 -> valid (patch sty n) /\ supported_input (patch sty n).
Proof.
  intros Hn Hy. split; [repeat split; reflexivity|]. split; [exact Hn|]. split; [now right|]. destruct Hy as [[<-|[<-|[]]]|[-> Hm]]; cbn [patch style sub_rounds]; auto 6.
Qed.

(** Three errors on a patch of code distance four that set off nothing and flip the observable, whatever the random outcomes. *)
Lemma three_unnoticed sty n k hs : valid (patch sty n) -> supported_input (patch sty n) -> length hs = 3%nat -> check hs k (written (patch sty n)) = true ->
  exists c lf, generate_honeycomb_circuit (patch sty n) = Ok c /\ errors_of (flatten c) lf /\ error_count lf = 3%nat /\
  forall g f0, exists st, run_errors g lf (start f0) = Ok st /\ (forall d, In d (fdets st) -> d = false) /\ exists x, fobs st x = true.
Proof.
  intros Hv Hs L T. destruct (made _ Hv Hs) as (c & E). rewrite (is_written _ c E) in T.
  destruct (check_spec _ _ _ T) as [T1 T2]. destruct (silent_always _ c k (map kick hs) 1 Hv Hs E T1 T2) as (P1 & P2 & P3).
  exists c, (place (flatten c) k (map kick hs)). split; [exact E|]. split; [exact P1|]. split; [rewrite P2, map_length; exact L | exact P3].
Qed.
(** So in each of these styles the bound data_height/2 of C82_gate_styles cannot be raised to the code distance. *)
Theorem C82_gate_distance_refuted : forall sty, In sty ["SD6"; "SI1000"; "PC3"]%string -> exists lay c lf, valid lay /\ supported_input lay /\ style lay = sty /\ generate_honeycomb_circuit lay = Ok c /\ errors_of (flatten c) lf /\
  Z.of_nat (error_count lf) < code_distance_1qdep lay /\ 2 * Z.of_nat (error_count lf) = data_height lay /\
  forall g f0, exists st, run_errors g lf (start f0) = Ok st /\ (forall d, In d (fdets st) -> d = false) /\ exists x, fobs st x = true.
Proof.
  intros sty Hy. assert (G : exists n k hs, length hs = 3%nat /\ (1 <= n /\ (In sty ["SD6"; "PC3"]%string \/ sty = "SI1000"%string /\ n mod 3 = 0)) /\ check hs k (written (patch sty n)) = true).
  { destruct Hy as [<-|[<-|[<-|[]]]]; [exists 4, 109%nat, three | exists 6, 102%nat, three' | exists 4, 96%nat, three]; (split; [reflexivity|]; split; [split; [discriminate|]|]).
    - left; cbn; tauto.
    - exact checked_SD6.
    - right; split; reflexivity.
    - exact checked_SI1000.
    - left; cbn; tauto.
    - exact checked_PC3. }
  destruct G as (n & k & hs & L & [G1 G2] & T). destruct (patch_valid sty n G1 G2) as [Hv Hs].
  destruct (three_unnoticed sty n k hs Hv Hs L T) as (c & lf & E & P1 & P2 & P3). exists (patch sty n), c, lf. rewrite P2. repeat (split; [assumption || reflexivity|]). exact P3.
Qed.
Print Assumptions C82_gate_distance_refuted.
