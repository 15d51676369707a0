(** C84, continued: every generated circuit has an error model as the theorems of
    Prop_Graph.v suppose.  (Which errors are possible is a question about functions on
    qubits; it is settled by excluded middle.) *)
From Coq Require Import QArith.
From Coq Require Import Classical_Prop Ascii.
From Verif Require Import Prelude Decoding Prop_Decoding Layout LayoutFacts LayoutEdges LayoutLists LayoutIndex Pauli Stim Circuit Noise Ends Gen3 Frame Exec4 Detectors Struct2 NoiseFacts NoiseMoments Prop_Circuit Prop_Noise
  FaultSpec FaultQuiet FaultCore FaultObs FaultInv FaultZ FaultNoise FaultRun FaultCount FaultLin FaultLine FaultDist FaultTilt Prop_Fault Prop_Match Annot Prop_Dist Prop_Dist2 Prop_Match2 Prop_Graph.
Open Scope Z_scope.

(** The model with these errors, each of probability p, and n detectors. *)
Definition listed (p : Q) (n : nat) (es : list (list nat * list nat)) : dmodel :=
  map (fun e => DError p (map DDet (fst e) ++ map DObs (snd e))) es ++ [DDetector [] (seq 0 n)].

Lemma components_whole ts : ~ In DSep ts -> components ts = [ts].
Proof. induction ts as [|t ts IH]; intros H; [reflexivity|]. cbn [components]. rewrite IH by (intros K; apply H; now right). destruct t; [reflexivity | reflexivity | exfalso; apply H; now left]. Qed.
Lemma det_ids_listed d f : det_ids (map DDet d ++ map DObs f) = d /\ obs_ids (map DDet d ++ map DObs f) = f.
Proof.
  assert (A : det_ids (map DObs f) = [] /\ obs_ids (map DObs f) = f) by (induction f as [|x f [I1 I2]]; cbn; [auto | rewrite I2; auto]). destruct A as [A1 A2].
  induction d as [|x d [I1 I2]]; cbn [map app det_ids obs_ids]; [auto | rewrite I1; auto].
Qed.
Lemma no_sep d f : ~ In DSep (map DDet d ++ map DObs f).
Proof. intros K. apply in_app_or in K. destruct K as [K|K]; apply in_map_iff in K; destruct K as (x & Q & _); discriminate. Qed.
Lemma listed_unrolled p n es : unrolled (listed p n es) = listed p n es.
Proof. unfold unrolled, listed. rewrite flat_map_app. f_equal. induction es as [|e es IH]; [reflexivity|]. cbn [map flat_map unroll app]. now rewrite IH. Qed.
Lemma listed_after p n es pre : total_shift pre = 0%nat -> forall q d f, In (EError q d f) (after pre (listed p n es)) <-> q = p /\ In (d, f) es.
Proof.
  revert pre. induction es as [|[d0 f0] es IH]; intros pre Hp q d f.
  - cbn [listed map app after report]. rewrite app_nil_r. split; [|intros [_ []]]. intros K. apply in_map_iff in K. destruct K as (k & Q & _). discriminate.
  - change (listed p n ((d0, f0) :: es)) with (DError p (map DDet d0 ++ map DObs f0) :: listed p n es). cbn [after report]. rewrite components_whole by apply no_sep. cbn [map].
    destruct (det_ids_listed d0 f0) as [-> ->]. rewrite Hp. rewrite (map_ext (fun k => (k + 0)%nat) (fun k => k)) by (intros; lia). rewrite map_id. rewrite in_app_iff, IH.
    + cbn [In]. split; [intros [[Q|[]]|[Q1 Q2]]; [injection Q as <- <- <-; auto | auto] | intros [-> [Q|Q]]; [injection Q as <- <-; auto | auto]].
    + rewrite total_shift_app, Hp. reflexivity.
Qed.
Lemma listed_reports p n es q d f : In (EError q d f) (reports (unrolled (listed p n es))) <-> q = p /\ In (d, f) es.
Proof. rewrite listed_unrolled, reports_after. now apply listed_after. Qed.
Lemma above_max l n : (forall k, In k l -> (k < n)%nat) -> (above l <= n)%nat.
Proof. induction l as [|k l IH]; intros H; cbn [above fold_right]; [lia|]. pose proof (H k (or_introl eq_refl)). specialize (IH (fun j Hj => H j (or_intror Hj))). unfold above in IH. lia. Qed.
Lemma listed_detectors p n es : (forall d f k, In (d, f) es -> In k d -> (k < n)%nat) -> num_detectors (listed p n es) = n.
Proof.
  intros H. unfold num_detectors. cbn [count_item Nat.iter nat_rect]. unfold Nat.iter, nat_rect.
  assert (K : forall es' m, (m <= n)%nat -> (forall d f k, In (d, f) es' -> In k d -> (k < n)%nat) -> exists m', (m' <= n)%nat /\ fold_left (fun st y => count_item y st) (map (fun e => DError p (map DDet (fst e) ++ map DObs (snd e))) es') (m, 0%nat) = (m', 0%nat)).
  { induction es' as [|[d f] es' IH]; intros m Lm Hes; [exists m; auto|]. cbn [map fold_left count_item fst snd].
    apply IH; [|intros d' f' k Hi; exact (Hes d' f' k (or_intror Hi))]. destruct (det_ids_listed d f) as [-> _]. apply Nat.max_lub; [exact Lm|]. apply above_max. intros k Hk. apply in_map_iff in Hk. destruct Hk as (k' & <- & Hk). pose proof (Hes d f k' (or_introl eq_refl) Hk). lia. }
  destruct (K es 0%nat ltac:(lia) H) as (m' & Lm & F). unfold listed. rewrite fold_left_app, F. cbn [fold_left count_item fst].
  rewrite (map_ext (fun k => (k + 0)%nat) (fun k => k)) by (intros; lia). rewrite map_id.
  assert (A : above (seq 0 n) = n).
  { apply Nat.le_antisymm; [apply above_max; intros k Hk; apply in_seq in Hk; lia|]. destruct n as [|n]; [lia|]. apply (above_le n). apply in_seq. lia. }
  rewrite A. lia.
Qed.

(** the possible symptoms on one side *)
Definition at_most_two (n : nat) : list (list nat) := [] :: map (fun u => [u]) (seq 0 n) ++ flat_map (fun u => map (fun v => [u; v]) (seq 0 n)) (seq 0 n).
Lemma at_most_two_in n d : (length d <= 2)%nat -> (forall k, In k d -> (k < n)%nat) -> In d (at_most_two n).
Proof.
  intros L H. destruct d as [|u [|v [|w d]]]; [now left | | | cbn in L; lia]; right; apply in_or_app; [left | right].
  - apply in_map_iff. exists u. split; [reflexivity|]. apply in_seq. pose proof (H u (or_introl eq_refl)). lia.
  - apply in_flat_map. exists u. split; [apply in_seq; pose proof (H u (or_introl eq_refl)); lia|]. apply in_map_iff. exists v. split; [reflexivity|]. apply in_seq. pose proof (H v (or_intror (or_introl eq_refl))). lia.
Qed.
Lemma select {T} (P : T -> Prop) (l : list T) : exists s, forall x, In x s <-> In x l /\ P x.
Proof.
  induction l as [|y l (s & IH)]; [exists []; intros x; split; [intros [] | intros [[] _]]|]. destruct (classic (P y)) as [Y|N].
  - exists (y :: s). intros x. cbn [In]. rewrite IH. split; [intros [<-|[]]; auto | intros [[<-|] ]; auto].
  - exists s. intros x. rewrite IH. cbn [In]. split; [intros []; auto | intros [[<-|] ]; [contradiction | auto]].
Qed.

Lemma listed_model : forall lay c, valid lay -> supported_input lay -> generate_honeycomb_circuit lay = Ok c ->
  let n := length (detectors 0 0 0 0 (flatten c)) in
  exists s, NoDup s /\ (forall d f, In (d, f) s -> (f = [] \/ f = [oidx lay]) /\ forall k, In k d -> (k < n)%nat) /\ let m := listed (1 # 1000) n s in
    small_args (unrolled m) /\ uncertain (reports (unrolled m)) /\ graphlike (reports (unrolled m)) /\ side_by_side lay c m /\ describes lay c m /\ complete lay c m.
Proof.
  intros lay c Hv Hs E n.
  destruct (select (fun e => exists side, piece_of lay c (eqb side) (fst e) (snd e)) (list_prod (at_most_two n) [[]; [oidx lay]])) as (s0 & Hsel0).
  assert (dec : forall a b : list nat * list nat, {a = b} + {a <> b}) by (decide equality; apply (list_eq_dec Nat.eq_dec)).
  set (s := nodup dec s0). assert (Hsel : forall x, In x s <-> In x (list_prod (at_most_two n) [[]; [oidx lay]]) /\ exists side, piece_of lay c (eqb side) (fst x) (snd x)) by (intros x; unfold s; rewrite nodup_In; apply Hsel0).
  assert (Hsmall : forall d f, In (d, f) s -> (length d <= 2)%nat /\ forall k, In k d -> (k < n)%nat).
  { intros d f Hin. apply Hsel in Hin. destruct Hin as [Hin (side & l1 & i & l2 & fl & g & f0 & st & _ & _ & _ & _ & Hd & _)]. split.
    - apply in_prod_iff in Hin. destruct Hin as [Hin _]. unfold at_most_two in Hin. destruct Hin as [<-|Hin]; [cbn; lia|]. apply in_app_or in Hin. destruct Hin as [Hin|Hin].
      + apply in_map_iff in Hin. destruct Hin as (u & <- & _). cbn. lia.
      + apply in_flat_map in Hin. destruct Hin as (u & _ & Hin). apply in_map_iff in Hin. destruct Hin as (v & <- & _). cbn. lia.
    - intros k Hk. cbn [fst] in Hd. apply Hd in Hk. destruct Hk as (dt & Hj & _). apply nth_error_Some. congruence. }
  exists s. split; [apply NoDup_nodup|]. split.
  { intros d f Hin. split; [|exact (proj2 (Hsmall d f Hin))]. apply Hsel in Hin. destruct Hin as [Hin _]. apply in_prod_iff in Hin. destruct Hin as [_ [<-|[<-|[]]]]; auto. }
  cbn zeta.
  assert (SS : side_by_side lay c (listed (1 # 1000) n s)).
  { split; [apply listed_detectors; intros d f k Hin; exact (proj2 (Hsmall d f Hin) k)|]. intros p d f Hin _. apply listed_reports in Hin. destruct Hin as [_ Hin]. apply Hsel in Hin. exact (proj2 Hin). }
  split; [|split; [|split; [|split; [exact SS|split; [exact (sided_describes lay c _ SS)|]]]]].
  - rewrite listed_unrolled. intros x Hx. apply in_app_or in Hx. destruct Hx as [Hx|[<-|[]]]; [apply in_map_iff in Hx; destruct Hx as (e & <- & _); exact Logic.I | cbn; lia].
  - intros p d f Hin. apply listed_reports in Hin. destruct Hin as [-> _]. split; [discriminate | reflexivity].
  - intros p d f Hin _. apply listed_reports in Hin. exact (proj1 (Hsmall d f (proj2 Hin))).
  - intros l1 i l2 f El Hf Hpm g f0 st R side _.
    destruct (faulty_run lay c Hv Hs E) as [Ed K]. destruct (K l1 i l2 f El Hf g f0) as (st' & X & Y & z & A0 & R' & _ & _ & Gd & Go). assert (st' = st) by congruence. subst st'.
    set (d := filter (fun j => match nth_error (detectors 0 0 0 0 (flatten c)) j with Some dt => eqb side (watches lay dt) && nth j (fdets st) false | None => false end) (seq 0 n)).
    set (fr := if side && fobs st (oidx lay) then [oidx lay] else []).
    assert (Hsh : shows lay c st (eqb side) d fr).
    { split; [apply NoDup_filter, seq_NoDup|]. split.
      - intros j. unfold d. rewrite filter_In, in_seq. split.
        + intros [_ Q]. destruct (nth_error _ j) as [dt|]; [|discriminate]. apply andb_true_iff in Q. exists dt. tauto.
        + intros (dt & Hj & K1 & K2). split; [split; [lia|]; apply nth_error_Some; congruence|]. now rewrite Hj, K1, K2.
      - intros x. unfold fr. assert (Hx : x <> oidx lay -> fobs st x = false) by (intros N; rewrite Go; unfold mine; apply Nat.eqb_neq in N; now rewrite N).
        destruct (Nat.eq_dec x (oidx lay)) as [->|N].
        + destruct side, (fobs st (oidx lay)); cbn; intuition congruence.
        + rewrite (Hx N). destruct (side && _); cbn; intuition congruence. }
    exists (1 # 1000)%Q, d, fr. split; [|split; [discriminate | exact Hsh]]. apply listed_reports. split; [reflexivity|]. apply Hsel. split.
    + apply in_prod.
      * apply at_most_two_in; [|intros k Hk; apply filter_In in Hk; destruct Hk as [Hk _]; apply in_seq in Hk; lia].
        destruct (Hpm g f0) as (st' & R'' & Q). assert (st' = st) by congruence. subst st'. specialize (Q side).
        refine (shown_two lay c st side d fr _ Q Hsh). rewrite Gd. apply map_length.
      * unfold fr. destruct (side && _); cbn; auto.
    + exists side, l1, i, l2, f, g, f0, st. cbn [fst snd]. auto.
Qed.

Theorem C84_model_exists : forall lay c, valid lay -> supported_input lay -> generate_honeycomb_circuit lay = Ok c ->
  exists m, small_args (unrolled m) /\ uncertain (reports (unrolled m)) /\ graphlike (reports (unrolled m)) /\ side_by_side lay c m /\ describes lay c m /\ complete lay c m.
Proof. intros lay c Hv Hs E. destruct (listed_model lay c Hv Hs E) as (s & _ & _ & K). eexists. exact K. Qed.
Print Assumptions C84_model_exists.
