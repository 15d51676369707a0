(** Errors add up: the frame of a run with several errors is the sum of the frames of
    runs with one of them each. *)
From Coq Require Import QArith.
From Verif Require Import Prelude Layout LayoutFacts Pauli Stim Frame Detectors Exec4 NoiseMoments FaultSpec.
Open Scope Z_scope.

Fixpoint xors (l m : list bool) : list bool :=
  match l, m with x :: l, y :: m => xorb x y :: xors l m | _, _ => [] end.
Lemma xors_length l : forall m, length l = length m -> length (xors l m) = length l.
Proof. induction l as [|x l IH]; intros [|y m] H; cbn in *; try lia. rewrite IH; lia. Qed.
Lemma xors_app l : forall m l' m', length l = length m -> xors (l ++ l') (m ++ m') = xors l m ++ xors l' m'.
Proof. induction l as [|x l IH]; intros [|y m] l' m' H; cbn in *; try lia; [reflexivity|]. rewrite IH; [reflexivity | lia]. Qed.
Lemma xors_nth l : forall m j, length l = length m -> nth j (xors l m) false = xorb (nth j l false) (nth j m false).
Proof. induction l as [|x l IH]; intros [|y m] [|j] H; cbn in *; try lia; try reflexivity. apply IH. lia. Qed.
Lemma xors_comm l : forall m, xors l m = xors m l.
Proof. induction l as [|x l IH]; intros [|y m]; cbn; try reflexivity. now rewrite IH, xorb_comm. Qed.
Lemma flip_length j : forall l, length (flip j l) = length l.
Proof. induction j as [|j IH]; intros [|b l]; cbn; auto. Qed.
Lemma xors_flip l : forall m j, length l = length m -> xors l (flip j m) = flip j (xors l m).
Proof.
  induction l as [|x l IH]; intros [|y m] [|j] H; cbn in *; try lia; try reflexivity.
  - f_equal. destruct x, y; reflexivity.
  - rewrite IH; [reflexivity | lia].
Qed.

(** ** c is the sum of a and b *)
Definition sums (a b c : fstate) : Prop :=
  (forall x, fr c x = bxor (fr a x) (fr b x)) /\
  (length (frec a) = length (frec b) /\ frec c = xors (frec a) (frec b)) /\
  (length (fdets a) = length (fdets b) /\ fdets c = xors (fdets a) (fdets b)) /\
  (forall x, fobs c x = xorb (fobs a x) (fobs b x)) /\ fgi b = fgi a /\ fgi c = fgi a.

Lemma bxor_swap a b c d : bxor (bxor a b) (bxor c d) = bxor (bxor a c) (bxor b d).
Proof. destruct a as [[] []], b as [[] []], c as [[] []], d as [[] []]; reflexivity. Qed.
Lemma xorb_swap a b c d : xorb (xorb a b) (xorb c d) = xorb (xorb a c) (xorb b d).
Proof. destruct a, b, c, d; reflexivity. Qed.
Lemma bsel_xorb a b p : bsel (xorb a b) p = bxor (bsel a p) (bsel b p).
Proof. destruct a, b, p as [[] []]; reflexivity. Qed.
Lemma anti2_bxor p a b : anti2 p (bxor a b) = xorb (anti2 p a) (anti2 p b).
Proof. destruct p as [[] []], a as [[] []], b as [[] []]; reflexivity. Qed.

Section Sum.
  Variables ga gb gc : nat -> bool.
  Hypothesis Hg : forall j, gc j = xorb (ga j) (gb j).

  Lemma fold_ap1_sum {X} (Fa Fb Fc : X -> bits -> bits) (q : X -> nat) (HF : forall x u v, Fc x (bxor u v) = bxor (Fa x u) (Fb x v)) l : forall a b c,
    (forall x, c x = bxor (a x) (b x)) ->
    forall x, fold_left (fun f p => ap1 (Fc p) f (q p)) l c x = bxor (fold_left (fun f p => ap1 (Fa p) f (q p)) l a x) (fold_left (fun f p => ap1 (Fb p) f (q p)) l b x).
  Proof.
    induction l as [|p l IH]; intros a b c H x; [apply H|]. cbn [fold_left]. apply IH. intros y. unfold ap1. destruct (Nat.eqb y (q p)); rewrite H; [apply HF | reflexivity].
  Qed.

  Lemma measure_sum a b c P : sums a b c -> sums (do_measure ga a P) (do_measure gb b P) (do_measure gc c P).
  Proof.
    intros (H1 & (H2 & H3) & H4 & H5 & H6 & H7). unfold sums, do_measure. cbn [fr frec fdets fobs fgi]. rewrite H6, H7.
    split; [|split; [split|split; [exact H4 | auto]]].
    - apply fold_ap1_sum; [|exact H1]. intros pq u v. rewrite Hg, bsel_xorb. apply bxor_swap.
    - rewrite !app_length, H2. reflexivity.
    - rewrite H3, xors_app by exact H2. cbn [xors]. do 2 f_equal. rewrite <- xsum_xorb. apply xsum_ext. intros pq _. rewrite H1. apply anti2_bxor.
  Qed.
  Lemma reset_sum p a b c q : sums a b c -> sums (do_reset ga p a q) (do_reset gb p b q) (do_reset gc p c q).
  Proof.
    intros (H1 & H2 & H4 & H5 & H6 & H7). unfold sums, do_reset. cbn [fr frec fdets fobs fgi]. rewrite H6, H7.
    split; [|split; [exact H2|split; [exact H4 | auto]]]. intros x. unfold ap1. destruct (Nat.eqb x q); [|apply H1]. now rewrite Hg, bsel_xorb.
  Qed.
  Lemma fold_sum {X} (Fa Fb Fc : fstate -> X -> fstate) (HF : forall x a b c, sums a b c -> sums (Fa a x) (Fb b x) (Fc c x)) l : forall a b c,
    sums a b c -> sums (fold_left Fa l a) (fold_left Fb l b) (fold_left Fc l c).
  Proof. induction l as [|x l IH]; intros a b c H; [exact H|]. cbn [fold_left]. apply IH. now apply HF. Qed.
  Lemma parity_sum ts : forall a b x, length a = length b -> record_parity a ts = Ok x ->
    exists y, record_parity b ts = Ok y /\ record_parity (xors a b) ts = Ok (xorb x y).
  Proof.
    induction ts as [|t ts IH]; intros a b x Hl H; cbn [record_parity] in *; [injection H as <-; exists false; auto|].
    destruct t; try discriminate. rewrite xors_length by exact Hl. rewrite <- Hl. destruct ((_ <? 0) && _); [|discriminate].
    destruct (record_parity a ts) as [x'|] eqn:E; [|discriminate]. cbn [bind] in H. injection H as <-. destruct (IH a b x' Hl E) as (y & -> & ->). cbn [bind].
    eexists. split; [reflexivity|]. rewrite xors_nth by exact Hl. now rewrite xorb_swap.
  Qed.
  Lemma gate1_sum name f : gate1 name = Some f -> forall u v, f (bxor u v) = bxor (f u) (f v).
  Proof.
    unfold gate1. repeat (match goal with |- context [if ?x then _ else _] => destruct x end; [injection 1 as <-; intros [[] []] [[] []]; reflexivity|]). discriminate.
  Qed.
  Lemma pairs_sum P Q l : forall a b c a', (forall x, c x = bxor (a x) (b x)) -> run_pairs P Q l a = Ok a' ->
    exists b' c', run_pairs P Q l b = Ok b' /\ run_pairs P Q l c = Ok c' /\ forall x, c' x = bxor (a' x) (b' x).
  Proof.
    assert (K : forall m l, (length l <= m)%nat -> forall a b c a', (forall x, c x = bxor (a x) (b x)) -> run_pairs P Q l a = Ok a' ->
      exists b' c', run_pairs P Q l b = Ok b' /\ run_pairs P Q l c = Ok c' /\ forall x, c' x = bxor (a' x) (b' x)).
    { induction m as [|m IH]; intros [|x [|y r]] Hl a b c a' H Hr; cbn [length] in Hl; try lia; cbn [run_pairs] in *; try discriminate; try (injection Hr as <-; eauto).
      destruct (Nat.eqb x y); [discriminate|]. eapply IH; [lia | | exact Hr]. intros z. unfold ap2.
      destruct (Nat.eqb z x); [|destruct (Nat.eqb z y)]; rewrite !H, ?anti2_bxor, ?bsel_xorb; try reflexivity; apply bxor_swap. }
    intros a b c a'. now apply (K (length l)).
  Qed.

  Lemma instr_sum i a b c a' : sums a b c -> run_instr ga i a = Ok a' ->
    exists b' c', run_instr gb i b = Ok b' /\ run_instr gc i c = Ok c' /\ sums a' b' c'.
  Proof.
    intros H. unfold run_instr. cbv zeta. destruct (annotation _); [injection 1 as <-; eauto|].
    destruct (_ =? "DETECTOR")%string; [|destruct (_ =? "OBSERVABLE_INCLUDE")%string; [|destruct (_ =? "MPP")%string]].
    - destruct H as (H1 & (H2 & H3) & (H4 & H4') & H5 & H6 & H7). destruct (record_parity (frec a) _) as [x|] eqn:E; [|discriminate]. cbn [bind]. injection 1 as <-.
      destruct (parity_sum _ _ _ _ H2 E) as (y & -> & Ey). rewrite H3, Ey. cbn [bind]. do 2 eexists. split; [reflexivity|]. split; [reflexivity|].
      unfold sums. cbn [fr frec fdets fobs fgi]. rewrite !app_length, H4', xors_app by exact H4. cbn [xors length]. repeat split; auto.
    - destruct H as (H1 & (H2 & H3) & (H4 & H4') & H5 & H6 & H7). destruct (obs_arg _) as [k|]; [|discriminate]. cbn [bind]. destruct (record_parity (frec a) _) as [x|] eqn:E; [|discriminate]. cbn [bind]. injection 1 as <-.
      destruct (parity_sum _ _ _ _ H2 E) as (y & -> & Ey). rewrite H3, Ey. cbn [bind]. do 2 eexists. split; [reflexivity|]. split; [reflexivity|].
      unfold sums. cbn [fr frec fdets fobs fgi]. repeat split; auto. intros z. rewrite H5. destruct (Nat.eqb z k), x, y, (fobs a z), (fobs b z); reflexivity.
    - destruct (products _) as [l|]; [|discriminate]. cbn [bind]. injection 1 as <-. do 2 eexists. split; [reflexivity|]. split; [reflexivity|].
      apply fold_sum; [|exact H]. intros x u v w. apply measure_sum.
    - destruct (gate1 _) as [f|] eqn:G1.
      + destruct (qubit_targets _) as [l|]; [|discriminate]. cbn [bind]. injection 1 as <-. do 2 eexists. split; [reflexivity|]. split; [reflexivity|].
        destruct H as (H1 & H). split; [|exact H]. unfold with_fr. cbn [fr]. apply (fold_ap1_sum (fun _ => f) (fun _ => f) (fun _ => f) (fun q => q)); [|exact H1]. intros _. eapply gate1_sum. exact G1.
      + destruct (gate2 _) as [[P Q]|].
        { destruct (qubit_targets _) as [l|]; [|discriminate]. cbn [bind]. destruct (run_pairs P Q l (fr a)) as [f|] eqn:E; [|discriminate]. cbn [bind]. injection 1 as <-. destruct H as (H1 & H).
          destruct (pairs_sum P Q l _ _ _ _ H1 E) as (b' & c' & -> & -> & Hx). cbn [bind]. do 2 eexists. split; [reflexivity|]. split; [reflexivity|]. split; [exact Hx | exact H]. }
        destruct (reset_gate _) as [p|].
        { destruct (qubit_targets _) as [l|]; [|discriminate]. cbn [bind]. injection 1 as <-. do 2 eexists. split; [reflexivity|]. split; [reflexivity|]. apply fold_sum; [|exact H]. intros x u v w. apply reset_sum. }
        destruct (measure_gate _) as [p|]; [|discriminate].
        destruct (qubit_targets _) as [l|]; [|discriminate]. cbn [bind]. injection 1 as <-. do 2 eexists. split; [reflexivity|]. split; [reflexivity|].
        apply (fold_sum (fun st q => do_measure ga st [(p, q)]) (fun st q => do_measure gb st [(p, q)]) (fun st q => do_measure gc st [(p, q)])); [|exact H]. intros x u v w. apply measure_sum.
  Qed.
  Lemma run_sum l : forall a b c a', sums a b c -> run ga l a = Ok a' -> exists b' c', run gb l b = Ok b' /\ run gc l c = Ok c' /\ sums a' b' c'.
  Proof.
    induction l as [|i l IH]; intros a b c a' H; cbn [run]; [injection 1 as <-; eauto|].
    destruct (run_instr ga i a) as [a1|] eqn:E; [|discriminate]. cbn [bind]. intros R. destruct (instr_sum i a b c a1 H E) as (b1 & c1 & -> & -> & H1). cbn [bind]. eapply IH; eassumption.
  Qed.
End Sum.

(** ** Nothing has gone wrong *)
Definition clean (z : fstate) : Prop := (forall x, fr z x = bzero) /\ Forall (fun b => b = false) (frec z) /\ Forall (fun b => b = false) (fdets z) /\ forall x, fobs z x = false.
Lemma xors_self l : xors l l = l -> Forall (fun b => b = false) l.
Proof. induction l as [|b l IH]; [constructor|]. cbn. intros H. injection H as H1 H2. constructor; [now rewrite xorb_nilpotent in H1 | auto]. Qed.
Lemma xors_false l : forall m, length l = length m -> Forall (fun b => b = false) m -> xors l m = l.
Proof. induction l as [|b l IH]; intros [|c m] Hl H; cbn in *; try lia; [reflexivity|]. inversion H; subst. rewrite xorb_false_r, IH by (assumption || lia). reflexivity. Qed.
Lemma clean_sums z : clean z <-> sums z z z.
Proof.
  split.
  - intros (H1 & H2 & H3 & H4). unfold sums. rewrite !xors_false by auto. repeat split; auto; intros x; [now rewrite !H1 | now rewrite H4].
  - intros (H1 & (_ & H2) & (_ & H3) & H4 & _). split; [|split; [|split]].
    + intros x. specialize (H1 x). revert H1. destruct (fr z x) as [[] []]; intros H1; try reflexivity; discriminate H1.
    + apply xors_self. congruence.
    + apply xors_self. congruence.
    + intros x. specialize (H4 x). revert H4. destruct (fobs z x); intros H4; try reflexivity; discriminate H4.
Qed.
Definition still : nat -> bool := fun _ => false.
Lemma sums_clean c z : clean z -> length (frec c) = length (frec z) -> length (fdets c) = length (fdets z) -> fgi z = fgi c -> sums c z c.
Proof.
  intros (H1 & H2 & H3 & H4) L1 L2 L3. unfold sums. rewrite !xors_false by auto. repeat split; auto; intros x; [rewrite H1; destruct (fr c x) as [[] []]; reflexivity | now rewrite H4, xorb_false_r].
Qed.

(** ** Errors *)
Lemma happens_sum f m a b c : sums a b c -> sums a (happens f m b) (happens f m c).
Proof.
  intros (H1 & (H2 & H3) & H4 & H5 & H6 & H7). destruct f as [err|j]; unfold sums; cbn [happens strike misread with_fr fr frec fdets fobs fgi]; (split; [|split; [|split; [exact H4 | auto]]]).
  - intros x. rewrite H1. destruct (fr a x) as [[] []], (fr b x) as [[] []], (err x) as [[] []]; reflexivity.
  - auto.
  - exact H1.
  - rewrite flip_length, H3. split; [exact H2|]. symmetry. now apply xors_flip.
Qed.

(** A state is the sum of a base state and a list of others. *)
Fixpoint total (base : fstate) (l : list fstate) (c : fstate) : Prop :=
  match l with [] => c = base | s :: r => exists m, total base r m /\ sums m s c end.

Lemma total_run g l sts : forall base cur base', total base sts cur -> run g l base = Ok base' ->
  exists sts' cur', Forall2 (fun s s' => run still l s = Ok s') sts sts' /\ run g l cur = Ok cur' /\ total base' sts' cur'.
Proof.
  induction sts as [|s sts IH]; intros base cur base' H R; cbn [total] in H.
  - subst cur. exists [], base'. repeat split; auto.
  - destruct H as (m & Hm & Hs). destruct (IH _ _ _ Hm R) as (sts' & m' & F & Rm & T).
    destruct (run_sum g still g) with (l := l) (a := m) (b := s) (c := cur) (a' := m') as (s' & c' & Rs & Rc & S'); [intros j; unfold still; now rewrite xorb_false_r | exact Hs | exact Rm |].
    exists (s' :: sts'), c'. split; [now constructor|]. split; [exact Rc|]. exists m'. auto.
Qed.
Lemma sums_same a b c : sums a b c -> length (frec c) = length (frec a) /\ length (fdets c) = length (fdets a) /\ fgi c = fgi a.
Proof. intros (H1 & (H2 & H3) & (H4 & H5) & H6 & H7 & H8). rewrite H3, H5, !xors_length by assumption. auto. Qed.
Lemma total_same base l : forall c, total base l c -> length (frec c) = length (frec base) /\ length (fdets c) = length (fdets base) /\ fgi c = fgi base.
Proof.
  induction l as [|s l IH]; intros c H; cbn [total] in H; [subst; auto|]. destruct H as (m & Hm & Hs). destruct (IH m Hm) as (E1 & E2 & E3). apply sums_same in Hs. destruct Hs as (E4 & E5 & E6). repeat split; congruence.
Qed.
Lemma total_dets base l : forall c j, total base l c -> nth j (fdets c) false = xorb (nth j (fdets base) false) (xsum (fun s => nth j (fdets s) false) l).
Proof.
  induction l as [|s l IH]; intros c j H; cbn [total] in H; [subst; now rewrite xorb_false_r|]. destruct H as (m & Hm & (_ & _ & (H4 & H5) & _)).
  rewrite H5, xors_nth, xsum_cons, (IH m j Hm) by exact H4. rewrite xorb_assoc. f_equal. apply xorb_comm.
Qed.
Lemma total_obs base l : forall c x, total base l c -> fobs c x = xorb (fobs base x) (xsum (fun s => fobs s x) l).
Proof.
  induction l as [|s l IH]; intros c x H; cbn [total] in H; [subst; now rewrite xorb_false_r|]. destruct H as (m & Hm & (_ & _ & _ & H5 & _)).
  rewrite H5, xsum_cons, (IH m x Hm). rewrite xorb_assoc. f_equal. apply xorb_comm.
Qed.

Lemma F2_length {X Y} (R : X -> Y -> Prop) l m : Forall2 R l m -> length l = length m.
Proof. induction 1; cbn; congruence. Qed.

(** ** A run with several errors *)
Section Errors.
  Variable g : nat -> bool.
  Variable f0 : nat -> bits.
  (** what is known of each of the errors *)
  Variable Q : fault -> Prop.
  Let zero := start (fun _ => bzero).

  (** s is the run of the instructions l with one error of theirs *)
  Definition one_error (l : list instr) (s : fstate) : Prop :=
    exists l1 i l2 f, l = l1 ++ i :: l2 /\ (fault_of i f /\ Q f) /\ run_faulty still l1 i f l2 zero = Ok s.

  Lemma one_more l i s s' : one_error l s -> run still (gates [i]) s = Ok s' -> one_error (l ++ [i]) s'.
  Proof.
    intros (l1 & j & l2 & f & -> & Hf & R) R'. exists l1, j, (l2 ++ [i]), f. split; [now rewrite <- app_assoc|]. split; [exact Hf|].
    unfold run_faulty in *. destruct (run still (gates l1) zero) as [s1|]; [|discriminate]. cbn [bind] in *. destruct (run still (gates [j]) s1) as [s2|]; [|discriminate]. cbn [bind] in *.
    rewrite gates_app, run_app, R. exact R'.
  Qed.

  Lemma errors_total lf : forall done base sts cur z base',
    (forall i fs f, In (i, fs) lf -> In f fs -> fault_of i f /\ Q f) ->
    total base sts cur -> run still (gates done) zero = Ok z -> clean z -> length (frec z) = length (frec base) -> length (fdets z) = length (fdets base) -> fgi z = fgi base -> Forall (one_error done) sts ->
    run g (gates (map fst lf)) base = Ok base' ->
    exists sts' cur', run_errors g lf cur = Ok cur' /\ total base' sts' cur' /\ Forall (one_error (done ++ map fst lf)) sts' /\ length sts' = (length sts + error_count lf)%nat.
  Proof.
    induction lf as [|[i fs] lf IH]; intros done base sts cur z base' Hof Ht Hz Cz L1 L2 L3 Ho R.
    - injection R as <-. exists sts, cur. rewrite app_nil_r. unfold error_count. cbn. rewrite Nat.add_0_r. auto.
    - cbn [map fst] in R. change (i :: map fst lf) with ([i] ++ map fst lf) in R. rewrite gates_app, run_app in R. destruct (run g (gates [i]) base) as [base1|] eqn:R1; [|discriminate]. cbn [bind] in R.
      destruct (total_run g (gates [i]) sts base cur base1 Ht R1) as (sts1 & cur1 & F1 & Rc & T1).
      destruct (run_sum g still g) with (l := gates [i]) (a := base) (b := z) (c := base) (a' := base1) as (z1 & base1' & Rz & Rb & S1);
        [intros j; unfold still; now rewrite xorb_false_r | apply sums_clean; auto | exact R1 |].
      assert (base1' = base1) by congruence. subst base1'.
      destruct (run_sum still still still) with (l := gates [i]) (a := z) (b := z) (c := z) (a' := z1) as (z2 & z3 & Rz2 & Rz3 & S2); [reflexivity | now apply clean_sums | exact Rz |].
      assert (z2 = z1) by congruence. assert (z3 = z1) by congruence. subst z2 z3. apply clean_sums in S2.
      assert (Lz : length (frec z1) = length (frec base1) /\ length (fdets z1) = length (fdets base1) /\ fgi z1 = fgi base1) by (destruct S1 as (_ & (A1 & _) & (A2 & _) & _ & A3 & _); auto).
      destruct Lz as (M1 & M2 & M3).
      assert (Hz1 : run still (gates (done ++ [i])) zero = Ok z1) by (rewrite gates_app, run_app, Hz; exact Rz).
      assert (Ho1 : Forall (one_error (done ++ [i])) sts1).
      { clear -F1 Ho. revert Ho. induction F1 as [|s s' l l' Hs F IH]; intros Ho; [constructor|]. inversion Ho; subst. constructor; [eapply one_more; eassumption | auto]. }
      (* the errors at i *)
      assert (Hadd : forall fs', (forall f, In f fs' -> fault_of i f /\ Q f) -> forall sts2 cur2, total base1 sts2 cur2 -> Forall (one_error (done ++ [i])) sts2 ->
                exists sts3, total base1 sts3 (fold_left (fun s f => happens f (length (frec cur)) s) fs' cur2) /\ Forall (one_error (done ++ [i])) sts3 /\ length sts3 = (length sts2 + length fs')%nat).
      { induction fs' as [|f fs' IHf]; intros Hf sts2 cur2 T2 O2; [exists sts2; cbn; rewrite Nat.add_0_r; auto|]. cbn [fold_left length].
        destruct (IHf (fun f' K => Hf f' (or_intror K)) (happens f (length (frec cur)) z1 :: sts2) (happens f (length (frec cur)) cur2)) as (sts3 & T3 & O3 & L).
        - exists cur2. split; [exact T2|]. apply happens_sum. destruct (total_same _ _ _ T2) as (N1 & N2 & N3). apply sums_clean; congruence.
        - constructor; [|exact O2]. exists done, i, [], f. split; [reflexivity|]. split; [apply Hf; now left|]. unfold run_faulty. rewrite Hz. cbn [bind]. rewrite Rz. cbn [bind gates run filter].
          destruct (total_same _ _ _ Ht) as (N1 & _). rewrite L1, <- N1. reflexivity.
        - exists sts3. split; [exact T3|]. split; [exact O3|]. cbn [length] in L. lia. }
      destruct (Hadd fs (fun f K => Hof i fs f (or_introl eq_refl) K) sts1 cur1 T1 Ho1) as (sts3 & T3 & O3 & L3').
      destruct (IH (done ++ [i]) base1 sts3 _ z1 base' (fun i' fs' f' K => Hof i' fs' f' (or_intror K)) T3 Hz1 S2 M1 M2 M3 O3 R) as (sts' & cur' & RE & T' & O' & L').
      exists sts', cur'. cbn [run_errors]. rewrite Rc. cbn [bind]. split; [exact RE|]. split; [exact T'|]. split.
      + rewrite <- app_assoc in O'. exact O'.
      + rewrite L', L3'. unfold error_count. cbn [flat_map snd]. rewrite app_length. rewrite <- (F2_length _ _ _ F1). lia.
  Qed.

  Lemma zero_clean : clean zero.
  Proof. unfold zero, start, clean. cbn. auto. Qed.

  Theorem errors_add c lf base : errors_of c lf -> (forall f, In f (flat_map snd lf) -> Q f) -> run g (gates c) (start f0) = Ok base ->
    exists st sts, run_errors g lf (start f0) = Ok st /\ Forall (one_error c) sts /\ length sts = error_count lf /\ length (fdets st) = length (fdets base) /\
      (forall j, nth j (fdets st) false = xorb (nth j (fdets base) false) (xsum (fun s => nth j (fdets s) false) sts)) /\
      (forall x, fobs st x = xorb (fobs base x) (xsum (fun s => fobs s x) sts)).
  Proof.
    intros [Hc Hof] HQ R. subst c.
    destruct (errors_total lf [] (start f0) [] (start f0) zero base) as (sts & st & RE & T & O & L); [intros i fs f Hi Hf; split; [exact (Hof i fs f Hi Hf) | apply HQ, in_flat_map; exists (i, fs); auto] | reflexivity | reflexivity | apply zero_clean | reflexivity | reflexivity | reflexivity | constructor | exact R |].
    exists st, sts. split; [exact RE|]. split; [exact O|]. split; [exact L|]. split; [apply (total_same _ _ _ T)|]. split; [intros j; now apply total_dets | intros x; now apply total_obs].
  Qed.
End Errors.
