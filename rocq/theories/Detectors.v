(** The detectors of a circuit as positions and sets of measurements. *)
From Coq Require Import QArith.
From Verif Require Import Prelude Layout LayoutFacts Pauli Stim Frame.
Open Scope Z_scope.

(** ** Specification *)
Record detector := mkDet { d_x : Q; d_y : Q; d_t : Q; d_meas : list nat }.

Definition arg (i : instr) (k : nat) : Q := match nth k (iargs i) (Num 0) with Num q => q | Mix _ _ => 0%Q end.
(** How many results the instruction adds to the measurement record. *)
Definition results (i : instr) : nat :=
  let name := canon (iname i) in
  if (name =? "MPP")%string then match products (itargets i) with Ok l => length l | Err _ => 0%nat end
  else match measure_gate name with Some _ => length (itargets i) | None => 0%nat end.
(** rec[k] when [made] results have been recorded *)
Definition absolute (made : nat) (t : target) : list nat := match t with TRec k => [Z.to_nat (Z.of_nat made + k)] | _ => [] end.

(** Detectors in order: coordinates with the SHIFT_COORDS so far added, and the
    indices in the record of the measurements compared. *)
Fixpoint detectors (x y t : Q) (made : nat) (l : list instr) : list detector :=
  match l with
  | [] => []
  | i :: r =>
      if (canon (iname i) =? "DETECTOR")%string
      then mkDet (Qred (x + arg i 0)) (Qred (y + arg i 1)) (Qred (t + arg i 2)) (flat_map (absolute made) (itargets i)) :: detectors x y t made r
      else if (canon (iname i) =? "SHIFT_COORDS")%string
      then detectors (Qred (x + arg i 0)) (Qred (y + arg i 1)) (Qred (t + arg i 2)) made r
      else detectors x y t (made + results i) r
  end.
Definition measurements (l : list instr) : nat := list_sum (map results l).

(** ** Only some instructions matter. *)
Definition relevant (i : instr) : bool :=
  let name := canon (iname i) in (name =? "DETECTOR")%string || (name =? "SHIFT_COORDS")%string || negb (Nat.eqb (results i) 0).
Lemma detectors_keep l : forall x y t m, detectors x y t m l = detectors x y t m (filter relevant l).
Proof.
  induction l as [|i l IH]; intros x y t m; [reflexivity|]. cbn [filter]. unfold relevant at 1. cbn [detectors].
  destruct (_ =? "DETECTOR")%string eqn:E1; cbn [orb]; [cbn [detectors]; rewrite E1; now f_equal|].
  destruct (_ =? "SHIFT_COORDS")%string eqn:E2; cbn [orb]; [cbn [detectors]; rewrite E1, E2; apply IH|].
  destruct (Nat.eqb_spec (results i) 0) as [E3|E3]; cbn [negb].
  - rewrite E3, Nat.add_0_r. apply IH.
  - cbn [detectors]. rewrite E1, E2. apply IH.
Qed.
Lemma results_det i : (canon (iname i) = "DETECTOR" \/ canon (iname i) = "SHIFT_COORDS")%string -> results i = 0%nat.
Proof. unfold results. intros [->| ->]; reflexivity. Qed.
Lemma measurements_keep l : measurements l = measurements (filter relevant l).
Proof.
  unfold measurements. induction l as [|i l IH]; [reflexivity|]. cbn [filter map list_sum fold_right]. unfold relevant at 1.
  destruct (_ || _) eqn:E1; cbn [map list_sum fold_right].
  - unfold list_sum in IH. now rewrite IH.
  - apply orb_false_elim in E1. destruct E1 as [_ E1]. destruct (Nat.eqb_spec (results i) 0) as [E3|E3]; [|discriminate]. rewrite E3. exact IH.
Qed.
Lemma measurements_app a b : measurements (a ++ b) = (measurements a + measurements b)%nat.
Proof. unfold measurements. now rewrite map_app, list_sum_app. Qed.

(** ** A run adds one bit per result and one per detector, its parity. *)
Section R.
  Variable g : nat -> bool.
  Lemma products_run l : forall st, frec (fold_left (do_measure g) l st) = frec st ++ skipn (length (frec st)) (frec (fold_left (do_measure g) l st)) /\
    length (frec (fold_left (do_measure g) l st)) = (length (frec st) + length l)%nat /\ fdets (fold_left (do_measure g) l st) = fdets st.
  Proof.
    assert (K : forall l st, exists r, frec (fold_left (do_measure g) l st) = frec st ++ r /\ length r = length l /\ fdets (fold_left (do_measure g) l st) = fdets st).
    { clear l. intros l. induction l as [|P l IH]; intros st; [exists []; rewrite app_nil_r; auto|]. cbn [fold_left].
      destruct (IH (do_measure g st P)) as (r & E1 & E2 & E3). eexists (_ :: r). rewrite E1, E3. cbn [do_measure frec fdets length]. rewrite <- app_assoc, E2. split; [reflexivity | split; reflexivity]. }
    intros st. destruct (K l st) as (r & -> & E2 & E3). rewrite skipn_app, skipn_all, Nat.sub_diag, app_length, E2. auto.
  Qed.
  Lemma frec_measure p l : forall st, exists r, frec (fold_left (fun st q => do_measure g st [(p, q)]) l st) = frec st ++ r /\ length r = length l /\
    fdets (fold_left (fun st q => do_measure g st [(p, q)]) l st) = fdets st.
  Proof.
    induction l as [|P l IH]; intros st; [exists []; rewrite app_nil_r; auto|]. cbn [fold_left].
    destruct (IH (do_measure g st [(p, P)])) as (r & E1 & E2 & E3). eexists (_ :: r). rewrite E1, E3. cbn [do_measure frec fdets length]. rewrite <- app_assoc, E2. split; [reflexivity | split; reflexivity].
  Qed.
  Lemma frec_reset p l : forall st, frec (fold_left (do_reset g p) l st) = frec st /\ fdets (fold_left (do_reset g p) l st) = fdets st.
  Proof. induction l as [|q l IH]; intros st; [auto|]. cbn [fold_left]. destruct (IH (do_reset g p st q)) as [-> ->]. auto. Qed.
  Lemma qubit_targets_length l : forall ts, qubit_targets ts = Ok l -> length ts = length l.
  Proof.
    intros ts. revert l. induction ts as [|[q|k|p q|] ts IH]; intros l H; cbn in H; try discriminate; [now inversion H|].
    destruct (qubit_targets ts) as [l'|]; [|discriminate]. cbn in H. inversion H. cbn. f_equal. now apply IH.
  Qed.
  Lemma record_parity_abs rec ts b rest : record_parity rec ts = Ok b ->
    b = xsum (fun i => nth i (rec ++ rest) false) (flat_map (absolute (length rec)) ts).
  Proof.
    revert b. induction ts as [|[q|k|p q|] ts IH]; intros b H; cbn [record_parity] in H; try discriminate; [now inversion H|].
    destruct ((k <? 0) && _) eqn:C; [|discriminate]. destruct (record_parity rec ts) as [b'|]; [|discriminate]. cbn [bind] in H. inversion H; subst.
    cbn [flat_map absolute app]. rewrite xsum_cons, <- (IH b' eq_refl). f_equal. apply andb_true_iff in C. destruct C as [C1 C2].
    apply Z.ltb_lt in C1. apply Z.leb_le in C2. rewrite app_nth1 by lia. reflexivity.
  Qed.
  (** The step: the record only grows. *)
  Lemma run_instr_record i st st' : run_instr g i st = Ok st' ->
    exists r, frec st' = frec st ++ r /\ length r = results i /\
    fdets st' = fdets st ++ (if (canon (iname i) =? "DETECTOR")%string then [xsum (fun j => nth j (frec st) false) (flat_map (absolute (length (frec st))) (itargets i))] else []).
  Proof.
    unfold run_instr, results, annotation. set (name := canon (iname i)). intros H.
    destruct (existsb _ _) eqn:Ha.
    { inversion H; subst. exists []. rewrite app_nil_r. cbn [existsb] in Ha. rewrite !orb_true_iff, !String.eqb_eq in Ha.
      destruct Ha as [Ha|[Ha|[Ha|Ha]]]; try discriminate; rewrite Ha; cbn; now rewrite app_nil_r. }
    destruct (name =? "DETECTOR")%string eqn:E1.
    { apply String.eqb_eq in E1. rewrite E1. destruct (record_parity _ _) as [b|] eqn:E2; [|discriminate]. cbn [bind] in H. inversion H; subst. cbn [frec fdets].
      exists []. rewrite app_nil_r. repeat split. rewrite (record_parity_abs _ _ _ [] E2), app_nil_r. reflexivity. }
    destruct (name =? "OBSERVABLE_INCLUDE")%string eqn:E2.
    { apply String.eqb_eq in E2. rewrite E2. destruct (obs_arg _); [|discriminate]. cbn [bind] in H. destruct (record_parity _ _); [|discriminate]. cbn [bind] in H. inversion H; subst.
      exists []. cbn [frec fdets]. rewrite !app_nil_r. auto. }
    rewrite app_nil_r.
    destruct (name =? "MPP")%string eqn:E3.
    { destruct (products _) as [l|]; [|discriminate]. cbn [bind] in H. inversion H; subst. destruct (products_run l st) as (P1 & P2 & P3).
      eexists. split; [exact P1|]. split; [|exact P3]. rewrite skipn_length, P2. lia. }
    destruct (gate1 name) as [f|] eqn:G1.
    { destruct (qubit_targets _); [|discriminate]. cbn [bind] in H. inversion H; subst. exists []. cbn [with_fr frec fdets]. rewrite app_nil_r. repeat split.
      unfold gate1 in G1. unfold measure_gate.
      repeat match type of G1 with (if ?c then _ else _) = _ => destruct c eqn:?K; [match goal with K : _ = true |- _ => apply String.eqb_eq in K; rewrite K; reflexivity end|] end. discriminate. }
    destruct (gate2 name) as [[P Q]|] eqn:G2.
    { destruct (qubit_targets _); [|discriminate]. cbn [bind] in H. destruct (run_pairs _ _ _ _); [|discriminate]. cbn [bind] in H. inversion H; subst. exists []. cbn [with_fr frec fdets]. rewrite app_nil_r. repeat split.
      unfold gate2 in G2. unfold measure_gate.
      repeat match type of G2 with (if ?c then _ else _) = _ => destruct c eqn:?K; [match goal with K : _ = true |- _ => apply String.eqb_eq in K; rewrite K; reflexivity end|] end. discriminate. }
    destruct (reset_gate name) as [p|] eqn:G3.
    { destruct (qubit_targets _) as [l|]; [|discriminate]. cbn [bind] in H. inversion H; subst. exists []. destruct (frec_reset p l st) as [-> ->]. rewrite app_nil_r. repeat split.
      unfold reset_gate in G3. unfold measure_gate.
      repeat match type of G3 with (if ?c then _ else _) = _ => destruct c eqn:?K; [match goal with K : _ = true |- _ => apply String.eqb_eq in K; rewrite K; reflexivity end|] end. discriminate. }
    destruct (measure_gate name) as [p|] eqn:G4; [|discriminate].
    destruct (qubit_targets _) as [l|] eqn:Q; [|discriminate]. cbn [bind] in H. inversion H; subst. destruct (frec_measure p l st) as (r & R1 & R2 & R3).
    exists r. rewrite (qubit_targets_length l _ Q). auto.
  Qed.
  Lemma absolute_le made ts b rec : length rec = made -> record_parity rec ts = Ok b -> forall j, In j (flat_map (absolute made) ts) -> (j < made)%nat.
  Proof.
    intros Hm. revert b. induction ts as [|[q|k|p q|] ts IH]; intros b H j Hj; cbn [record_parity] in H; try discriminate; [destruct Hj|].
    destruct ((k <? 0) && _) eqn:C; [|discriminate]. destruct (record_parity rec ts) as [b'|]; [|discriminate].
    apply andb_true_iff in C. destruct C as [C1 C2]. apply Z.ltb_lt in C1. apply Z.leb_le in C2.
    cbn [flat_map absolute app] in Hj. destruct Hj as [<-|Hj]; [lia | eapply IH; eauto].
  Qed.
  Lemma xsum_prefix rec rest l : (forall j, In j l -> (j < length rec)%nat) -> xsum (fun j => nth j rec false) l = xsum (fun j => nth j (rec ++ rest) false) l.
  Proof. intros H. apply xsum_ext. intros j Hj. now rewrite app_nth1 by auto. Qed.

  Theorem run_detectors l : forall st st' x y t, run g l st = Ok st' ->
    exists r, frec st' = frec st ++ r /\ length r = measurements l /\
    fdets st' = fdets st ++ map (fun d => xsum (fun j => nth j (frec st') false) (d_meas d)) (detectors x y t (length (frec st)) l) /\
    (forall d j, In d (detectors x y t (length (frec st)) l) -> In j (d_meas d) -> (j < length (frec st'))%nat).
  Proof.
    induction l as [|i l IH]; intros st st' x y t H; cbn [run] in H.
    - inversion H; subst. exists []. cbn. rewrite !app_nil_r. repeat split; intros; contradiction.
    - destruct (run_instr g i st) as [s1|] eqn:E1; [|discriminate]. cbn [bind] in H.
      destruct (run_instr_record i st s1 E1) as (r1 & A1 & A2 & A3).
      unfold measurements in *. cbn [map list_sum fold_right detectors].
      destruct (canon (iname i) =? "DETECTOR")%string eqn:D1.
      + destruct (IH s1 st' x y t H) as (r2 & B1 & B2 & B3 & B4).
        assert (R0 : results i = 0%nat) by (apply results_det; left; now apply String.eqb_eq).
        rewrite R0 in *. destruct r1; [|discriminate]. rewrite app_nil_r in A1. exists r2. rewrite B1, A1. split; [reflexivity|]. split; [exact B2|].
        assert (Hle : forall j, In j (flat_map (absolute (length (frec st))) (itargets i)) -> (j < length (frec st))%nat).
        { unfold run_instr in E1. apply String.eqb_eq in D1. rewrite D1 in E1. cbn [annotation existsb String.eqb Ascii.eqb Bool.eqb orb] in E1.
          destruct (record_parity (frec st) (itargets i)) eqn:RP; [|discriminate]. eapply absolute_le; eauto. }
        split.
        * rewrite B3, A3, <- app_assoc, A1. cbn [map app d_meas]. do 2 f_equal; [now apply xsum_prefix | now rewrite B1, A1].
        * intros d j [<-|Hd] Hj; cbn [d_meas] in *; [rewrite app_length; specialize (Hle j Hj); lia|]. rewrite <- A1, <- B1. rewrite <- A1 in Hd. eapply B4; eauto.
      + rewrite app_nil_r in A3.
        assert (HS : forall x' y' t', detectors x' y' t' (length (frec s1)) l = detectors x' y' t' (length (frec st) + results i) l) by (intros; now rewrite A1, app_length, A2).
        destruct (canon (iname i) =? "SHIFT_COORDS")%string eqn:D2.
        * assert (R0 : results i = 0%nat) by (apply results_det; right; now apply String.eqb_eq).
          rewrite R0, Nat.add_0_r in *. destruct r1; [|discriminate]. rewrite app_nil_r in A1.
          destruct (IH s1 st' (Qred (x + arg i 0)) (Qred (y + arg i 1)) (Qred (t + arg i 2)) H) as (r2 & B1 & B2 & B3 & B4).
          rewrite A1 in *. exists r2. rewrite <- A3. auto.
        * destruct (IH s1 st' x y t H) as (r2 & B1 & B2 & B3 & B4). rewrite (HS x y t) in *. rewrite A1 in B1. exists (r1 ++ r2). rewrite app_assoc, app_length, A2, B2, <- A3.
          rewrite B1 in *. repeat split; auto.
  Qed.
End R.
