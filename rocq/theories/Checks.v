(** What a schedule of two-qubit parity measurements does to the data, one
    measurement at a time, and that the trajectories of Traj.v are such runs. *)
From Coq Require Import QArith.
From Verif Require Import Prelude Layout LayoutFacts LayoutEdges LayoutLists LayoutHex LayoutHex2 Pauli LayoutObs LayoutLogic LayoutIndex
  Tracker TrackerFacts Stim Circuit Annot Shift Ends Gen Gen2 Gen3 Traj Eval Frame Exec Exec2 Exec3 Exec4.
Open Scope Z_scope.

(** ** Specification *)
Record check := mkCheck { c_basis : pauli; c_a : cpx; c_b : cpx }.
(** Measuring checks in turn on data qubits that carry the Pauli frame [A]: each
    result is flipped when the frame anticommutes with the check, and the frame is
    then multiplied by the check or not ([z], a random bit). *)
Inductive measured : (cpx -> bits) -> list check -> list bool -> (cpx -> bits) -> Prop :=
| measured_nil A A' : (forall q, A q = A' q) -> measured A [] [] A'
| measured_cons A c cs (z : bool) outs A' :
    measured (fun q => if cpx_eqb q (c_a c) || cpx_eqb q (c_b c) then bxor (A q) (bsel z (pbits (c_basis c))) else A q) cs outs A' ->
    measured A (c :: cs) (xorb (anti2 (pbits (c_basis c)) (A (c_a c))) (anti2 (pbits (c_basis c)) (A (c_b c))) :: outs) A'.

(** The checks of the honeycomb schedule: sub-round k measures XX, YY or ZZ on the
    round-k edges. *)
Definition edge_check (k : Z) (e : edge) : check := mkCheck (xyz k) (e_left e) (e_right e).
Definition schedule (lay : layout) (n : nat) : list check :=
  flat_map (fun k => map (edge_check (Z.of_nat k)) (round_edges lay (Z.of_nat k))) (seq 0 n).

(** ** Facts *)
Lemma measured_app A1 c1 o1 A2 c2 o2 A3 : measured A1 c1 o1 A2 -> measured A2 c2 o2 A3 -> measured A1 (c1 ++ c2) (o1 ++ o2) A3.
Proof.
  intros H. revert c2 o2 A3. induction H as [A A' HA|A c cs z outs A' H IH]; intros c2 o2 A3 H2; cbn [app].
  - revert A HA. induction H2 as [B B' HB|B c cs z outs B' H IH]; intros A HA; [constructor; intros; now rewrite HA|].
    rewrite <- !HA. apply measured_cons with z. apply IH. intros q. now rewrite HA.
  - apply measured_cons with z. now apply IH.
Qed.
Lemma measured_on (P : cpx -> Prop) A cs outs A' : measured A cs outs A' -> (forall c, In c cs -> P (c_a c) /\ P (c_b c)) ->
  forall B, (forall q, P q -> A q = B q) -> exists B', measured B cs outs B' /\ forall q, P q -> A' q = B' q.
Proof.
  induction 1 as [A A' HA|A c cs z outs A' H IH]; intros Hc B HB.
  - exists B. split; [now constructor|]. intros q Hq. rewrite <- HA. auto.
  - destruct (IH (fun c Hin => Hc c (or_intror Hin)) (fun q => if cpx_eqb q (c_a c) || cpx_eqb q (c_b c) then bxor (B q) (bsel z (pbits (c_basis c))) else B q)) as (B' & M & Q).
    { intros q Hq. now rewrite HB. }
    destruct (Hc c (or_introl eq_refl)) as [Ha Hb]. exists B'. split; [|exact Q]. rewrite (HB _ Ha), (HB _ Hb). now apply measured_cons with z.
Qed.

Section X.
  Variable lay : layout.
  Hypothesis Hv : valid lay.
  Notation E := (round_edges lay).
  Notation zk := Z.of_nat.
  Notation ne := (length (E 0)).
  Local Opaque data_qubit_coords measure_qubit_coords q2i_dict hex_entries hexes round_edges all_edges isort.

  Lemma measured_edges k (z : edge -> bool) l : forall A, NoDup (flat_map ends l) ->
    measured A (map (edge_check k) l) (map (fun e => par A (edge_op (xyz k) e)) l)
      (fun q => fold_left (fun b e => if cpx_eqb q (e_left e) || cpx_eqb q (e_right e) then bxor b (bsel (z e) (pbits (xyz k))) else b) l (A q)).
  Proof.
    induction l as [|e l IH]; intros A Hn; cbn [map fold_left]; [now constructor|].
    cbn [flat_map ends app] in Hn. inversion Hn as [|? ? H1 Hn']; subst. inversion Hn' as [|? ? H2 Hl]; subst.
    replace (par A (edge_op (xyz k) e)) with (xorb (anti2 (pbits (c_basis (edge_check k e))) (A (c_a (edge_check k e)))) (anti2 (pbits (c_basis (edge_check k e))) (A (c_b (edge_check k e))))).
    2:{ cbn [edge_check c_basis c_a c_b]. unfold edge_op. rewrite par_pstr, !xsum_cons. unfold xsum. cbn [fold_right]. now rewrite xorb_false_r. }
    apply measured_cons with (z e). cbn [edge_check c_basis c_a c_b].
    set (B := fun q => if cpx_eqb q (e_left e) || cpx_eqb q (e_right e) then bxor (A q) (bsel (z e) (pbits (xyz k))) else A q).
    replace (map (fun e0 => par A (edge_op (xyz k) e0)) l) with (map (fun e0 => par B (edge_op (xyz k) e0)) l); [apply (IH B Hl)|].
    apply map_ext_in. intros e' He'. apply par_ext. intros pq Hpq. unfold edge_op, pstr in Hpq. apply in_map_iff in Hpq. destruct Hpq as (q & <- & Hq). cbn [snd]. unfold B.
    assert (Hin : In q (flat_map ends l)) by (apply in_flat_map; exists e'; split; [exact He' | exact Hq]).
    destruct (cpx_eqb q (e_left e)) eqn:E1; [apply cpx_eqb_eq in E1; subst; exfalso; apply H1; now right|].
    destruct (cpx_eqb q (e_right e)) eqn:E2; [apply cpx_eqb_eq in E2; subst; exfalso; now apply H2|]. reflexivity.
  Qed.

  Lemma NoDup_ends_round r : NoDup (flat_map ends (E r)).
  Proof.
    unfold ends. apply (NoDup_pairs e_left e_right).
    - eapply Permutation_NoDup; [apply Permutation_sym, lefts_perm, Hv | apply NoDup_filter, NoDup_data].
    - eapply Permutation_NoDup; [apply Permutation_sym, rights_perm, Hv | apply NoDup_filter, NoDup_data].
    - intros a b Ha Hb K. destruct (round_edge_facts lay Hv r a Ha) as (_ & _ & Pl & _). destruct (round_edge_facts lay Hv r b Hb) as (_ & _ & _ & Pr & _).
      rewrite K in Pl. congruence.
  Qed.
  Lemma fold_touch (f : edge -> bits) q l : forall b, NoDup l -> forall e, In e l -> (forall e', In e' l -> (cpx_eqb q (e_left e') || cpx_eqb q (e_right e')) = true <-> e' = e) ->
    fold_left (fun b e => if cpx_eqb q (e_left e) || cpx_eqb q (e_right e) then bxor b (f e) else b) l b = bxor b (f e).
  Proof.
    assert (Hno : forall l b, (forall e', In e' l -> (cpx_eqb q (e_left e') || cpx_eqb q (e_right e')) = false) ->
      fold_left (fun b e => if cpx_eqb q (e_left e) || cpx_eqb q (e_right e) then bxor b (f e) else b) l b = b).
    { clear l. intros l. induction l as [|x l IH]; intros b H; [reflexivity|]. cbn [fold_left]. rewrite (H x) by now left. apply IH. intros; apply H; now right. }
    induction l as [|x l IH]; intros b Hn e He H; [destruct He|]. cbn [fold_left]. inversion Hn as [|? ? Hx Hl]; subst.
    destruct He as [->|He].
    - rewrite (proj2 (H e (or_introl eq_refl)) eq_refl). apply Hno. intros e' He'. destruct (cpx_eqb q (e_left e') || cpx_eqb q (e_right e')) eqn:F; [|reflexivity].
      apply H in F; [|now right]. subst. contradiction.
    - destruct (cpx_eqb q (e_left x) || cpx_eqb q (e_right x)) eqn:F.
      + apply H in F; [|now left]. subst. contradiction.
      + apply IH; auto. intros; apply H; now right.
  Qed.

  (** A trajectory is a run of the schedule. *)
  Lemma measured_traj z A0 N : exists A', measured A0 (schedule lay N) (flat_map (fun k => map (m lay z A0 k) (E (zk k))) (seq 0 N)) A' /\
    forall q, isdata lay q -> A' q = A lay z A0 N q.
  Proof.
    induction N as [|N (A' & IH & HA)].
    - exists A0. split; [now constructor | reflexivity].
    - unfold schedule. rewrite seq_S, !flat_map_app. cbn [flat_map Nat.add]. rewrite !app_nil_r.
      destruct (measured_on (isdata lay) _ _ _ _ (measured_edges (zk N) (z N) (E (zk N)) (A lay z A0 N) (NoDup_ends_round (zk N)))) with (B := A') as (B' & M & Q).
      + intros c Hc. apply in_map_iff in Hc. destruct Hc as (e & <- & He). cbn [edge_check c_a c_b]. destruct (round_edge_facts lay Hv _ e He) as (Hl & Hr & _). auto.
      + intros q Hq. symmetry. now apply HA.
      + exists B'. split.
        * eapply measured_app; [exact IH|]. exact M.
        * intros q Hq. rewrite <- Q by exact Hq. cbn [A]. unfold kick.
          rewrite (fold_touch (fun e => bsel (z N e) (pbits (xyz (zk N)))) q (E (zk N)) _ (NoDup_round_edges lay Hv (zk N)) (touch lay (zk N) q)); [reflexivity | now apply touch_in |].
          intros e' He'. rewrite orb_true_iff, !cpx_eqb_eq. rewrite <- (touch_unique lay Hv (zk N) q e' Hq He'). intuition congruence.
  Qed.

  (** The record in terms of the results (PC3 ancillas are not reset, so their
      records accumulate). *)
  Lemma bit_results z A0 k e : In e (E (zk k)) ->
    bit lay z A0 k e = xorb (m lay z A0 k e) (if pc3 lay && (3 <=? k)%nat then bit lay z A0 (k - 3) e else false).
  Proof.
    intros He. unfold bit. destruct (pc3 lay) eqn:P; cbn [andb]; [|now rewrite xorb_false_r].
    rewrite xorb_comm. f_equal. destruct (Nat.leb_spec 3 k) as [L|L].
    - replace k with (k - 3 + 3)%nat at 1 by lia. rewrite acc_own; [now rewrite P | exact Hv |]. rewrite <- (E_cong lay (zk k)); [exact He | dlia].
    - destruct k as [|[|[|k]]]; [reflexivity | | | lia].
      + rewrite (acc_other lay Hv _ _ 0 e _ He) by (vm_compute; discriminate). reflexivity.
      + rewrite (acc_other lay Hv _ _ 1 e _ He), (acc_other lay Hv _ _ 0 e _ He) by (vm_compute; discriminate). reflexivity.
  Qed.
  Lemma nth_rows {X} (f : nat -> edge -> X) d n0 i : (i < n0 * ne)%nat ->
    nth i (flat_map (fun k => map (f k) (E (zk k))) (seq 0 n0)) d = f (i / ne)%nat (nth (i mod ne) (E (zk (i / ne))) (mkEdge (0, 0) (0, 0) (0, 0))).
  Proof.
    intros Hi. assert (Hne : (0 < ne)%nat) by (destruct ne; lia).
    assert (Hlen : forall k0, length (flat_map (fun k => map (f k) (E (zk k))) (seq 0 k0)) = (k0 * ne)%nat).
    { intros k0. induction k0 as [|k0 IH]; [reflexivity|]. rewrite seq_S, flat_map_app, app_length, IH. cbn [flat_map Nat.add]. rewrite app_nil_r, map_length, (length_E lay Hv (zk k0)). lia. }
    revert i Hi. induction n0 as [|n0 IH]; intros i Hi; [lia|]. rewrite seq_S, flat_map_app. cbn [flat_map Nat.add]. rewrite app_nil_r.
    destruct (Nat.lt_ge_cases i (n0 * ne)) as [L|L].
    - rewrite app_nth1 by (rewrite Hlen; exact L). now apply IH.
    - rewrite app_nth2 by (rewrite Hlen; exact L). rewrite Hlen.
      assert (Eq : (i / ne)%nat = n0) by (symmetry; apply (Nat.div_unique i ne n0 (i - n0 * ne)); lia).
      assert (Er : (i mod ne)%nat = (i - n0 * ne)%nat) by (symmetry; apply (Nat.mod_unique i ne n0 (i - n0 * ne)); lia).
      rewrite Eq, Er. rewrite (nth_indep _ d (f n0 (mkEdge (0, 0) (0, 0) (0, 0)))) by (rewrite map_length, (length_E lay Hv (zk n0)); lia). now rewrite map_nth.
  Qed.
  Lemma record_results z A0 N i : (i < N * ne)%nat ->
    let outs := flat_map (fun k => map (m lay z A0 k) (E (zk k))) (seq 0 N) in
    nth i (recl lay z A0 N) false = xorb (nth i outs false) (if pc3 lay && (3 * ne <=? i)%nat then nth (i - 3 * ne) (recl lay z A0 N) false else false).
  Proof.
    intros Hi outs. assert (Hne : (0 < ne)%nat) by (destruct ne; lia). unfold outs, recl. rewrite !nth_rows by lia.
    set (e := nth (i mod ne) _ _).
    assert (Hlt : (i mod ne < ne)%nat) by (apply Nat.mod_upper_bound; lia).
    rewrite bit_results by (unfold e; apply nth_In; rewrite (length_E lay Hv (zk (i / ne))); exact Hlt). f_equal.
    destruct (pc3 lay); cbn [andb]; [|reflexivity].
    replace (3 <=? i / ne)%nat with (3 * ne <=? i)%nat.
    2:{ pose proof (Nat.div_mod i ne ltac:(lia)). destruct (Nat.leb_spec (3 * ne) i) as [L|L], (Nat.leb_spec 3 (i / ne)) as [L'|L']; try reflexivity; exfalso; nia. }
    destruct (Nat.leb_spec (3 * ne) i) as [L|L]; [|reflexivity].
    pose proof (Nat.div_mod i ne ltac:(lia)) as DM.
    assert (E1 : ((i - 3 * ne) / ne = i / ne - 3)%nat).
    { symmetry. apply (Nat.div_unique _ ne _ (i mod ne)); [exact Hlt|]. assert (3 <= i / ne)%nat by nia. nia. }
    assert (E2 : ((i - 3 * ne) mod ne = i mod ne)%nat).
    { symmetry. apply (Nat.mod_unique _ ne (i / ne - 3)); [exact Hlt|]. assert (3 <= i / ne)%nat by nia. nia. }
    rewrite E1, E2. f_equal. unfold e. f_equal. apply E_cong. assert (3 <= i / ne)%nat by nia. rewrite Nat2Z.inj_sub by lia. change (zk 3) with 3. dlia.
  Qed.
End X.
