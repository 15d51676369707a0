(** Trajectories of the data qubits' Pauli frame.

    Before sub-round s the data qubits carry the frame [A s].  Measuring the
    checks of sub-round s multiplies it by a random subset [z s] of them. *)
From Coq Require Import QArith.
From Verif Require Import Prelude Layout LayoutFacts LayoutEdges LayoutLists LayoutHex LayoutHex2 Pauli LayoutObs LayoutLogic.
Open Scope Z_scope.

(** Does the frame anticommute with the operator? *)
Definition par (A : cpx -> bits) (P : pstring) : bool := xsum (fun pq => anti2 (pbits (fst pq)) (A (snd pq))) P.

Lemma par_app A P Q : par A (P ++ Q) = xorb (par A P) (par A Q).
Proof. apply xsum_app. Qed.
Lemma par_flat_map {X} A (f : X -> pstring) l : par A (flat_map f l) = xsum (fun x => par A (f x)) l.
Proof. apply xsum_flat_map. Qed.
Lemma par_ext A A' P : (forall pq, In pq P -> A (snd pq) = A' (snd pq)) -> par A P = par A' P.
Proof. intros H. apply xsum_ext. intros pq Hpq. now rewrite (H pq Hpq). Qed.
Lemma par_pstr A p l : par A (pstr p l) = xsum (fun q => anti2 (pbits p) (A q)) l.
Proof. unfold par, pstr. now rewrite xsum_map. Qed.

(** Only the operator counts, not the way it is written as a product. *)
Lemma par_bits A P Q : NoDup Q -> (forall pq, In pq P -> In (snd pq) Q) ->
  par A P = xsum (fun q => anti2 (bits_at P q) (A q)) Q.
Proof.
  intros Hn. induction P as [|[p x] P IH]; intros H.
  - symmetry. apply xsum_false. intros q _. apply anti2_zero_l.
  - unfold par. rewrite xsum_cons. fold (par A P). rewrite IH by (intros; apply H; now right). cbn [fst snd].
    rewrite (xsum_ext (fun q => anti2 (bits_at ((p, x) :: P) q) (A q)) (fun q => xorb (cpx_eqb x q && anti2 (pbits p) (A q)) (anti2 (bits_at P q) (A q)))).
    + rewrite xsum_xorb. f_equal. rewrite (xsum_single _ Q x); [cbv beta; now rewrite cpx_eqb_refl | exact Hn | apply (H (p, x)); now left |].
      intros q _ Hq. destruct (cpx_eqb x q) eqn:E; [|reflexivity]. apply cpx_eqb_eq in E. congruence.
    + intros q _. cbn [bits_at fold_right fst snd]. fold (bits_at P q). destruct (cpx_eqb x q); [now rewrite anti2_bxor_l | now rewrite xorb_false_l].
Qed.
Lemma par_same A P Q : same_operator P Q -> par A P = par A Q.
Proof.
  intros H. set (L := nodup cpx_dec (map snd P ++ map snd Q)).
  rewrite (par_bits A P L), (par_bits A Q L).
  - apply xsum_ext. intros q _. now rewrite H.
  - apply NoDup_nodup.
  - intros pq Hp. apply nodup_In, in_or_app. right. now apply in_map.
  - apply NoDup_nodup.
  - intros pq Hp. apply nodup_In, in_or_app. left. now apply in_map.
Qed.

Section T.
  Variable lay : layout.
  Hypothesis Hv : valid lay.
  Notation E := (round_edges lay).
  Notation zk := Z.of_nat.
  Local Opaque data_qubit_coords measure_qubit_coords q2i_dict hex_entries hexes round_edges all_edges isort.

  (** The frame after the round-r checks of the edges selected by [z]. *)
  Definition kick (r : Z) (z : edge -> bool) (A : cpx -> bits) (q : cpx) : bits :=
    bxor (A q) (if z (touch lay r q) then pbits (xyz r) else bzero).

  Lemma par_kick r z A P : (forall pq, In pq P -> isdata lay (snd pq)) ->
    par (kick r z A) P = xorb (par A P) (xsum (fun e => z e && anticommutes (edge_op (xyz r) e) P) (E r)).
  Proof.
    intros HP. unfold par at 1. rewrite (xsum_ext (fun pq => anti2 (pbits (fst pq)) (kick r z A (snd pq))) (fun pq => xorb (anti2 (pbits (fst pq)) (A (snd pq))) (z (touch lay r (snd pq)) && anti2 (pbits (xyz r)) (pbits (fst pq))))).
    2:{ intros [p q] _. cbn [fst snd]. unfold kick. rewrite anti2_bxor_r. f_equal. destruct (z _); [apply anti2_sym | apply anti2_zero_r]. }
    rewrite xsum_xorb. fold (par A P). f_equal.
    transitivity (xsum (fun pq => xsum (fun e => z e && ((cpx_eqb (e_left e) (snd pq) || cpx_eqb (e_right e) (snd pq)) && anti2 (pbits (xyz r)) (pbits (fst pq)))) (E r)) P).
    - apply xsum_ext. intros [p q] Hpq. cbn [fst snd]. pose proof (HP _ Hpq) as Hq. cbn [snd] in Hq.
      rewrite (xsum_single _ (E r) (touch lay r q)).
      + f_equal. replace (cpx_eqb (e_left (touch lay r q)) q || cpx_eqb (e_right (touch lay r q)) q) with true; [reflexivity|].
        symmetry. unfold touch. rewrite touch_edge by assumption. destruct (data_qubit_parity q); cbn [e_left e_right]; rewrite cpx_eqb_refl; [apply orb_true_r | reflexivity].
      + apply NoDup_round_edges, Hv.
      + now apply touch_in.
      + intros e He Hne. destruct (cpx_eqb (e_left e) q || cpx_eqb (e_right e) q) eqn:Et; [|now rewrite andb_false_l, andb_false_r].
        exfalso. apply Hne. apply touch_unique; auto. apply orb_prop in Et. destruct Et as [Et|Et]; apply cpx_eqb_eq in Et; auto.
    - rewrite xsum_swap. apply xsum_ext. intros e He. rewrite xsum_andb_l. f_equal. unfold anticommutes, edge_op, pstr. cbn [map]. rewrite !xsum_cons. unfold xsum at 4. cbn [fold_right fst snd].
      rewrite xorb_false_r, <- xsum_xorb. apply xsum_ext. intros [p q] _. cbn [fst snd].
      pose proof (NoDup_edge_ends lay Hv r e He) as Hn. inversion Hn as [|? ? Hn1 _]; subst. cbn [In] in Hn1.
      destruct (cpx_eqb (e_left e) q) eqn:E1, (cpx_eqb (e_right e) q) eqn:E2; cbn [orb andb]; rewrite ?xorb_false_l, ?xorb_false_r; try reflexivity.
      apply cpx_eqb_eq in E1, E2. exfalso. apply Hn1. left. congruence.
  Qed.
  Lemma par_kick_commute r z A P : (forall pq, In pq P -> isdata lay (snd pq)) ->
    (forall e, In e (E r) -> anticommutes (edge_op (xyz r) e) P = false) -> par (kick r z A) P = par A P.
  Proof.
    intros HP HC. rewrite par_kick by exact HP. rewrite xsum_false; [apply xorb_false_r|]. intros e He. rewrite HC by exact He. apply andb_false_r.
  Qed.

  Variable z : nat -> edge -> bool.
  Variable A0 : cpx -> bits.
  Fixpoint A (s : nat) : cpx -> bits :=
    match s with O => A0 | S s => kick (zk s) (z s) (A s) end.
  (** The outcome of the check on e in sub-round s. *)
  Definition m (s : nat) (e : edge) : bool := par (A s) (edge_op (xyz (zk s)) e).

  Lemma data_edge_op r p e pq : In e (E r) -> In pq (edge_op p e) -> isdata lay (snd pq).
  Proof.
    intros He H. destruct (round_edge_facts lay Hv r e He) as (Hl & Hr & _). unfold edge_op, pstr in H. cbn [map In] in H.
    destruct H as [<-|[<-|[]]]; assumption.
  Qed.
  Lemma data_around p h pq : ishex lay h -> In pq (pstr p (qubits_around_hex lay h)) -> isdata lay (snd pq).
  Proof. intros Hh H. unfold pstr in H. apply in_map_iff in H. destruct H as (q & <- & Hq). cbn [snd]. apply in_around in Hq; tauto. Qed.

  Lemma m_after s e : In e (E (zk s)) -> m s e = par (A (S s)) (edge_op (xyz (zk s)) e).
  Proof.
    intros He. cbn [A]. symmetry. apply par_kick_commute.
    - intros pq. eapply data_edge_op, He.
    - intros e' He'. now apply (edges_commute lay Hv).
  Qed.

  (** Stabilizers are conserved. *)
  Lemma hex_step s h : ishex lay h -> par (A (S s)) (hex_op lay h) = par (A s) (hex_op lay h).
  Proof.
    intros Hh. cbn [A]. apply par_kick_commute.
    - intros pq. unfold hex_op. now apply data_around.
    - intros e He. now apply edge_hex_commute.
  Qed.

  (** Half of a stabilizer: one of the two other Paulis on the six qubits. *)
  Definition half_op (h : cpx) : pstring := pstr (xyz (hexcat h + 1)) (qubits_around_hex lay h).
  Definition half_op2 (h : cpx) : pstring := pstr (xyz (hexcat h + 2)) (qubits_around_hex lay h).

  Lemma edge_around r e h p : In e (E r) -> ishex lay h -> r mod 3 <> hexcat h mod 3 ->
    anticommutes (edge_op (xyz r) e) (pstr p (qubits_around_hex lay h)) = false.
  Proof.
    intros He Hh Hr. rewrite anti_edge_l; [|eapply NoDup_edge_ends; eauto | apply NoDup_around; assumption].
    destruct (round_edge_facts lay Hv r e He) as (Hl & Hrr & _ & _ & Ep & _).
    rewrite !cmem_around by assumption. rewrite Ep, hexq_partner by assumption. now rewrite xorb_nilpotent, andb_false_r.
  Qed.
  Lemma half_step s h : ishex lay h -> zk s mod 3 <> hexcat h mod 3 -> par (A (S s)) (half_op h) = par (A s) (half_op h).
  Proof.
    intros Hh Hs. cbn [A]. apply par_kick_commute.
    - intros pq. unfold half_op. now apply data_around.
    - intros e He. now apply edge_around.
  Qed.
  Lemma par_edges B p (l : list edge) : xsum (fun e => par B (edge_op p e)) l = par B (pstr p (flat_map ends l)).
  Proof. rewrite <- par_flat_map. now rewrite pstr_flat_map. Qed.
  Lemma par_pstr_perm B p l l' : Permutation l l' -> par B (pstr p l) = par B (pstr p l').
  Proof. intros H. rewrite !par_pstr. now apply xsum_perm. Qed.

  Lemma first_sum s h : ishex lay h -> zk s mod 3 = (hexcat h + 1) mod 3 ->
    xsum (m s) (first_edges_around_hex lay h) = par (A s) (half_op h).
  Proof.
    intros Hh Hs. unfold m. rewrite par_edges. unfold half_op. rewrite (par_pstr_perm _ _ _ _ (first_edges_cover lay h)).
    do 2 f_equal. now apply xyz_eq.
  Qed.
  Lemma second_sum s h : ishex lay h -> zk s mod 3 = (hexcat h + 2) mod 3 ->
    xsum (m s) (second_edges_around_hex lay h) = par (A s) (half_op2 h).
  Proof.
    intros Hh Hs. unfold m. rewrite par_edges. unfold half_op2. rewrite (par_pstr_perm _ _ _ _ (second_edges_cover lay h)).
    do 2 f_equal. now apply xyz_eq.
  Qed.
  Lemma xyz_product c : pbits (xyz c) = bxor (pbits (xyz (c + 1))) (pbits (xyz (c + 2))).
  Proof.
    unfold xyz. assert (H : c mod 3 = 0 \/ c mod 3 = 1 \/ c mod 3 = 2) by dlia.
    destruct H as [H|[H|H]]; rewrite H; [replace ((c + 1) mod 3) with 1 by (revert H; dlia); replace ((c + 2) mod 3) with 2 by (revert H; dlia) |
      replace ((c + 1) mod 3) with 2 by (revert H; dlia); replace ((c + 2) mod 3) with 0 by (revert H; dlia) |
      replace ((c + 1) mod 3) with 0 by (revert H; dlia); replace ((c + 2) mod 3) with 1 by (revert H; dlia)]; reflexivity.
  Qed.
  Lemma hex_halves B h : par B (hex_op lay h) = xorb (par B (half_op2 h)) (par B (half_op h)).
  Proof.
    unfold hex_op, half_op, half_op2. rewrite !par_pstr, <- xsum_xorb. apply xsum_ext. intros q _.
    rewrite xyz_product, anti2_bxor_l. apply xorb_comm.
  Qed.
End T.

(** Only the outcomes of earlier sub-rounds matter. *)
Lemma A_ext lay z z' A0 s : (forall t e, (t < s)%nat -> z t e = z' t e) -> forall q, A lay z A0 s q = A lay z' A0 s q.
Proof.
  induction s as [|s IH]; intros H q; [reflexivity|]. cbn [A]. unfold kick. rewrite IH by (intros; apply H; lia). rewrite H by lia. reflexivity.
Qed.
Lemma m_ext lay z z' A0 s e : (forall t e, (t < s)%nat -> z t e = z' t e) -> m lay z A0 s e = m lay z' A0 s e.
Proof. intros H. apply par_ext. intros pq _. now apply A_ext. Qed.
