(** Specification vocabulary: Pauli strings on data qubits, up to phase. *)
From Verif Require Import Prelude Layout LayoutFacts.
Open Scope Z_scope.

Definition bits := (bool * bool)%type.          (* (X part, Z part) *)
Definition pbits (p : pauli) : bits :=
  match p with PX => (true, false) | PY => (true, true) | PZ => (false, true) end.
Definition bxor (a b : bits) : bits := (xorb (fst a) (fst b), xorb (snd a) (snd b)).
Definition bzero : bits := (false, false).
(** Two single-qubit Paulis anticommute. *)
Definition anti2 (a b : bits) : bool := xorb (fst a && snd b) (snd a && fst b).

Definition cmem (q : cpx) (l : list cpx) : bool := existsb (cpx_eqb q) l.
Lemma cmem_In q l : cmem q l = true <-> In q l.
Proof.
  unfold cmem. rewrite existsb_exists. split.
  - intros (x & Hx & E). apply cpx_eqb_eq in E. now subst.
  - intros H. exists q. split; [exact H | apply cpx_eqb_refl].
Qed.
Lemma cmem_false q l : cmem q l = false <-> ~ In q l.
Proof. rewrite <- cmem_In. destruct (cmem q l); split; intros; congruence || tauto. Qed.

(** A Pauli string: a product of single-qubit Paulis. *)
Definition pstring := list (pauli * cpx).
Definition pstr (p : pauli) (l : list cpx) : pstring := map (pair p) l.

(** What the product does at one qubit (phases ignored). *)
Definition bits_at (s : pstring) (q : cpx) : bits :=
  fold_right (fun pq acc => if cpx_eqb (snd pq) q then bxor (pbits (fst pq)) acc else acc) bzero s.
Definition same_operator (s1 s2 : pstring) : Prop := forall q, bits_at s1 q = bits_at s2 q.

(** Parity of the number of anticommuting pairs of factors on a common qubit. *)
Definition anticommutes (s1 s2 : pstring) : bool :=
  xsum (fun pq => xsum (fun pq' => cpx_eqb (snd pq) (snd pq') && anti2 (pbits (fst pq)) (pbits (fst pq'))) s2) s1.

Lemma anti2_sym a b : anti2 a b = anti2 b a.
Proof. destruct a as [[] []], b as [[] []]; reflexivity. Qed.
Lemma anti2_self a : anti2 a a = false.
Proof. destruct a as [[] []]; reflexivity. Qed.
Lemma anti2_zero_l a : anti2 bzero a = false.
Proof. destruct a as [[] []]; reflexivity. Qed.
Lemma anti2_zero_r a : anti2 a bzero = false.
Proof. destruct a as [[] []]; reflexivity. Qed.
Lemma anti2_bxor_l a b c : anti2 (bxor a b) c = xorb (anti2 a c) (anti2 b c).
Proof. destruct a as [[] []], b as [[] []], c as [[] []]; reflexivity. Qed.
Lemma anti2_bxor_r a b c : anti2 a (bxor b c) = xorb (anti2 a b) (anti2 a c).
Proof. destruct a as [[] []], b as [[] []], c as [[] []]; reflexivity. Qed.
Lemma bxor_assoc a b c : bxor a (bxor b c) = bxor (bxor a b) c.
Proof. destruct a as [[] []], b as [[] []], c as [[] []]; reflexivity. Qed.
Lemma bxor_comm a b : bxor a b = bxor b a.
Proof. destruct a as [[] []], b as [[] []]; reflexivity. Qed.
Lemma bxor_zero_l a : bxor bzero a = a.
Proof. destruct a as [[] []]; reflexivity. Qed.
Lemma bxor_zero_r a : bxor a bzero = a.
Proof. destruct a as [[] []]; reflexivity. Qed.
Lemma bxor_self a : bxor a a = bzero.
Proof. destruct a as [[] []]; reflexivity. Qed.

Definition pneq (p1 p2 : pauli) : bool := negb (pauli_eqb p1 p2).
Lemma anti2_pbits p1 p2 : anti2 (pbits p1) (pbits p2) = pneq p1 p2.
Proof. destruct p1, p2; reflexivity. Qed.
Lemma pauli_eqb_eq p1 p2 : pauli_eqb p1 p2 = true <-> p1 = p2.
Proof. destruct p1, p2; split; intros; simpl in *; congruence. Qed.

Lemma xsum_eq_count q l : NoDup l -> xsum (fun x => cpx_eqb q x) l = cmem q l.
Proof.
  intros Hnd. induction Hnd as [|a l Hn Hnd IH]; [reflexivity|]. cbn [xsum fold_right cmem existsb].
  fold (xsum (fun x => cpx_eqb q x) l). rewrite IH. fold (cmem q l).
  destruct (cpx_eqb q a) eqn:E; [|now destruct (cmem q l)]. apply cpx_eqb_eq in E. subst a.
  apply cmem_false in Hn. now rewrite Hn.
Qed.

Lemma bits_at_app s1 s2 q : bits_at (s1 ++ s2) q = bxor (bits_at s1 q) (bits_at s2 q).
Proof.
  induction s1 as [|[p x] s1 IH]; cbn [bits_at fold_right app].
  - now rewrite bxor_zero_l.
  - fold (bits_at s1 q). fold (bits_at (s1 ++ s2) q). rewrite IH. cbn [fst snd].
    destruct (cpx_eqb x q); [apply bxor_assoc | reflexivity].
Qed.
Lemma bits_at_pstr p l q : NoDup l -> bits_at (pstr p l) q = if cmem q l then pbits p else bzero.
Proof.
  intros Hnd. induction Hnd as [|a l Hn Hnd IH]; [reflexivity|].
  cbn [pstr map bits_at fold_right]. fold (pstr p l). fold (bits_at (pstr p l) q). rewrite IH. cbn [fst snd cmem existsb].
  fold (cmem q l). destruct (cpx_eqb a q) eqn:E.
  - apply cpx_eqb_eq in E. subst a. rewrite cpx_eqb_refl. simpl. apply cmem_false in Hn. rewrite Hn. apply bxor_zero_r.
  - destruct (cpx_eqb q a) eqn:E2; [apply cpx_eqb_eq in E2; subst; rewrite cpx_eqb_refl in E; discriminate | reflexivity].
Qed.
Lemma bits_at_concat {A} (f : A -> pstring) l q :
  bits_at (flat_map f l) q = fold_right (fun x acc => bxor (bits_at (f x) q) acc) bzero l.
Proof.
  induction l as [|a l IH]; [reflexivity|]. cbn [flat_map fold_right]. now rewrite bits_at_app, IH.
Qed.

Lemma anticommutes_pstr p1 l1 p2 l2 : NoDup l2 ->
  anticommutes (pstr p1 l1) (pstr p2 l2) = pneq p1 p2 && xsum (fun q => cmem q l2) l1.
Proof.
  intros Hnd. unfold anticommutes, pstr. rewrite xsum_map, <- xsum_andb_l. apply xsum_ext. intros q _.
  rewrite xsum_map. cbn [fst snd].
  rewrite (xsum_ext _ (fun x => anti2 (pbits p1) (pbits p2) && cpx_eqb q x)) by (intros; apply andb_comm).
  rewrite xsum_andb_l, anti2_pbits, xsum_eq_count by exact Hnd. reflexivity.
Qed.

Lemma anticommutes_bits s1 s2 : anticommutes s1 s2 = xsum (fun pq => anti2 (pbits (fst pq)) (bits_at s2 (snd pq))) s1.
Proof.
  unfold anticommutes. apply xsum_ext. intros [p q] _. cbn [fst snd].
  induction s2 as [|[p' q'] s2 IH]; cbn [bits_at fold_right xsum fst snd].
  - now rewrite anti2_zero_r.
  - fold (bits_at s2 q). unfold xsum in IH. cbn [fst snd] in IH. rewrite IH.
    destruct (cpx_eqb q q') eqn:E.
    + apply cpx_eqb_eq in E. subst q'. rewrite cpx_eqb_refl, anti2_bxor_r. reflexivity.
    + destruct (cpx_eqb q' q) eqn:E2; [apply cpx_eqb_eq in E2; subst; rewrite cpx_eqb_refl in E; discriminate |].
      now rewrite andb_false_l, xorb_false_l.
Qed.
