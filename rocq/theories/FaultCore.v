(** A single fault of a check -- any Pauli error on its two qubits, and a wrong
    result -- either fires a detector or leaves the observable alone. *)
From Coq Require Import QArith.
From Verif Require Import Prelude Layout LayoutFacts LayoutEdges LayoutLists LayoutHex LayoutHex2 Pauli LayoutObs LayoutLogic LayoutIndex Prop_Layout
  Tracker TrackerFacts Stim Circuit Annot Shift Ends Gen Gen2 Gen3 Traj Eval Frame Exec Exec2 Exec3 Exec4 Detectors Struct Struct2 Struct3 FaultQuiet.
Open Scope Z_scope.

(** ** Geometry *)
Section G.
  Variable lay : layout.
  Hypothesis Hv : valid lay.
  Notation E := (round_edges lay).
  Local Opaque data_qubit_coords measure_qubit_coords q2i_dict hex_entries hexes round_edges all_edges isort.

  (** the two hexagons an edge connects *)
  Lemma hexq_apart r q : 4 <= data_width lay -> isdata lay q -> hexq lay r (partner lay r q) <> hexq lay r q.
  Proof.
    intros Hw Hq F. destruct (valid_tiles lay Hv) as (Tw & _ & Ew' & _). assert (T2 : 2 <= tile_width lay) by lia.
    destruct (isdata_ex lay q Hq) as (a & b & -> & _).
    assert (G : exists x, (x = 4 \/ x = -4 \/ x = 8 \/ x = -8) /\ fst (cadd (cscale 2 (touch_off r (4 * a + 2, 2 * b))) (hex_off r (partner lay r (4 * a + 2, 2 * b)))) = fst (hex_off r (4 * a + 2, 2 * b)) + x).
    { unfold LayoutEdges.partner.
      destruct (wrap_rep lay Hv (cadd (4 * a + 2, 2 * b) (cscale 2 (touch_off r (4 * a + 2, 2 * b))))) as (t & u & Ew & _).
      rewrite Ew. clear Ew Hq F.
      assert (EE : exists da db, touch_off r (4 * a + 2, 2 * b) = (2 * da, db) /\
         (da = 0 /\ db = 1 /\ (r - b) mod 3 = 2 \/ da = 0 /\ db = -1 /\ (r - b) mod 3 = 1 \/
          da = 1 /\ db = 0 /\ (r - b) mod 3 = 0 /\ (a - b) mod 2 = 0 \/ da = -1 /\ db = 0 /\ (r - b) mod 3 = 0 /\ (a - b) mod 2 = 1)).
      { destruct (touch_off_cases r a b) as [[E0 H]|[[E0 H]|[[E0 [H H']]|[E0 [H H']]]]];
        [exists 0, 1 | exists 0, (-1) | exists 1, 0 | exists (-1), 0]; rewrite E0; (split; [reflexivity | tauto]). }
      destruct EE as (da & db & -> & Hcase).
      unfold cadd, cscale. cbn [fst snd].
      replace (4 * a + 2 + 2 * (2 * da) + 8 * t, 2 * b + 2 * db + 12 * u) with
        (4 * (a + da + 2 * t) + 2, 2 * (b + db + 6 * u)) by (f_equal; lia).
      rewrite !hex_off_ab. cbv zeta.
      destruct (mod2_split a b) as (m & p & -> & Hp); destruct (mod3_split r b) as (k' & d' & -> & Hd').
      destruct Hp as [->| ->], Hd' as [->|[->| ->]];
      destruct Hcase as [(-> & -> & R)|[(-> & -> & R)|[(-> & -> & R & S)|(-> & -> & R & S)]]];
      try (exfalso; dlia); clear; eqbs; cbn [fst snd];
      first [exists 4; split; [lia | reflexivity] | exists (-4); split; [lia | reflexivity] | exists 8; split; [lia | reflexivity] | exists (-8); split; [lia | reflexivity]]. }
    destruct G as (x & Hx & G). unfold hexq in F. unfold LayoutEdges.partner at 1 in F. rewrite wrap_idem_add in F.
    set (off := hex_off r (partner lay r (4 * a + 2, 2 * b))) in *. set (off' := hex_off r (4 * a + 2, 2 * b)) in *. set (tt := cscale 2 (touch_off r (4 * a + 2, 2 * b))) in *.
    unfold wrap in F. pose proof (f_equal fst F) as F1. clear F. cbn [fst snd] in F1. unfold cadd, coord_width2 in *. cbn [fst snd] in *.
    replace (4 * a + 2 + fst tt + fst off) with (4 * a + 2 + fst off' + x) in F1 by lia.
    generalize dependent (4 * a + 2 + fst off'). intros y F1. clear -F1 Hx T2.
    pose proof (Z.div_mod y (8 * tile_width lay) ltac:(lia)) as D1. pose proof (Z.div_mod (y + x) (8 * tile_width lay) ltac:(lia)) as D2. rewrite F1 in D2.
    set (q1 := y / _) in *. set (q2 := (y + x) / _) in *. assert (K : x = 8 * tile_width lay * (q2 - q1)) by lia. clear D1 D2 F1.
    assert (C : q2 - q1 = 0 \/ 1 <= q2 - q1 \/ q2 - q1 <= -1) by lia. destruct C as [C|[C|C]]; [rewrite C in K; lia | nia | nia].
  Qed.

  Lemma in_first h e q : ishex lay h -> In e (E (hexcat h + 1)) -> In q (ends e) -> In q (qubits_around_hex lay h) -> In e (first_edges_around_hex lay h).
  Proof.
    intros Hh He Hq Ha. pose proof (proj1 (proj1 (in_around lay Hv h q Hh) Ha)) as Hd. apply (Permutation_in _ (Permutation_sym (first_edges_cover lay h))) in Ha. apply in_flat_map in Ha. destruct Ha as (e' & He' & Hq').
    assert (e' = e) as ->; [|exact He'].
    pose proof (first_edges_round lay Hv h e' Hh He') as Hr.
    rewrite (proj1 (touch_unique lay Hv (hexcat h + 1) q e' Hd Hr)) by (destruct Hq' as [<-|[<-|[]]]; auto). symmetry.
    apply (touch_unique lay Hv (hexcat h + 1) q e Hd He). destruct Hq as [<-|[<-|[]]]; auto.
  Qed.
  Lemma in_second h e q : ishex lay h -> In e (E (hexcat h + 2)) -> In q (ends e) -> In q (qubits_around_hex lay h) -> In e (second_edges_around_hex lay h).
  Proof.
    intros Hh He Hq Ha. pose proof (proj1 (proj1 (in_around lay Hv h q Hh) Ha)) as Hd. apply (Permutation_in _ (Permutation_sym (second_edges_cover lay h))) in Ha. apply in_flat_map in Ha. destruct Ha as (e' & He' & Hq').
    assert (e' = e) as ->; [|exact He'].
    pose proof (second_edges_round lay Hv h e' Hh He') as Hr.
    rewrite (proj1 (touch_unique lay Hv (hexcat h + 2) q e' Hd Hr)) by (destruct Hq' as [<-|[<-|[]]]; auto). symmetry.
    apply (touch_unique lay Hv (hexcat h + 2) q e Hd He). destruct Hq as [<-|[<-|[]]]; auto.
  Qed.
  Lemma NoDup_first h : ishex lay h -> NoDup (first_edges_around_hex lay h).
  Proof.
    intros Hh. pose proof (Permutation_NoDup (Permutation_sym (first_edges_cover lay h)) (NoDup_around lay Hv h Hh)) as K. revert K. clear.
    induction (first_edges_around_hex lay h) as [|e l IH]; intros K; [constructor|]. cbn [flat_map ends app] in K. inversion K as [|? ? K1 K2]; subst. inversion K2 as [|? ? K3 K4]; subst.
    constructor; [|auto]. intros Hin. apply K3. apply in_flat_map. exists e. split; [exact Hin|]. right. now left.
  Qed.
  Lemma NoDup_second h : ishex lay h -> NoDup (second_edges_around_hex lay h).
  Proof.
    intros Hh. pose proof (Permutation_NoDup (Permutation_sym (second_edges_cover lay h)) (NoDup_around lay Hv h Hh)) as K. revert K. clear.
    induction (second_edges_around_hex lay h) as [|e l IH]; intros K; [constructor|]. cbn [flat_map ends app] in K. inversion K as [|? ? K1 K2]; subst. inversion K2 as [|? ? K3 K4]; subst.
    constructor; [|auto]. intros Hin. apply K3. apply in_flat_map. exists e. split; [exact Hin|]. right. now left.
  Qed.
End G.

Lemma xsum_pick (eqb : edge -> edge -> bool) (Heq : forall a b, eqb a b = true <-> a = b) f e l : NoDup l -> xsum (fun x => f && eqb x e) l = f && existsb (eqb e) l.
Proof.
  induction l as [|a l IH]; intros Hn; [now rewrite andb_false_r|]. inversion Hn; subst. rewrite xsum_cons, IH by assumption. cbn [existsb].
  destruct (eqb a e) eqn:Ea.
  - apply Heq in Ea. subst a. rewrite (proj2 (Heq e e) eq_refl). cbn [orb]. replace (existsb (eqb e) l) with false; [now rewrite !andb_true_r, andb_false_r, xorb_false_r|].
    symmetry. destruct (existsb (eqb e) l) eqn:F; [|reflexivity]. apply existsb_exists in F. destruct F as (x & Hx & F). apply Heq in F. subst. contradiction.
  - replace (eqb e a) with false; [now rewrite andb_false_r, xorb_false_l|]. symmetry. destruct (eqb e a) eqn:F; [|reflexivity]. apply Heq in F. subst. rewrite (proj2 (Heq a a) eq_refl) in Ea. discriminate.
Qed.
(** a Pauli on two qubits *)
Lemma par_two P a b p l : NoDup l -> a <> b -> (forall q, q <> a -> q <> b -> P q = bzero) ->
  par P (pstr p l) = xorb (cmem a l && anti2 (pbits p) (P a)) (cmem b l && anti2 (pbits p) (P b)).
Proof.
  intros Hn Hab HP. rewrite par_pstr. induction l as [|x l IH]; [reflexivity|]. inversion Hn; subst. rewrite xsum_cons, IH by assumption. cbn [cmem existsb].
  fold (cmem a l) (cmem b l).
  destruct (cpx_eqb a x) eqn:Ea.
  - apply cpx_eqb_eq in Ea. subst x. replace (cpx_eqb b a) with false by (symmetry; destruct (cpx_eqb b a) eqn:F; [apply cpx_eqb_eq in F; congruence | reflexivity]).
    replace (cmem a l) with false by (symmetry; now apply cmem_false). cbn [orb andb]. now rewrite xorb_false_l.
  - destruct (cpx_eqb b x) eqn:Eb.
    + apply cpx_eqb_eq in Eb. subst x. replace (cmem b l) with false by (symmetry; now apply cmem_false). cbn [orb andb]. rewrite xorb_false_r, xorb_comm. reflexivity.
    + cbn [orb]. rewrite HP, anti2_zero_r, xorb_false_l; [reflexivity | |]; intros ->; rewrite cpx_eqb_refl in *; discriminate.
Qed.

Section S.
  Variable lay : layout.
  Hypothesis Hv : valid lay.
  Hypothesis Hobs : obs lay = "V"%string \/ obs lay = "H"%string.
  Notation E := (round_edges lay).
  Notation zk := Z.of_nat.
  Notation ne := (length (E 0)).
  Notation D := (data_qubit_coords lay).
  Notation n := (sub_rounds lay).
  Notation N := (Z.to_nat n).
  Notation trk := (trk lay (tr0 lay)).
  Notation supported := (supported lay).
  Local Opaque data_qubit_coords measure_qubit_coords q2i_dict hex_entries hexes round_edges all_edges isort.

  (** Before sub-round s the observable is in the basis about to be measured, or in the one just measured. *)
  Notation ahead := (FaultQuiet.ahead lay).
  Lemma obr_basis s : fst (obr lay s) = if ahead s then xyz s else xyz (s - 1).
  Proof.
    unfold obr, FaultQuiet.ahead. destruct (obs lay =? "V")%string; rewrite ?obs_v_basis, ?obs_h_basis; unfold vbasis, hbasis, xyz;
    destruct (mod6_cases s) as [K|[K|[K|[K|[K|K]]]]]; rewrite K;
    match type of K with _ = ?c =>
      let a := eval vm_compute in (c mod 2) in let b := eval vm_compute in (c mod 3) in let d := eval vm_compute in ((c - 1) mod 3) in
      replace (s mod 2) with a by (revert K; clear; dlia); replace (s mod 3) with b by (revert K; clear; dlia); replace ((s - 1) mod 3) with d by (revert K; clear; dlia) end; reflexivity.
  Qed.
  Lemma ahead_step s : ahead (s + 1) = negb (ahead s).
  Proof.
    unfold FaultQuiet.ahead. destruct (obs lay =? "V")%string; assert (C : s mod 2 = 0 \/ s mod 2 = 1) by dlia;
    (destruct C as [C|C]; rewrite C; [replace ((s + 1) mod 2) with 1 by (revert C; dlia) | replace ((s + 1) mod 2) with 0 by (revert C; dlia)]; reflexivity).
  Qed.
  Lemma same_ahead : same_basis lay = negb (ahead n).
  Proof. unfold same_basis, FaultQuiet.ahead. destruct (obs lay =? "V")%string; assert (C : n mod 2 = 0 \/ n mod 2 = 1) by dlia; destruct C as [-> | ->]; reflexivity. Qed.
  Lemma cat_H1 s h : In h (H1 lay (zk s)) -> ishex lay h /\ zk s mod 3 = (hexcat h + 1) mod 3.
  Proof. intros Hh. apply (in_hexes lay Hv) in Hh. destruct Hh as [Hh Hc]. split; [exact Hh|]. rewrite Hc. dlia. Qed.
  Lemma cat_H2 s h : In h (H2 lay (zk s)) -> ishex lay h /\ zk s mod 3 = (hexcat h + 2) mod 3.
  Proof. intros Hh. apply (in_hexes lay Hv) in Hh. destruct Hh as [Hh Hc]. split; [exact Hh|]. rewrite Hc. dlia. Qed.
  Lemma oat_in s e : In e (oat lay s) <-> In e (E s) /\ In e (oedges lay).
  Proof. rewrite oat_filter, filter_In, emem_In. reflexivity. Qed.
  Lemma NoDup_obr s : NoDup (snd (obr lay s)).
  Proof. unfold obr. destruct (obs lay =? "V")%string; [apply NoDup_obs_v | apply NoDup_obs_h]. Qed.
  Lemma NoDup_oat s : NoDup (oat lay s).
  Proof. rewrite oat_filter. apply NoDup_filter, NoDup_round_edges, Hv. Qed.

  (** When the observable is in the basis just measured, an edge of the next sub-round is on it as a whole or not at all. *)
  Lemma behind_mem s e q : ahead s = false -> In e (E s) -> In q (ends e) -> cmem q (snd (obr lay s)) = emem e (oedges lay).
  Proof.
    intros Hb He Hq. pose proof (O_step lay Hv s q) as K. rewrite bits_at_app in K. unfold Oop in K. rewrite !bits_at_pstr in K by apply NoDup_obr.
    rewrite (obr_basis (s + 1)), (obr_basis s), ahead_step, Hb in K. cbn [negb] in K.
    rewrite pstr_flat_map, bits_at_pstr in K.
    2:{ rewrite oat_filter. apply NoDup_flat_filter. eapply Permutation_NoDup; [symmetry; apply (round_matching lay Hv s) | apply NoDup_data]. }
    assert (Em : cmem q (flat_map ends (oat lay s)) = emem e (oedges lay)).
    { destruct (emem e (oedges lay)) eqn:F.
      - apply cmem_In, in_flat_map. exists e. split; [apply oat_in; split; [exact He | now apply emem_In] | exact Hq].
      - apply cmem_false. intros H. apply in_flat_map in H. destruct H as (e' & He' & Hq'). apply oat_in in He'. destruct He' as [Ha Hb'].
        assert (e' = e) as ->; [|apply emem_In in Hb'; congruence].
        destruct (round_edge_facts lay Hv s e He) as (Hl & Hr & _). assert (Hd : isdata lay q) by (destruct Hq as [<-|[<-|[]]]; assumption).
        rewrite (proj1 (touch_unique lay Hv s q e' Hd Ha)) by (destruct Hq' as [<-|[<-|[]]]; auto). symmetry. apply (touch_unique lay Hv s q e Hd He). destruct Hq as [<-|[<-|[]]]; auto. }
    rewrite Em in K. revert K. unfold xyz. destruct (mod6_cases s) as [C|[C|[C|[C|[C|C]]]]];
    match type of C with _ = ?c =>
      let a := eval vm_compute in ((c + 1) mod 3) in let b := eval vm_compute in (c mod 3) in let d := eval vm_compute in ((c - 1) mod 3) in
      replace ((s + 1) mod 3) with a by (revert C; clear; dlia); replace (s mod 3) with b by (revert C; clear; dlia); replace ((s - 1) mod 3) with d by (revert C; clear; dlia) end;
    destruct (cmem q (snd (obr lay (s + 1)))), (cmem q (snd (obr lay s))), (emem e (oedges lay)); cbv; intros K; reflexivity || discriminate.
  Qed.

    Lemma hexq_in c q : isdata lay q -> In (hexq lay c q) (hexes lay (c mod 3)).
    Proof. intros Hq. apply in_hexes; [exact Hv|]. now apply hexq_ishex. Qed.
    Lemma hexq_H2 s q : isdata lay q -> In (hexq lay (s - 2) q) (H2 lay s).
    Proof. apply hexq_in. Qed.
    Lemma mem_around h q : ishex lay h -> isdata lay q -> hexq lay (hexcat h) q = h -> In q (qubits_around_hex lay h).
    Proof. intros Hh Hq F. apply (in_around lay Hv h q Hh). auto. Qed.
    Lemma hexq_self c q : isdata lay q -> hexq lay (hexcat (hexq lay c q)) q = hexq lay c q.
    Proof.
      intros Hq. destruct (hexq_ishex lay Hv c q Hq) as [_ ->]. unfold hexq, hex_off. do 2 f_equal. replace ((c mod 3 - snd q / 2) mod 3) with ((c - snd q / 2) mod 3) by dlia. reflexivity.
    Qed.
    Lemma hexq_mod c d q : c mod 3 = d mod 3 -> hexq lay c q = hexq lay d q.
    Proof. intros H. unfold hexq, hex_off. do 2 f_equal. replace ((c - snd q / 2) mod 3) with ((d - snd q / 2) mod 3) by (revert H; dlia). reflexivity. Qed.

  Section Fault.
    Hypothesis Hs : supported.
    Hypothesis Hw : 4 <= data_width lay.
    Variable k : nat.
    Hypothesis Hk : (k < N)%nat.
    Variable e0 : edge.
    Hypothesis He0 : In e0 (E (zk k)).
    Variable P : cpx -> bits.
    Notation a := (e_left e0).
    Notation b := (e_right e0).
    Hypothesis HP : forall q, q <> a -> q <> b -> P q = bzero.
    Variable f : bool.
    Variable B : nat -> bool.
    Notation VE := (VE lay B).
    Notation vfirst := (vfirst lay B).
    Notation vsecond := (vsecond lay B).
    Notation val := (val lay B).
    Notation dat := (dat lay B).
    (** what the fault flips *)
    Hypothesis HVE : forall s e, (s < N)%nat -> In e (E (zk s)) ->
      VE s e = xorb ((k <=? s)%nat && par P (edge_op (xyz (zk s)) e)) (((s =? k)%nat && f) && edge_eqb e e0).
    Hypothesis Hdat : forall q, In q D -> dat q = anti2 (pbits (final_basis lay)) (P q).

    Lemma ab_data : isdata lay a /\ isdata lay b /\ a <> b /\ b = partner lay (zk k) a /\ a = partner lay (zk k) b.
    Proof.
      destruct (round_edge_facts lay Hv (zk k) e0 He0) as (Hl & Hr & Pl & Pr & E1 & E2 & _). refine (conj Hl (conj Hr (conj _ (conj E1 E2)))). intros F. rewrite F in Pl. congruence.
    Qed.
    Lemma par_two' p l : NoDup l -> par P (pstr p l) = xorb (cmem a l && anti2 (pbits p) (P a)) (cmem b l && anti2 (pbits p) (P b)).
    Proof. intros H. apply par_two; auto. apply ab_data. Qed.
    Lemma par_e0 p : par P (edge_op p e0) = xorb (anti2 (pbits p) (P a)) (anti2 (pbits p) (P b)).
    Proof. unfold edge_op. rewrite par_pstr, xsum_cons. unfold xsum. cbn [fold_right]. now rewrite xorb_false_r. Qed.

    Lemma vfirst_eq s h : (s < N)%nat -> In h (H1 lay (zk s)) -> vfirst s h = xorb ((k <=? s)%nat && par P (half_op lay h)) (((s =? k)%nat && f) && emem e0 (first_edges_around_hex lay h)).
    Proof.
      intros Hs' Hh. destruct (cat_H1 s h Hh) as [Ih Hc]. unfold Struct.vfirst.
      rewrite (xsum_ext _ (fun e => xorb ((k <=? s)%nat && par P (edge_op (xyz (zk s)) e)) (((s =? k)%nat && f) && edge_eqb e e0))).
      2:{ intros e He. apply HVE; [exact Hs'|]. eapply H1_first; eauto. }
      rewrite xsum_xorb, (xsum_pick edge_eqb edge_eqb_eq) by (now apply NoDup_first). f_equal. destruct (k <=? s)%nat; cbn [andb]; [|now apply xsum_false].
      rewrite par_edges. unfold half_op. rewrite (par_pstr_perm _ _ _ _ (first_edges_cover lay h)). do 2 f_equal. now apply xyz_eq.
    Qed.
    Lemma vsecond_eq s h : (s < N)%nat -> In h (H2 lay (zk s)) -> vsecond s h = xorb ((k <=? s)%nat && par P (half_op2 lay h)) (((s =? k)%nat && f) && emem e0 (second_edges_around_hex lay h)).
    Proof.
      intros Hs' Hh. destruct (cat_H2 s h Hh) as [Ih Hc]. unfold Struct.vsecond.
      rewrite (xsum_ext _ (fun e => xorb ((k <=? s)%nat && par P (edge_op (xyz (zk s)) e)) (((s =? k)%nat && f) && edge_eqb e e0))).
      2:{ intros e He. apply HVE; [exact Hs'|]. eapply H2_second; eauto. }
      rewrite xsum_xorb, (xsum_pick edge_eqb edge_eqb_eq) by (now apply NoDup_second). f_equal. destruct (k <=? s)%nat; cbn [andb]; [|now apply xsum_false].
      rewrite par_edges. unfold half_op2. rewrite (par_pstr_perm _ _ _ _ (second_edges_cover lay h)). do 2 f_equal. now apply xyz_eq.
    Qed.
    (** before the fault nothing is flipped *)
    Lemma val_early s h : (s < k)%nat -> In h (H2 lay (zk s)) -> val s h = false.
    Proof.
      intros Hs' Hh. unfold FaultQuiet.val. rewrite vsecond_eq by (lia || exact Hh).
      replace (k <=? s)%nat with false by (symmetry; apply Nat.leb_gt; lia). replace (s =? k)%nat with false by (symmetry; apply Nat.eqb_neq; lia). cbn [andb xorb].
      destruct (Nat.eqb_spec s 0) as [->|N0]; [reflexivity|]. rewrite vfirst_eq; [|lia|].
      - replace (k <=? s - 1)%nat with false by (symmetry; apply Nat.leb_gt; lia). replace (s - 1 =? k)%nat with false by (symmetry; apply Nat.eqb_neq; lia). reflexivity.
      - apply H2_H1 in Hh. replace (zk (s - 1)) with (zk s - 1) by lia. exact Hh.
    Qed.
    Lemma before_early s h : (s <= k + 2)%nat -> In h (H2 lay (zk s)) -> before lay B s h = false.
    Proof.
      intros Hs' Hh. unfold before. destruct (Nat.leb_spec 3 s) as [L|L]; [|reflexivity]. apply val_early; [lia|].
      rewrite (H2_mod lay (zk (s - 3)) (zk s)); [exact Hh|]. rewrite Nat2Z.inj_sub by lia. change (zk 3) with 3. dlia.
    Qed.
    Lemma val_now h : In h (H2 lay (zk k)) -> val k h = xorb (par P (half_op2 lay h)) (f && emem e0 (second_edges_around_hex lay h)).
    Proof.
      intros Hh. unfold FaultQuiet.val. rewrite vsecond_eq by (lia || exact Hh). rewrite Nat.leb_refl, Nat.eqb_refl. cbn [andb].
      destruct (Nat.eqb_spec k 0) as [->|N0]; [now rewrite xorb_false_r|]. rewrite vfirst_eq; [|lia|].
      - replace (k <=? k - 1)%nat with false by (symmetry; apply Nat.leb_gt; lia). replace (k - 1 =? k)%nat with false by (symmetry; apply Nat.eqb_neq; lia). cbn [andb xorb]. now rewrite xorb_false_r.
      - apply H2_H1 in Hh. replace (zk (k - 1)) with (zk k - 1) by lia. exact Hh.
    Qed.
    Lemma val_next h : (k + 1 < N)%nat -> In h (H2 lay (zk (k + 1))) -> val (k + 1) h = xorb (par P (hex_op lay h)) (f && emem e0 (first_edges_around_hex lay h)).
    Proof.
      intros HN Hh. unfold FaultQuiet.val. rewrite vsecond_eq by (lia || exact Hh). destruct (Nat.eqb_spec (k + 1) 0) as [F|_]; [lia|]. replace (k + 1 - 1)%nat with k by lia. rewrite vfirst_eq; [|lia|].
      - rewrite (hex_halves lay P h). replace (k <=? k + 1)%nat with true by (symmetry; apply Nat.leb_le; lia). replace (k + 1 =? k)%nat with false by (symmetry; apply Nat.eqb_neq; lia). rewrite Nat.leb_refl, Nat.eqb_refl.
        cbn [andb]. now rewrite xorb_false_r, <- xorb_assoc.
      - apply H2_H1 in Hh. replace (zk k) with (zk (k + 1) - 1) by lia. exact Hh.
    Qed.
    Lemma val_later s h : (k + 2 <= s < N)%nat -> In h (H2 lay (zk s)) -> val s h = par P (hex_op lay h).
    Proof.
      intros HN Hh. unfold FaultQuiet.val. rewrite vsecond_eq by (lia || exact Hh). destruct (Nat.eqb_spec s 0) as [F|_]; [lia|]. rewrite vfirst_eq; [|lia|].
      - rewrite (hex_halves lay P h). replace (k <=? s)%nat with true by (symmetry; apply Nat.leb_le; lia). replace (s =? k)%nat with false by (symmetry; apply Nat.eqb_neq; lia).
        replace (k <=? s - 1)%nat with true by (symmetry; apply Nat.leb_le; lia). replace (s - 1 =? k)%nat with false by (symmetry; apply Nat.eqb_neq; lia). cbn [andb]. now rewrite !xorb_false_r.
      - apply H2_H1 in Hh. replace (zk (s - 1)) with (zk s - 1) by lia. exact Hh.
    Qed.
    Lemma dat_around h : ishex lay h -> xsum dat (qubits_around_hex lay h) = par P (pstr (final_basis lay) (qubits_around_hex lay h)).
    Proof. intros Hh. rewrite par_pstr. apply xsum_ext. intros q Hq. apply Hdat. eapply around_data; eauto. Qed.

    (** ** The observable *)
    Fixpoint total (m : nat) : bool := match m with O => false | S m => xorb (total m) (xsum (VE m) (oat lay (zk m))) end.
    Definition effect : bool := xorb (total N) (xsum dat (snd (obr lay n))).
    Lemma total_eq m : (m <= N)%nat -> total m = if (m <=? k)%nat then false else xorb (xorb (par P (Oop lay (zk k))) (par P (Oop lay (zk m)))) (f && emem e0 (oedges lay)).
    Proof.
      induction m as [|m IH]; intros Hm; [reflexivity|]. cbn [total]. rewrite IH by lia. clear IH.
      rewrite (xsum_ext (VE m) (fun e => xorb ((k <=? m)%nat && par P (edge_op (xyz (zk m)) e)) (((m =? k)%nat && f) && edge_eqb e e0))).
      2:{ intros e He. apply HVE; [lia|]. now apply oat_in in He. }
      rewrite xsum_xorb, (xsum_pick edge_eqb edge_eqb_eq) by apply NoDup_oat. fold (emem e0 (oat lay (zk m))).
      destruct (Nat.leb_spec (S m) k) as [L|L].
      - replace (m <=? k)%nat with true by (symmetry; apply Nat.leb_le; lia). replace (k <=? m)%nat with false by (symmetry; apply Nat.leb_gt; lia). replace (m =? k)%nat with false by (symmetry; apply Nat.eqb_neq; lia).
        cbn [andb]. rewrite xsum_false by auto. reflexivity.
      - replace (k <=? m)%nat with true by (symmetry; apply Nat.leb_le; lia). cbn [andb].
        replace (zk (S m)) with (zk m + 1) by lia. rewrite (par_same _ _ _ (O_step lay Hv (zk m))), par_app, par_flat_map.
        set (X := xsum (fun e => par P (edge_op (xyz (zk m)) e)) (oat lay (zk m))).
        replace (xsum (fun e => par P (edge_op (xyz (zk m)) e)) (oat lay (zk m))) with X by reflexivity.
        destruct (Nat.eqb_spec m k) as [->|Nk].
        + rewrite Nat.leb_refl. cbn [andb]. replace (emem e0 (oat lay (zk k))) with (emem e0 (oedges lay)).
          * destruct (par P (Oop lay (zk k))), X, (f && emem e0 (oedges lay)); reflexivity.
          * destruct (emem e0 (oat lay (zk k))) eqn:F.
            -- apply emem_In, oat_in in F. destruct F as [_ F]. now apply emem_In.
            -- destruct (emem e0 (oedges lay)) eqn:G; [|reflexivity]. apply emem_In in G. assert (In e0 (oat lay (zk k))) as K by (apply oat_in; auto). apply emem_In in K. congruence.
        + replace (m <=? k)%nat with false by (symmetry; apply Nat.leb_gt; lia). cbn [andb]. rewrite xorb_false_r.
          destruct (par P (Oop lay (zk k))), (par P (Oop lay (zk m))), X, (f && emem e0 (oedges lay)); reflexivity.
    Qed.
    Lemma effect_eq : effect = xorb (par P (Oop lay (zk k))) (f && emem e0 (oedges lay)).
    Proof.
      unfold effect. rewrite total_eq by lia. replace (N <=? k)%nat with false by (symmetry; apply Nat.leb_gt; lia).
      replace (xsum dat (snd (obr lay n))) with (par P (Oop lay (zk N))).
      - destruct (par P (Oop lay (zk k))), (par P (Oop lay (zk N))), (f && emem e0 (oedges lay)); reflexivity.
      - rewrite Z2Nat.id by lia. unfold Oop. rewrite par_pstr. apply xsum_ext. intros q Hq. symmetry. apply Hdat. apply (proj2 (in_data lay Hv q)). now apply (obr_data lay Hv Hobs) in Hq.
    Qed.

    (** ** No detector fires *)
    Hypothesis HQ : quiet lay B.
    Lemma next_ahead : ahead (zk k) = false -> ahead (zk (k + 1)) = true.
    Proof. intros H. replace (zk (k + 1)) with (zk k + 1) by lia. now rewrite ahead_step, H. Qed.
    Lemma later_ahead : ahead (zk k) = true -> ahead (zk (k + 2)) = true.
    Proof. intros H. replace (zk (k + 2)) with (zk k + 1 + 1) by lia. now rewrite !ahead_step, H. Qed.
    Lemma emits_next : ahead (zk k) = false -> emits lay (k + 1) = true.
    Proof.
      unfold FaultQuiet.ahead, emits. destruct (Nat.leb_spec 4 (k + 1)) as [L|L]; [reflexivity|]. cbn [orb]. destruct (obs lay =? "V")%string;
      assert (C : k = 0%nat \/ k = 1%nat \/ k = 2%nat) by lia; destruct C as [->|[->| ->]]; vm_compute; auto.
    Qed.
    Lemma emits_later : ahead (zk k) = true -> emits lay (k + 2) = true.
    Proof.
      unfold FaultQuiet.ahead, emits. destruct (Nat.leb_spec 4 (k + 2)) as [L|L]; [reflexivity|]. cbn [orb]. destruct (obs lay =? "V")%string;
      assert (C : k = 0%nat \/ k = 1%nat) by lia; destruct C as [->| ->]; vm_compute; auto.
    Qed.
    Lemma emits_now : ahead (zk k) = true -> (1 <= k)%nat -> emits lay k = true.
    Proof.
      unfold FaultQuiet.ahead, emits. destruct (Nat.leb_spec 4 k) as [L|L]; [reflexivity|]. cbn [orb]. destruct (obs lay =? "V")%string;
      assert (C : k = 0%nat \/ k = 1%nat \/ k = 2%nat \/ k = 3%nat) by lia; destruct C as [->|[->|[->| ->]]]; vm_compute; auto; lia.
    Qed.
    Lemma zN : zk N = n.
    Proof. apply Z2Nat.id. pose proof (proj1 Hs). lia. Qed.

    (** the observable is in the basis just measured *)
    Lemma fault_behind : ahead (zk k) = false -> effect = false.
    Proof.
      intros Hb. destruct ab_data as (Ha & Hb' & Nab & Eb & Ea).
      set (h := hexq lay (zk k + 2) a). destruct (hexq_ishex lay Hv (zk k + 2) a Ha) as [Ih Ch]. fold h in Ih, Ch.
      assert (Hh : In h (H2 lay (zk (k + 1)))) by (unfold h; replace (zk k + 2) with (zk (k + 1) - 2 + 3) by lia; replace (hexq lay (zk (k + 1) - 2 + 3) a) with (hexq lay (zk (k + 1) - 2) a) by (unfold hexq, hex_off; do 2 f_equal; replace ((zk (k + 1) - 2 + 3 - snd a / 2) mod 3) with ((zk (k + 1) - 2 - snd a / 2) mod 3) by dlia; reflexivity); now apply hexq_H2).
      assert (Aa : In a (qubits_around_hex lay h)).
      { apply mem_around; auto. rewrite Ch. unfold h. unfold hexq, hex_off. do 2 f_equal. replace (((zk k + 2) mod 3 - snd a / 2) mod 3) with ((zk k + 2 - snd a / 2) mod 3) by dlia. reflexivity. }
      assert (Ab : In b (qubits_around_hex lay h)).
      { apply mem_around; auto. rewrite Eb, (hexq_partner lay Hv); [|exact Ha|rewrite Ch; dlia]. rewrite Ch. unfold h. unfold hexq, hex_off. do 2 f_equal. replace (((zk k + 2) mod 3 - snd a / 2) mod 3) with ((zk k + 2 - snd a / 2) mod 3) by dlia. reflexivity. }
      assert (Fe : In e0 (first_edges_around_hex lay h)).
      { apply (in_first lay Hv h e0 a Ih); [|now left|exact Aa]. rewrite <- round_edges_mod. replace ((hexcat h + 1) mod 3) with (zk k mod 3) by (rewrite Ch; dlia). now rewrite round_edges_mod. }
      assert (Key : xorb (par P (hex_op lay h)) f = false).
      { destruct (Nat.ltb_spec (k + 1) N) as [L|L].
        - pose proof (quiet_hex lay Hv Hobs B Hs HQ (k + 1) h L (next_ahead Hb) (emits_next Hb) Hh) as Q. rewrite val_next in Q by assumption. rewrite before_early in Q by (lia || exact Hh).
          apply emem_In in Fe. rewrite Fe, andb_true_r in Q. exact Q.
        - assert (EN : N = (k + 1)%nat) by lia. assert (Hn : n = zk k + 1) by (rewrite <- zN, EN; lia).
          assert (Sb : same_basis lay = false) by (rewrite same_ahead, Hn, ahead_step, Hb; reflexivity).
          assert (Hh' : In h (H2 lay n)) by (rewrite Hn; replace (zk k + 1) with (zk (k + 1)) by lia; exact Hh).
          pose proof (quiet_other lay Hv Hobs B Hs HQ h Sb Hh') as Q.
          rewrite dat_around in Q by exact Ih. rewrite before_early in Q by (first [lia | rewrite zN; exact Hh']). replace (N - 1)%nat with k in Q by lia. rewrite vfirst_eq in Q; [|lia|].
          + rewrite Nat.leb_refl, Nat.eqb_refl in Q. cbn [andb] in Q. apply emem_In in Fe. rewrite Fe, andb_true_r in Q. rewrite <- xorb_assoc in Q.
            rewrite (hex_halves lay P h). unfold half_op2. replace (xyz (hexcat h + 2)) with (final_basis lay); [exact Q|].
            rewrite (final_cases lay), Sb. apply xyz_eq. rewrite Ch, Hn. dlia.
          + apply H2_H1 in Hh. replace (zk k) with (zk (k + 1) - 1) by lia. exact Hh. }
      rewrite effect_eq. unfold Oop. rewrite par_two' by apply NoDup_obr. rewrite (behind_mem (zk k) e0 a Hb He0), (behind_mem (zk k) e0 b Hb He0) by (unfold ends; cbn; auto).
      rewrite obr_basis, Hb. unfold hex_op in Key. rewrite par_two' in Key by (now apply NoDup_around). apply cmem_In in Aa, Ab. rewrite Aa, Ab in Key. cbn [andb] in Key.
      replace (xyz (hexcat h)) with (xyz (zk k - 1)) in Key by (apply xyz_eq; rewrite Ch; dlia).
      destruct (emem e0 (oedges lay)); cbn [andb]; [rewrite andb_true_r; exact Key|]. now rewrite andb_false_r.
    Qed.

    (** the observable is in the basis about to be measured *)
    (** an error on q alone seen by q's hexagon of category k *)
    Lemma fault_end q : ahead (zk k) = true -> q = a \/ q = b -> anti2 (pbits (xyz (zk k))) (P q) = false.
    Proof.
      intros Hah Hq. destruct ab_data as (Ha & Hb & Nab & Eb & Ea). assert (Dq : isdata lay q) by (destruct Hq as [->| ->]; assumption).
      set (h := hexq lay (zk k) q). destruct (hexq_ishex lay Hv (zk k) q Dq) as [Ih Ch]. fold h in Ih, Ch.
      assert (Hin : In q (qubits_around_hex lay h)) by (apply mem_around; auto; apply hexq_self, Dq).
      assert (Hout : forall q', (q = a /\ q' = b) \/ (q = b /\ q' = a) -> ~ In q' (qubits_around_hex lay h)).
      { intros q' C Hin'. apply (in_around lay Hv h q' Ih) in Hin'. destruct Hin' as [Dq' F]. rewrite Ch in F. rewrite (hexq_mod (zk k mod 3) (zk k)) in F by dlia. unfold h in F.
        apply (hexq_apart lay Hv (zk k) q Hw Dq). rewrite <- F. f_equal. destruct C as [[-> ->]|[-> ->]]; symmetry; assumption. }
      assert (Sum : forall p, par P (pstr p (qubits_around_hex lay h)) = anti2 (pbits p) (P q)).
      { intros p. rewrite par_two' by (now apply NoDup_around). apply cmem_In in Hin. destruct Hq as [Eq|Eq]; subst q.
        - rewrite Hin, (proj2 (cmem_false b _) (Hout b (or_introl (conj eq_refl eq_refl)))). cbn [andb]. apply xorb_false_r.
        - rewrite Hin, (proj2 (cmem_false a _) (Hout a (or_intror (conj eq_refl eq_refl)))). cbn [andb]. apply xorb_false_l. }
      assert (Hh : In h (H2 lay (zk (k + 2)))) by (unfold h; rewrite (hexq_mod (zk k) (zk (k + 2) - 2)) by (f_equal; lia); now apply hexq_H2).
      replace (xyz (zk k)) with (xyz (hexcat h)) by (apply xyz_eq; rewrite Ch; dlia). rewrite <- Sum. fold (hex_op lay h).
      assert (CN : (k + 2 < N)%nat \/ N = (k + 2)%nat \/ N = (k + 1)%nat) by lia. destruct CN as [L|[EN|EN]].
      - pose proof (quiet_hex lay Hv Hobs B Hs HQ (k + 2) h L (later_ahead Hah) (emits_later Hah) Hh) as Q. rewrite val_later in Q by (lia || exact Hh). rewrite before_early in Q by (lia || exact Hh). exact Q.
      - assert (Hn : n = zk k + 1 + 1) by (rewrite <- zN, EN; lia). assert (Sb : same_basis lay = false) by (rewrite same_ahead, Hn, !ahead_step, Hah; reflexivity).
        assert (Hh' : In h (H2 lay n)) by (rewrite Hn; replace (zk k + 1 + 1) with (zk (k + 2)) by lia; exact Hh).
        pose proof (quiet_other lay Hv Hobs B Hs HQ h Sb Hh') as Q.
        rewrite dat_around in Q by exact Ih. rewrite before_early in Q by (first [lia | rewrite zN; exact Hh']). replace (N - 1)%nat with (k + 1)%nat in Q by lia. rewrite vfirst_eq in Q; [|lia|].
        + replace (k <=? k + 1)%nat with true in Q by (symmetry; apply Nat.leb_le; lia). replace (k + 1 =? k)%nat with false in Q by (symmetry; apply Nat.eqb_neq; lia). cbn [andb] in Q. rewrite xorb_false_r in Q.
          rewrite (hex_halves lay P h). unfold half_op2. replace (xyz (hexcat h + 2)) with (final_basis lay); [exact Q|]. rewrite (final_cases lay), Sb. apply xyz_eq. rewrite Ch, Hn. dlia.
        + apply H2_H1 in Hh. replace (zk (k + 1)) with (zk (k + 2) - 1) by lia. exact Hh.
      - assert (Hn : n = zk k + 1) by (rewrite <- zN, EN; lia). assert (Sb : same_basis lay = true) by (rewrite same_ahead, Hn, ahead_step, Hah; reflexivity).
        assert (Hh' : In h (hexes lay ((n - 1) mod 3))) by (unfold h; replace (n - 1) with (zk k) by lia; now apply hexq_in).
        pose proof (quiet_same lay Hv Hobs B Hs HQ h Sb Hh') as Q. rewrite dat_around in Q by exact Ih.
        replace (par P (hex_op lay h)) with (par P (pstr (final_basis lay) (qubits_around_hex lay h))).
        + rewrite Q. destruct (Nat.leb_spec 2 N) as [L2|L2]; [|reflexivity]. apply val_early; [lia|]. rewrite (H2_mod lay (zk (N - 2)) (zk (k + 2))); [exact Hh|]. replace (zk (N - 2)) with (zk (k + 2) - 3) by lia. dlia.
        + unfold hex_op. do 2 f_equal. rewrite (final_cases lay), Sb. apply xyz_eq. rewrite Ch, Hn. dlia.
    Qed.
    Lemma fault_result : ahead (zk k) = true -> xorb (par P (edge_op (xyz (zk k)) e0)) f = false.
    Proof.
      intros Hah. destruct ab_data as (Ha & Hb & Nab & Eb & Ea). destruct (Nat.eq_dec k 0) as [K0|K0].
      - assert (O : obs lay = "H"%string) by (destruct Hobs as [O|O]; [|exact O]; revert Hah; unfold FaultQuiet.ahead; rewrite O, K0; discriminate).
        assert (He0' : In e0 (E 0)) by (rewrite K0 in He0; exact He0). pose proof (quiet_first lay Hv Hobs B Hs HQ e0 O He0') as Q. rewrite HVE in Q; [|lia|exact He0']. rewrite K0 in *. cbn [Nat.leb Nat.eqb andb] in Q.
        rewrite (proj2 (edge_eqb_eq e0 e0) eq_refl), andb_true_r in Q. exact Q.
      - set (h := hexq lay (zk k + 1) a). destruct (hexq_ishex lay Hv (zk k + 1) a Ha) as [Ih Ch]. fold h in Ih, Ch.
        assert (Aa : In a (qubits_around_hex lay h)) by (apply mem_around; auto; now apply hexq_self).
        assert (Ab : In b (qubits_around_hex lay h)) by (apply mem_around; auto; rewrite Eb, (hexq_partner lay Hv) by (first [exact Ha | rewrite Ch; dlia]); now apply hexq_self).
        assert (Hh : In h (H2 lay (zk k))) by (unfold h; rewrite (hexq_mod (zk k + 1) (zk k - 2)) by dlia; now apply hexq_H2).
        assert (Fe : In e0 (second_edges_around_hex lay h)).
        { apply (in_second lay Hv h e0 a Ih); [|now left|exact Aa]. rewrite <- round_edges_mod. replace ((hexcat h + 2) mod 3) with (zk k mod 3) by (rewrite Ch; dlia). now rewrite round_edges_mod. }
        pose proof (quiet_hex lay Hv Hobs B Hs HQ k h Hk Hah (emits_now Hah ltac:(lia)) Hh) as Q. rewrite val_now in Q by exact Hh. rewrite before_early in Q by (lia || exact Hh).
        apply emem_In in Fe. rewrite Fe, andb_true_r in Q. unfold half_op2 in Q. rewrite par_two' in Q by (now apply NoDup_around). apply cmem_In in Aa, Ab. rewrite Aa, Ab in Q. cbn [andb] in Q.
        rewrite par_e0. replace (xyz (zk k)) with (xyz (hexcat h + 2)) by (apply xyz_eq; rewrite Ch; dlia). exact Q.
    Qed.
    Lemma fault_ahead : ahead (zk k) = true -> effect = false.
    Proof.
      intros Hah. pose proof (fault_end a Hah (or_introl eq_refl)) as Fa. pose proof (fault_end b Hah (or_intror eq_refl)) as Fb. pose proof (fault_result Hah) as Fr.
      rewrite par_e0, Fa, Fb, !xorb_false_l in Fr. rewrite effect_eq. unfold Oop. rewrite par_two' by apply NoDup_obr. rewrite obr_basis, Hah, Fa, Fb, !andb_false_r, Fr. reflexivity.
    Qed.
    Theorem fault_harmless : effect = false.
    Proof. destruct (ahead (zk k)) eqn:F; [now apply fault_ahead | now apply fault_behind]. Qed.
  End Fault.

  (** ** An error just before the final data measurement *)
  Section Late.
    Hypothesis Hs : supported.
    Variable q0 : cpx.
    Hypothesis Hq0 : isdata lay q0.
    Variable P : cpx -> bits.
    Hypothesis HP : forall q, q <> q0 -> P q = bzero.
    Variable B : nat -> bool.
    Hypothesis HVE : forall s e, (s < N)%nat -> In e (E (zk s)) -> VE lay B s e = false.
    Hypothesis Hdat : forall q, In q D -> dat lay B q = anti2 (pbits (final_basis lay)) (P q).
    Hypothesis HQ : quiet lay B.
    Lemma late_val s h : (s < N)%nat -> In h (H2 lay (zk s)) -> val lay B s h = false.
    Proof.
      intros Hs' Hh. unfold val, vsecond. rewrite xsum_false by (intros e He; apply HVE; [exact Hs' | eapply H2_second; eauto]). rewrite xorb_false_l. destruct (Nat.eqb_spec s 0) as [|N0]; [reflexivity|].
      unfold vfirst. apply xsum_false. intros e He. apply HVE; [lia|]. apply H2_H1 in Hh. replace (zk s - 1) with (zk (s - 1)) in Hh by lia. eapply H1_first; eauto.
    Qed.
    Lemma late_dat : anti2 (pbits (final_basis lay)) (P q0) = false.
    Proof.
      assert (Hn : 1 <= n) by apply Hs. assert (ZN : zk N = n) by (apply Z2Nat.id; lia). destruct (same_basis lay) eqn:Sb.
      - set (e := touch lay (n - 1) q0). assert (He : In e (E (n - 1))) by (apply touch_in; auto). pose proof (quiet_edge lay Hv B Hs HQ e Sb He) as Q.
        destruct (round_edge_facts lay Hv (n - 1) e He) as (Hl & Hr & Pl & Pr & _). rewrite HVE in Q; [|lia|replace (zk (N - 1)) with (n - 1) by lia; exact He].
        rewrite !Hdat in Q by (apply (proj2 (in_data lay Hv _)); assumption).
        destruct (proj2 (touch_unique lay Hv (n - 1) q0 e Hq0 He) eq_refl) as [F|F].
        + rewrite F in Q. rewrite (HP (e_right e)) in Q by (intros G; rewrite <- G in F; rewrite F in Pl; congruence). now rewrite anti2_zero_r, xorb_false_r in Q.
        + rewrite F in Q. rewrite (HP (e_left e)) in Q by (intros G; rewrite <- G in F; rewrite F in Pr; congruence). now rewrite anti2_zero_r, xorb_false_l in Q.
      - set (h := hexq lay n q0). assert (Hh : In h (hexes lay (n mod 3))) by (now apply hexq_in). destruct (hexq_ishex lay Hv n q0 Hq0) as [Ih Ch]. fold h in Ih, Ch.
        pose proof (quiet_diff lay Hv Hobs B Hs HQ h Sb Hh) as Q. rewrite late_val in Q; [|lia|].
        + rewrite (xsum_ext _ (fun q => anti2 (pbits (final_basis lay)) (P q))) in Q by (intros q Hq; apply Hdat; eapply around_data; eauto).
          rewrite (xsum_single _ _ q0) in Q; [exact Q | now apply NoDup_around | |].
          * apply mem_around; auto. now apply hexq_self.
          * intros q _ Hne. rewrite HP by congruence. apply anti2_zero_r.
        + unfold H2. replace (zk (N - 1) - 2) with (n - 3) by lia. replace ((n - 3) mod 3) with (n mod 3) by dlia. exact Hh.
    Qed.
    Lemma late_total m : (m <= N)%nat -> total B m = false.
    Proof. induction m as [|m IH]; intros Hm; [reflexivity|]. cbn [total]. rewrite IH by lia. rewrite xorb_false_l. apply xsum_false. intros e He. apply HVE; [lia|]. now apply oat_in in He. Qed.
    Theorem late_harmless : effect B = false.
    Proof.
      unfold effect. rewrite late_total by lia. rewrite xorb_false_l. apply xsum_false. intros q Hq. apply (obr_data lay Hv Hobs) in Hq. rewrite Hdat by (apply (proj2 (in_data lay Hv q)); exact Hq).
      destruct (cpx_dec q q0) as [->|Hne]; [apply late_dat | rewrite HP by exact Hne; apply anti2_zero_r].
    Qed.
  End Late.
End S.
