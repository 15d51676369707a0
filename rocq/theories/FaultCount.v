(** How many detectors one error sets off, and which. *)
From Coq Require Import QArith.
From Verif Require Import Prelude Layout LayoutFacts LayoutEdges LayoutLists LayoutHex LayoutHex2 Pauli LayoutObs LayoutLogic LayoutIndex
  Tracker TrackerFacts Stim Circuit Annot Shift Ends Gen Gen2 Gen3 Traj Eval Frame Exec Exec2 Exec3 Exec4 Detectors Struct Struct2 Struct3 FaultSpec FaultQuiet FaultCore FaultObs FaultInv FaultZ.
Open Scope Z_scope.

(** ** Coordinates *)
Definition dkey (d : detector) : Q * Q * Q := (d_t d, d_x d, d_y d).
Definition kt (t : Z) (c : cpx) : Q * Q * Q := (Qred (t # 1), Qred (fst c # 2), Qred (snd c # 2)).
Lemma kt_inj t c t' c' : kt t c = kt t' c' -> t = t' /\ c = c'.
Proof.
  unfold kt. intros H. injection H as H1 H2 H3. destruct c as [x y], c' as [x' y']. cbn [fst snd] in *.
  assert (K : forall a b d, Qred (a # d) = Qred (b # d) -> a = b).
  { intros a b d K. assert (K' : (a # d == b # d)%Q) by (rewrite <- (Qred_correct (a # d)), <- (Qred_correct (b # d)), K; reflexivity). unfold Qeq in K'. cbn in K'. nia. }
  apply K in H1, H2, H3. subst. auto.
Qed.
Lemma at_key t v c d : In d (at_ t v c) -> dkey d = kt t c.
Proof. destruct v as [s|]; [intros [<-|[]]; reflexivity | intros []]. Qed.
Lemma NoDup_app_intro {T} (l l' : list T) : NoDup l -> NoDup l' -> (forall x, In x l -> In x l' -> False) -> NoDup (l ++ l').
Proof.
  intros H1 H2 H3. induction H1 as [|x l Hx H1 IH]; [exact H2|]. cbn [app]. constructor.
  - intros K. apply in_app_or in K. destruct K as [K|K]; [contradiction | apply (H3 x); [now left | exact K]].
  - apply IH. intros y Hy. apply H3. now right.
Qed.
Lemma NoDup_flat_at {T} (t : Z) (v : T -> entry) (c : T -> cpx) l : NoDup (map c l) -> NoDup (map dkey (flat_map (fun x => at_ t (v x) (c x)) l)).
Proof.
  induction l as [|x l IH]; [constructor|]. cbn [map flat_map]. intros H. inversion H as [|? ? H1 H2]; subst. rewrite map_app. apply NoDup_app_intro.
  - destruct (v x); cbn; repeat constructor; intros [].
  - now apply IH.
  - intros k K1 K2. apply in_map_iff in K1. destruct K1 as (d & <- & Hd). apply at_key in Hd. apply in_map_iff in K2. destruct K2 as (d' & E & Hd'). apply in_flat_map in Hd'. destruct Hd' as (y & Hy & Hd').
    apply at_key in Hd'. rewrite Hd, Hd' in E. apply kt_inj in E. destruct E as [_ E]. apply H1. rewrite <- E. now apply in_map.
Qed.

Section S.
  Variable lay : layout.
  Hypothesis Hv : valid lay.
  Hypothesis Hobs : obs lay = "V"%string \/ obs lay = "H"%string.
  Hypothesis Hs : supported lay.
  Notation E := (round_edges lay).
  Notation zk := Z.of_nat.
  Notation ne := (length (E 0)).
  Notation D := (data_qubit_coords lay).
  Notation n := (sub_rounds lay).
  Notation N := (Z.to_nat n).
  Notation trk := (trk lay (tr0 lay)).
  Notation dets := (detectors 0 0 0 0 (circuit_i lay)).
  Notation ahead := (ahead lay).
  Local Opaque data_qubit_coords measure_qubit_coords q2i_dict hex_entries hexes round_edges all_edges isort.

  Lemma Hn1 : 1 <= n.
  Proof. apply Hs. Qed.
  Lemma hex_not_center h s e : ishex lay h -> In e (E s) -> e_center e <> h.
  Proof.
    intros (_ & Hx & Hy) He F. destruct (round_edge_facts lay Hv s e He) as (_ & _ & _ & _ & _ & _ & _ & _ & Hc).
    assert (C : iscenter lay (e_center e)).
    { apply (in_all_of_round lay) in He. apply (in_all_edges lay Hv) in He. apply He. }
    rewrite F in C. destruct C as (_ & [(C1 & C2)|(C1 & C2)]); revert Hx Hy C1 C2; clear; dlia.
  Qed.
  (** No two detectors have the same coordinates. *)
  Theorem keys_distinct : NoDup (map dkey dets).
  Proof.
    rewrite (circuit_detectors lay Hv Hs), map_app. apply NoDup_app_intro.
    - assert (G : forall l, NoDup l -> NoDup (map dkey (flat_map (row_dets lay) l))); [|apply G, seq_NoDup].
      induction l as [|k l IH]; intros Hl; [constructor|]. inversion Hl as [|? ? Hk Hl']; subst. cbn [flat_map]. rewrite map_app. apply NoDup_app_intro; [|now apply IH|].
      + unfold row_dets. rewrite map_app. apply NoDup_app_intro.
        * destruct (_ && _); [|constructor]. apply NoDup_flat_at. apply NoDup_round_edges_centers, Hv.
        * apply NoDup_flat_at. rewrite map_id. apply NoDup_hexes, Hv.
        * intros x K1 K2. apply in_map_iff in K1. destruct K1 as (d & <- & K1). destruct (_ && _); [|destruct K1]. apply in_flat_map in K1. destruct K1 as (e & He & K1). apply at_key in K1.
          apply in_map_iff in K2. destruct K2 as (d' & Ek & K2). apply in_flat_map in K2. destruct K2 as (h & Hh & K2). apply at_key in K2. rewrite K1, K2 in Ek. apply kt_inj in Ek. destruct Ek as [_ Ek].
          apply (in_hexes lay Hv) in Hh. apply (hex_not_center h (zk k) e); [apply Hh | exact He | now symmetry].
      + intros x K1 K2. apply in_map_iff in K1. destruct K1 as (d & <- & K1). apply in_map_iff in K2. destruct K2 as (d' & Ek & K2). apply in_flat_map in K2. destruct K2 as (j & Hj & K2).
        apply row_time in K1. apply row_time in K2. unfold dkey in Ek. injection Ek as Ek _ _. rewrite K1, K2 in Ek.
        assert (zk j = zk k) by (apply (f_equal Qnum) in Ek; now rewrite !Qred_whole in Ek). assert (j = k) by lia. subst j. contradiction.
    - unfold fin_dets. rewrite map_app. apply NoDup_app_intro.
      + destruct (pauli_eqb _ _); apply NoDup_flat_at; [apply NoDup_round_edges_centers, Hv | rewrite map_id; apply NoDup_hexes, Hv].
      + apply NoDup_flat_at. rewrite map_id. apply NoDup_hexes, Hv.
      + intros x K1 K2. apply in_map_iff in K1. destruct K1 as (d & <- & K1). apply in_map_iff in K2. destruct K2 as (d' & Ek & K2). apply in_flat_map in K2. destruct K2 as (h & Hh & K2). apply at_key in K2.
        rewrite (same_spec lay) in K1. destruct (same_basis lay) eqn:Sb; apply in_flat_map in K1; destruct K1 as (e & He & K1); apply at_key in K1; rewrite K1, K2 in Ek; apply kt_inj in Ek; destruct Ek as [_ Ek].
        * apply (in_hexes lay Hv) in Hh. eapply (hex_not_center h); [apply Hh | exact He | now symmetry].
        * rewrite (third_spec lay Sb) in He. rewrite (final_cases lay), Sb, xyz_index_xyz in Hh. apply (in_hexes lay Hv) in Hh, He. subst h. destruct Hh as [_ Hh], He as [_ He]. rewrite Hh in He. revert He. dlia.
    - intros x K1 K2. apply in_map_iff in K1. destruct K1 as (d & <- & K1). apply in_flat_map in K1. destruct K1 as (j & Hj & K1). apply in_map_iff in K2. destruct K2 as (d' & Ek & K2).
      apply row_time in K1. apply fin_time in K2. unfold dkey in Ek. injection Ek as Ek _ _. rewrite K1, K2 in Ek. apply (f_equal Qnum) in Ek. rewrite !Qred_whole in Ek. apply in_seq in Hj. lia.
  Qed.

  Lemma keyed d : In d dets -> exists t c, dkey d = kt t c.
  Proof.
    assert (G : forall {T} t (v : T -> entry) (c : T -> cpx) l, In d (flat_map (fun x => at_ t (v x) (c x)) l) -> exists t c, dkey d = kt t c).
    { intros T t v c l Hd. apply in_flat_map in Hd. destruct Hd as (x & _ & Hd). apply at_key in Hd. eauto. }
    rewrite (circuit_detectors lay Hv Hs). intros Hd. apply in_app_or in Hd. destruct Hd as [Hd|Hd].
    - apply in_flat_map in Hd. destruct Hd as (k & _ & Hd). unfold row_dets in Hd. apply in_app_or in Hd. destruct Hd as [Hd|Hd]; [destruct (_ && _); [|destruct Hd]|]; eapply G, Hd.
    - unfold fin_dets in Hd. apply in_app_or in Hd. destruct Hd as [Hd|Hd]; [destruct (pauli_eqb _ _)|]; eapply G, Hd.
  Qed.

  (** ** Sides *)
  Lemma Zeq_bool_eqb a b : Zeq_bool a b = (a =? b).
  Proof. apply eq_true_iff_eq. rewrite <- Zeq_is_eq_bool, Z.eqb_eq. tauto. Qed.
  Lemma side_row k d : (k < N)%nat -> In d (row_dets lay k) -> watches lay d = ahead (zk k).
  Proof.
    intros Hk Hd. unfold watches. rewrite (row_time lay k d Hd), time_neq by lia. cbn [orb]. rewrite Qred_whole. unfold FaultQuiet.ahead. now rewrite Zodd_mod, Zeven_mod, !Zeq_bool_eqb.
  Qed.

  Section Fault.
    Variable k : nat.
    Hypothesis Hk : (k < N)%nat.
    Variable e0 : edge.
    Hypothesis He0 : In e0 (E (zk k)).
    Variable P : cpx -> bits.
    Notation a := (e_left e0).
    Notation b := (e_right e0).
    Hypothesis HP : forall q, q <> a -> q <> b -> P q = bzero.
    Variable f : bool.
    Variable B : nat -> bool.
    Notation val := (val lay B).
    Notation before := (before lay B).
    Notation dat := (dat lay B).
    Notation VE := (VE lay B).
    Hypothesis HVE : forall s e, (s < N)%nat -> In e (E (zk s)) ->
      VE s e = xorb ((k <=? s)%nat && par P (edge_op (xyz (zk s)) e)) (((s =? k)%nat && f) && edge_eqb e e0).
    Hypothesis Hdat : forall q, In q D -> dat q = anti2 (pbits (final_basis lay)) (P q).

    (** the hexagons next to the check, and the parts of the error *)
    Notation h1 := (hexq lay (zk k + 1) a).
    Notation h2 := (hexq lay (zk k + 2) a).
    Notation ha := (hexq lay (zk k) a).
    Notation hb := (hexq lay (zk k) b).
    Notation u := (anti2 (pbits (xyz (zk k))) (P a)).
    Notation v := (anti2 (pbits (xyz (zk k))) (P b)).
    Notation w := (xorb (xorb (anti2 (pbits (xyz (zk k + 2))) (P a)) (anti2 (pbits (xyz (zk k + 2))) (P b))) f).
    (** hexagon h of sub-round s compares results that the error makes differ *)
    Definition spot (s : nat) (h : cpx) : Prop :=
      (s = k /\ h = h1 /\ xorb (xorb u v) f = true) \/ (s = (k + 1)%nat /\ h = h2 /\ w = true) \/ (s = (k + 2)%nat /\ ((h = ha /\ u = true) \/ (h = hb /\ v = true))) \/
      (s = (k + 3)%nat /\ h = h1 /\ w = true) \/ (s = (k + 4)%nat /\ h = h2 /\ f = true).

    Lemma near h q : ishex lay h -> isdata lay q -> cmem q (qubits_around_hex lay h) = cpx_eqb h (hexq lay (hexcat h) q).
    Proof.
      intros Hh Hq. apply eq_true_iff_eq. rewrite cmem_In, cpx_eqb_eq, (in_around lay Hv h q Hh). split; [intros [_ K]; now symmetry | intros K; split; [exact Hq | now symmetry]].
    Qed.
    Lemma around_two h p : ishex lay h -> hexcat h mod 3 <> zk k mod 3 ->
      par P (pstr p (qubits_around_hex lay h)) = cpx_eqb h (hexq lay (hexcat h) a) && xorb (anti2 (pbits p) (P a)) (anti2 (pbits p) (P b)).
    Proof.
      intros Hh Hc. destruct (ab_data lay Hv k e0 He0) as (Ha & Hb & Nab & Eb & Ea). rewrite (par_two P a b) by (auto; now apply NoDup_around). rewrite !near by assumption.
      rewrite (f_equal (hexq lay (hexcat h)) Eb), (hexq_partner lay Hv) by (auto; intros K; apply Hc; now symmetry). now destruct (cpx_eqb _ _).
    Qed.
    Lemma second_mem h : In h (H2 lay (zk k)) -> emem e0 (second_edges_around_hex lay h) = cpx_eqb h h1.
    Proof.
      intros Hh. destruct (ab_data lay Hv k e0 He0) as (Ha & _). pose proof (cat_H2 lay Hv k h Hh) as [Ih Hc]. rewrite <- (hexq_mod lay (hexcat h) (zk k + 1)) by (revert Hc; dlia). rewrite <- near by assumption.
      apply eq_true_iff_eq. rewrite emem_In, cmem_In. split.
      - intros K. apply (Permutation_in _ (second_edges_cover lay h)). apply in_flat_map. exists e0. split; [exact K | now left].
      - intros K. apply (in_second lay Hv h e0 a Ih); [|now left | exact K]. rewrite <- round_edges_mod. rewrite <- Hc. now rewrite round_edges_mod.
    Qed.
    Lemma first_mem h : In h (H1 lay (zk k)) -> emem e0 (first_edges_around_hex lay h) = cpx_eqb h h2.
    Proof.
      intros Hh. destruct (ab_data lay Hv k e0 He0) as (Ha & _). pose proof (cat_H1 lay Hv k h Hh) as [Ih Hc]. rewrite <- (hexq_mod lay (hexcat h) (zk k + 2)) by (revert Hc; dlia). rewrite <- near by assumption.
      apply eq_true_iff_eq. rewrite emem_In, cmem_In. split.
      - intros K. apply (Permutation_in _ (first_edges_cover lay h)). apply in_flat_map. exists e0. split; [exact K | now left].
      - intros K. apply (in_first lay Hv h e0 a Ih); [|now left | exact K]. rewrite <- round_edges_mod. rewrite <- Hc. now rewrite round_edges_mod.
    Qed.
    Lemma half2_k h : In h (H2 lay (zk k)) -> xorb (par P (half_op2 lay h)) (f && emem e0 (second_edges_around_hex lay h)) = cpx_eqb h h1 && xorb (xorb u v) f.
    Proof.
      intros Hh. rewrite second_mem by exact Hh. pose proof (cat_H2 lay Hv k h Hh) as [Ih Hc]. unfold half_op2. rewrite around_two by (auto; revert Hc; dlia).
      rewrite (hexq_mod lay (hexcat h) (zk k + 1)) by (revert Hc; dlia). rewrite (proj2 (xyz_eq (hexcat h + 2) (zk k))) by (now symmetry). now destruct (cpx_eqb _ _), f.
    Qed.
    Lemma half1_k h : In h (H2 lay (zk k)) -> xorb (par P (half_op lay h)) (f && emem e0 (second_edges_around_hex lay h)) = cpx_eqb h h1 && w.
    Proof.
      intros Hh. rewrite second_mem by exact Hh. pose proof (cat_H2 lay Hv k h Hh) as [Ih Hc]. unfold half_op. rewrite around_two by (auto; revert Hc; dlia).
      rewrite (hexq_mod lay (hexcat h) (zk k + 1)) by (revert Hc; dlia). rewrite (proj2 (xyz_eq (hexcat h + 1) (zk k + 2))) by (revert Hc; dlia). now destruct (cpx_eqb _ _), f.
    Qed.
    Lemma full_next h : In h (H1 lay (zk k)) -> xorb (par P (hex_op lay h)) (f && emem e0 (first_edges_around_hex lay h)) = cpx_eqb h h2 && w.
    Proof.
      intros Hh. rewrite first_mem by exact Hh. pose proof (cat_H1 lay Hv k h Hh) as [Ih Hc]. unfold hex_op. rewrite around_two by (auto; revert Hc; dlia).
      rewrite (hexq_mod lay (hexcat h) (zk k + 2)) by (revert Hc; dlia). rewrite (proj2 (xyz_eq (hexcat h) (zk k + 2))) by (revert Hc; dlia). now destruct (cpx_eqb _ _), f.
    Qed.
    Lemma full_two h : ishex lay h -> hexcat h mod 3 = zk k mod 3 -> par P (hex_op lay h) = xorb (cpx_eqb h ha && u) (cpx_eqb h hb && v).
    Proof.
      intros Ih Hc. destruct (ab_data lay Hv k e0 He0) as (Ha & Hb & Nab & _). unfold hex_op. rewrite (par_two P a b) by (auto; now apply NoDup_around). rewrite !near by assumption.
      rewrite !(hexq_mod lay (hexcat h) (zk k)) by exact Hc. now rewrite (proj2 (xyz_eq (hexcat h) (zk k))) by exact Hc.
    Qed.
    (** ** What each detector compares *)
    Definition value (s : nat) (h : cpx) : bool :=
      if (s <? k)%nat then false else if (s =? k)%nat then xorb (par P (half_op2 lay h)) (f && emem e0 (second_edges_around_hex lay h)) else
      if (s =? k + 1)%nat then xorb (par P (hex_op lay h)) (f && emem e0 (first_edges_around_hex lay h)) else par P (hex_op lay h).
    Lemma val_value s h : (s < N)%nat -> In h (H2 lay (zk s)) -> val s h = value s h.
    Proof.
      intros Hs' Hh. unfold value. destruct (Nat.ltb_spec s k) as [L|L]; [now apply (val_early lay Hv k Hk e0 P f B HVE)|]. destruct (Nat.eqb_spec s k) as [->|N1]; [now apply (val_now lay Hv k Hk e0 He0 P f B HVE)|].
      destruct (Nat.eqb_spec s (k + 1)) as [->|N2]; [now apply (val_next lay Hv k Hk e0 P f B HVE)|]. apply (val_later lay Hv k Hk e0 P f B HVE); [lia | exact Hh].
    Qed.
    Lemma H2_back s h : (3 <= s)%nat -> In h (H2 lay (zk s)) -> In h (H2 lay (zk (s - 3))).
    Proof. intros L Hh. rewrite (H2_mod lay (zk (s - 3)) (zk s)); [exact Hh|]. replace (zk (s - 3)) with (zk s - 3) by lia. dlia. Qed.
    Lemma before_value s h : (s < N + 3)%nat -> In h (H2 lay (zk s)) -> before s h = if (3 <=? s)%nat then value (s - 3) h else false.
    Proof. intros Hs' Hh. unfold FaultQuiet.before. destruct (Nat.leb_spec 3 s) as [L|L]; [|reflexivity]. apply val_value; [lia | now apply H2_back]. Qed.
    (** the parity of hexagon h at sub-round s *)
    Definition mark (s : nat) (h : cpx) : bool :=
      xorb ((s =? k)%nat && (cpx_eqb h h1 && xorb (xorb u v) f)) (xorb ((s =? k + 1)%nat && (cpx_eqb h h2 && w)) (xorb ((s =? k + 2)%nat && xorb (cpx_eqb h ha && u) (cpx_eqb h hb && v))
        (xorb ((s =? k + 3)%nat && (cpx_eqb h h1 && w)) ((s =? k + 4)%nat && (cpx_eqb h h2 && f))))).
    Lemma value_exact s h : In h (H2 lay (zk s)) -> xorb (value s h) (if (3 <=? s)%nat then value (s - 3) h else false) = mark s h.
    Proof.
      intros Hh. pose proof (cat_H2 lay Hv s h Hh) as [Ih Hc].
      assert (Hle : (s < k)%nat \/ s = k \/ s = (k + 1)%nat \/ s = (k + 2)%nat \/ s = (k + 3)%nat \/ s = (k + 4)%nat \/ (k + 5 <= s)%nat) by lia.
      assert (V0 : forall j, (j < k)%nat -> value j h = false) by (intros j L; unfold value; destruct (Nat.ltb_spec j k); [reflexivity | lia]).
      assert (V1 : value k h = xorb (par P (half_op2 lay h)) (f && emem e0 (second_edges_around_hex lay h))) by (unfold value; destruct (Nat.ltb_spec k k); [lia|]; now rewrite Nat.eqb_refl).
      assert (V2 : value (k + 1) h = xorb (par P (hex_op lay h)) (f && emem e0 (first_edges_around_hex lay h))).
      { unfold value. destruct (Nat.ltb_spec (k + 1) k); [lia|]. destruct (Nat.eqb_spec (k + 1) k); [lia|]. now rewrite Nat.eqb_refl. }
      assert (V3 : forall j, (k + 2 <= j)%nat -> value j h = par P (hex_op lay h)).
      { intros j L. unfold value. destruct (Nat.ltb_spec j k); [lia|]. destruct (Nat.eqb_spec j k); [lia|]. destruct (Nat.eqb_spec j (k + 1)); [lia|]. reflexivity. }
      assert (W : (s <= k + 2)%nat -> (if (3 <=? s)%nat then value (s - 3) h else false) = false) by (intros L; destruct (Nat.leb_spec 3 s); [apply V0; lia | reflexivity]).
      assert (W' : (k + 3 <= s)%nat -> (if (3 <=? s)%nat then value (s - 3) h else false) = value (s - 3) h) by (intros L; destruct (Nat.leb_spec 3 s); [reflexivity | lia]).
      assert (EQ : forall x y, x = y -> (x =? y)%nat = true) by (intros x y ->; apply Nat.eqb_refl). assert (NE : forall x y, x <> y -> (x =? y)%nat = false) by (intros x y H; now apply Nat.eqb_neq).
      unfold mark. destruct Hle as [L|[->|[->|[->|[->|[->|L]]]]]].
      - rewrite W, V0 by lia. rewrite !NE by lia. reflexivity.
      - rewrite W by lia. rewrite xorb_false_r, V1, half2_k by exact Hh. rewrite (EQ k k) by lia. rewrite !NE by lia. cbn [andb]. now rewrite !xorb_false_r.
      - rewrite W by lia. rewrite xorb_false_r, V2, full_next.
        2:{ apply H2_H1 in Hh. replace (zk k) with (zk (k + 1) - 1) by lia. exact Hh. }
        rewrite (EQ (k + 1)%nat (k + 1)%nat) by lia. rewrite !NE by lia. cbn [andb]. now rewrite !xorb_false_r, xorb_false_l.
      - rewrite W by lia. rewrite xorb_false_r, V3 by lia. rewrite (EQ (k + 2)%nat (k + 2)%nat) by lia. rewrite !NE by lia. cbn [andb]. rewrite !xorb_false_r, !xorb_false_l. apply full_two; [exact Ih | revert Hc; dlia].
      - rewrite W' by lia. replace (k + 3 - 3)%nat with k by lia. rewrite (V3 (k + 3)%nat) by lia. rewrite V1.
        assert (Hh' : In h (H2 lay (zk k))) by (apply H2_back in Hh; [|lia]; now replace (k + 3 - 3)%nat with k in Hh by lia). rewrite (hex_halves lay P h).
        replace (xorb (xorb _ _) (xorb _ _)) with (xorb (par P (half_op lay h)) (f && emem e0 (second_edges_around_hex lay h))) by (destruct (par P (half_op2 lay h)), (par P (half_op lay h)), (f && emem e0 (second_edges_around_hex lay h)); reflexivity).
        rewrite half1_k by exact Hh'. rewrite (EQ (k + 3)%nat (k + 3)%nat) by lia. rewrite !NE by lia. cbn [andb]. now rewrite !xorb_false_r, !xorb_false_l.
      - rewrite W' by lia. replace (k + 4 - 3)%nat with (k + 1)%nat by lia. rewrite (V3 (k + 4)%nat), V2 by lia.
        assert (Hh' : In h (H2 lay (zk (k + 1)))) by (apply H2_back in Hh; [|lia]; now replace (k + 4 - 3)%nat with (k + 1)%nat in Hh by lia).
        rewrite first_mem by (apply H2_H1 in Hh'; replace (zk k) with (zk (k + 1) - 1) by lia; exact Hh').
        rewrite <- xorb_assoc, xorb_nilpotent, xorb_false_l. rewrite (EQ (k + 4)%nat (k + 4)%nat) by lia. rewrite !NE by lia. cbn [andb]. rewrite !xorb_false_l. apply andb_comm.
      - rewrite W', !V3 by lia. rewrite xorb_nilpotent, !NE by lia. reflexivity.
    Qed.
    Lemma mark_spot s h : mark s h = true -> spot s h.
    Proof.
      unfold mark, spot.
      destruct (Nat.eqb_spec s k) as [E1|E1], (Nat.eqb_spec s (k + 1)) as [E2|E2], (Nat.eqb_spec s (k + 2)) as [E3|E3], (Nat.eqb_spec s (k + 3)) as [E4|E4], (Nat.eqb_spec s (k + 4)) as [E5|E5]; try lia; cbn [andb];
        rewrite ?xorb_false_r, ?xorb_false_l; intros K.
      - apply andb_prop in K. destruct K as [K1 K2]. apply cpx_eqb_eq in K1. left. auto.
      - apply andb_prop in K. destruct K as [K1 K2]. apply cpx_eqb_eq in K1. right. left. auto.
      - right. right. left. split; [exact E3|]. destruct (cpx_eqb h ha && u) eqn:A1.
        + left. apply andb_prop in A1. destruct A1 as [A1 A2]. apply cpx_eqb_eq in A1. auto.
        + right. rewrite xorb_false_l in K. apply andb_prop in K. destruct K as [A2 A3]. apply cpx_eqb_eq in A2. auto.
      - apply andb_prop in K. destruct K as [K1 K2]. apply cpx_eqb_eq in K1. right. right. right. left. auto.
      - apply andb_prop in K. destruct K as [K1 K2]. apply cpx_eqb_eq in K1. right. right. right. right. auto.
      - discriminate.
    Qed.

    (** ** The detectors that fire *)
    Lemma at_value t v c d t' x : In d (at_ t v c) -> sd B t' v x -> xsum B (d_meas d) = x.
    Proof.
      intros Hd [Hn G]. destruct v as [s|]; [|congruence]. destruct G as (_ & _ & G). destruct Hd as [<-|[]]. cbn [d_meas]. now rewrite <- (xsum_perm _ _ _ (isort_perm _ s)).
    Qed.
    (** a detector at hexagon h, of sub-round s (those after the last sub-round belong to the final data measurement) *)
    Definition at_hex (d : detector) : Prop := exists s h, (1 <= s <= N + 2)%nat /\ spot s h /\ dkey d = kt (Z.min (zk s) n) h /\ watches lay d = ahead (zk s).
    Definition at_first (d : detector) : Prop := k = 0%nat /\ xorb (xorb u v) f = true /\ dkey d = kt (zk k) (e_center e0) /\ watches lay d = ahead (zk k).
    Definition at_last (d : detector) : Prop := k = (N - 1)%nat /\ f = true /\ dkey d = kt n (e_center e0) /\ watches lay d = ahead (zk k).
    Lemma par_edge p e : par P (edge_op p e) = xorb (anti2 (pbits p) (P (e_left e))) (anti2 (pbits p) (P (e_right e))).
    Proof. unfold edge_op. rewrite par_pstr, xsum_cons. unfold xsum. cbn [fold_right]. now rewrite xorb_false_r. Qed.
    Lemma par_other p e : In e (E (zk k)) -> e <> e0 -> par P (edge_op p e) = false.
    Proof.
      intros He Hne. rewrite par_edge. destruct (round_edge_facts lay Hv (zk k) e He) as (Hl & Hr & _).
      assert (Nq : forall q, isdata lay q -> (q = e_left e \/ q = e_right e) -> (q = a \/ q = b) -> False).
      { intros q Dq Q1 Q2. assert (T1 : e = touch lay (zk k) q) by (apply (touch_unique lay Hv (zk k) q e Dq He); destruct Q1; auto).
        assert (T2 : e0 = touch lay (zk k) q) by (apply (touch_unique lay Hv (zk k) q e0 Dq He0); destruct Q2; auto). congruence. }
      rewrite (HP (e_left e)), (HP (e_right e)); [now rewrite !anti2_zero_r | intros F; apply (Nq _ Hr); auto .. | intros F; apply (Nq _ Hl); auto | intros F; apply (Nq _ Hl); auto].
    Qed.
    Lemma first_value e : In e (E (zk 0)) -> VE 0 e = (k =? 0)%nat && (edge_eqb e e0 && xorb (xorb u v) f).
    Proof.
      intros He. pose proof Hn1. rewrite HVE by (lia || exact He). destruct (Nat.eqb_spec k 0) as [K0|K0].
      - rewrite K0, Nat.eqb_refl. cbn [Nat.leb andb]. destruct (edge_eqb e e0) eqn:Fe.
        + apply edge_eqb_eq in Fe. subst e. now rewrite par_edge, andb_true_r.
        + rewrite par_other; [now rewrite andb_false_r | rewrite K0; exact He |]. intros F. apply (proj2 (edge_eqb_eq e e0)) in F. congruence.
      - destruct (Nat.leb_spec k 0) as [L|L]; [lia|]. destruct (Nat.eqb_spec 0 k); [lia|]. reflexivity.
    Qed.
    Lemma row_value s h : (s < N)%nat -> In h (H2 lay (zk s)) -> xorb (val s h) (before s h) = mark s h.
    Proof. intros Hs' Hh. rewrite val_value, before_value by (assumption || lia). now apply value_exact. Qed.
    Lemma ZN : zk N = n.
    Proof. pose proof Hn1. apply Z2Nat.id. lia. Qed.
    Lemma last_value e : same_basis lay = true -> In e (E (n - 1)) -> xorb (xorb (dat (e_left e)) (dat (e_right e))) (VE (N - 1) e) = (k =? N - 1)%nat && (edge_eqb e e0 && f).
    Proof.
      intros Sb He. pose proof Hn1 as H1n. pose proof ZN as ZN. assert (Fb : final_basis lay = xyz (n - 1)) by (now rewrite (final_cases lay), Sb).
      destruct (round_edge_facts lay Hv (n - 1) e He) as (Hl & Hr & _). rewrite !Hdat by (apply (proj2 (in_data lay Hv _)); assumption).
      rewrite HVE; [|lia | replace (zk (N - 1)) with (n - 1) by lia; exact He]. replace (zk (N - 1)) with (n - 1) by lia. rewrite Fb, <- par_edge.
      replace (k <=? N - 1)%nat with true by (symmetry; apply Nat.leb_le; lia). cbn [andb]. rewrite <- xorb_assoc, xorb_nilpotent, xorb_false_l, (Nat.eqb_sym k).
      now rewrite <- andb_assoc, (andb_comm f).
    Qed.
    Lemma same_value h : same_basis lay = true -> In h (H2 lay (zk (N + 1))) -> xorb (xsum dat (qubits_around_hex lay h)) (if (2 <=? N)%nat then val (N - 2) h else false) = mark (N + 1) h.
    Proof.
      intros Sb Hh'. pose proof Hn1 as H1n. pose proof ZN as ZN. assert (Fb : final_basis lay = xyz (n - 1)) by (now rewrite (final_cases lay), Sb).
      pose proof (cat_H2 lay Hv (N + 1) h Hh') as [Ih Hc]. rewrite (dat_around lay Hv P B Hdat h Ih), Fb. rewrite <- value_exact by exact Hh'.
      replace (value (N + 1) h) with (par P (pstr (xyz (n - 1)) (qubits_around_hex lay h))).
      - f_equal. destruct (Nat.leb_spec 2 N) as [L|L].
        + destruct (Nat.leb_spec 3 (N + 1)) as [L'|L']; [|lia]. replace (N + 1 - 3)%nat with (N - 2)%nat by lia. apply val_value; [lia|]. apply H2_back in Hh'; [|lia]. now replace (N + 1 - 3)%nat with (N - 2)%nat in Hh' by lia.
        + destruct (Nat.leb_spec 3 (N + 1)) as [L'|L']; [lia|]. reflexivity.
      - unfold value. destruct (Nat.ltb_spec (N + 1) k) as [?Fn|?Fn]; [lia|]. destruct (Nat.eqb_spec (N + 1) k) as [?Fn|?Fn]; [lia|]. destruct (Nat.eqb_spec (N + 1) (k + 1)) as [?Fn|?Fn]; [lia|]. unfold hex_op. do 2 f_equal. apply xyz_eq.
        replace (zk (N + 1)) with (n + 1) in Hc by lia. revert Hc. dlia.
    Qed.
    Lemma other_value h : same_basis lay = false -> In h (H2 lay (zk N)) -> xorb (xorb (xsum dat (qubits_around_hex lay h)) (vfirst lay B (N - 1) h)) (before N h) = mark N h.
    Proof.
      intros Sb Hn. pose proof Hn1 as H1n. pose proof ZN as ZN. assert (Fb : final_basis lay = xyz n) by (now rewrite (final_cases lay), Sb).
      pose proof (cat_H2 lay Hv N h Hn) as [Ih Hc]. rewrite (dat_around lay Hv P B Hdat h Ih), Fb. rewrite before_value by (lia || exact Hn). rewrite <- value_exact by exact Hn. f_equal.
      assert (Hh1 : In h (H1 lay (zk (N - 1)))) by (apply H2_H1 in Hn; replace (zk (N - 1)) with (zk N - 1) by lia; exact Hn).
      rewrite (vfirst_eq lay Hv k e0 P f B HVE) by (lia || exact Hh1). replace (k <=? N - 1)%nat with true by (symmetry; apply Nat.leb_le; lia). cbn [andb].
      replace (xyz n) with (xyz (hexcat h + 2)) by (apply xyz_eq; rewrite <- ZN; now symmetry). fold (half_op2 lay h). rewrite <- xorb_assoc.
      unfold value. destruct (Nat.ltb_spec N k) as [?Fn|?Fn]; [lia|]. destruct (Nat.eqb_spec N k) as [?Fn|?Fn]; [lia|]. rewrite (hex_halves lay P h). destruct (Nat.eqb_spec N (k + 1)) as [?Fn|?Fn], (Nat.eqb_spec (N - 1) k) as [?Fn|?Fn]; try lia; [reflexivity|]. cbn [andb]. now rewrite xorb_false_r.
    Qed.
    Lemma diff_value h : same_basis lay = false -> In h (H2 lay (zk (N + 2))) -> xorb (xsum dat (qubits_around_hex lay h)) (val (N - 1) h) = mark (N + 2) h.
    Proof.
      intros Sb Hh'. pose proof Hn1 as H1n. pose proof ZN as ZN. assert (Fb : final_basis lay = xyz n) by (now rewrite (final_cases lay), Sb).
      pose proof (cat_H2 lay Hv (N + 2) h Hh') as [Ih Hc]. rewrite (dat_around lay Hv P B Hdat h Ih), Fb. rewrite <- value_exact by exact Hh'.
      replace (value (N + 2) h) with (par P (pstr (xyz n) (qubits_around_hex lay h))).
      - f_equal. destruct (Nat.leb_spec 3 (N + 2)) as [L'|L']; [|lia]. replace (N + 2 - 3)%nat with (N - 1)%nat by lia. apply val_value; [lia|]. apply H2_back in Hh'; [|lia]. now replace (N + 2 - 3)%nat with (N - 1)%nat in Hh' by lia.
      - unfold value. destruct (Nat.ltb_spec (N + 2) k) as [?Fn|?Fn]; [lia|]. destruct (Nat.eqb_spec (N + 2) k) as [?Fn|?Fn]; [lia|]. destruct (Nat.eqb_spec (N + 2) (k + 1)) as [?Fn|?Fn]; [lia|]. unfold hex_op. do 2 f_equal. apply xyz_eq.
        replace (zk (N + 2)) with (n + 2) in Hc by lia. revert Hc. dlia.
    Qed.
    Lemma row_fired s d : (s < N)%nat -> In d (row_dets lay s) -> xsum B (d_meas d) = true -> at_hex d \/ at_first d.
    Proof.
      intros Hs' Hd Hf. pose proof (side_row s d Hs' Hd) as Hw. unfold row_dets in Hd. apply in_app_or in Hd. destruct Hd as [Hd|Hd].
      - destruct ((zk s =? 0) && pauli_eqb (init_basis lay) PX) eqn:C; [|destruct Hd]. apply andb_prop in C. destruct C as [C _]. apply Z.eqb_eq in C. assert (s = 0%nat) by lia. subst s.
        apply in_flat_map in Hd. destruct Hd as (e & He & Hd). pose proof (at_key _ _ _ _ Hd) as Ky. rewrite (at_value _ _ _ _ _ _ Hd (vedge_sd lay Hv B 0 (SI_all lay Hv B 0) e He)) in Hf.
        rewrite first_value in Hf by exact He. apply andb_prop in Hf. destruct Hf as [K0 Hf]. apply andb_prop in Hf. destruct Hf as [Fe Hf]. apply Nat.eqb_eq in K0. apply edge_eqb_eq in Fe. subst e. rewrite <- K0 in Ky, Hw. right. unfold at_first. auto.
      - apply in_flat_map in Hd. destruct Hd as (h & Hh & Hd). pose proof (at_key _ _ _ _ Hd) as Ky.
        assert (Hn : hexval lay s h <> None) by (intros F; rewrite F in Hd; destruct Hd).
        assert (S1 : (1 <= s)%nat).
        { destruct s; [|lia]. exfalso. apply (hexval_some lay Hv Hobs B 0 h Hh) in Hn. revert Hn. unfold emits. destruct Hobs as [->| ->]; discriminate. }
        rewrite (at_value _ _ _ _ _ _ Hd (hex_sd lay Hv B s h S1 Hh Hn)), row_value in Hf by assumption. apply mark_spot in Hf.
        left. exists s, h. rewrite Z.min_l by lia. auto with zarith.
    Qed.
    Lemma fin_fired d : In d (fin_dets lay) -> xsum B (d_meas d) = true -> at_hex d \/ at_last d.
    Proof.
      intros Hd Hf. pose proof (watches_fin lay d Hd) as Hw. pose proof Hn1 as H1n. pose proof ZN as ZN. unfold fin_dets in Hd. rewrite (same_spec lay) in Hd. apply in_app_or in Hd.
      pose proof (same_ahead lay) as SA. destruct (same_basis lay) eqn:Sb.
      - assert (A1 : ahead (n - 1) = true) by (pose proof (ahead_step lay (n - 1)) as K; replace (n - 1 + 1) with n in K by lia; rewrite K in SA; destruct (ahead (n - 1)); [reflexivity | discriminate]).
        assert (Fb : final_basis lay = xyz (n - 1)) by (now rewrite (final_cases lay), Sb). destruct Hd as [Hd|Hd].
        + rewrite Fb, xyz_index_xyz, round_edges_mod in Hd. apply in_flat_map in Hd. destruct Hd as (e & He & Hd). pose proof (at_key _ _ _ _ Hd) as Ky. rewrite (at_value _ _ _ _ _ _ Hd (edge_sd lay Hv B Hs e He)) in Hf.
          rewrite last_value in Hf by assumption. apply andb_prop in Hf. destruct Hf as [K1 Hf]. apply andb_prop in Hf. destruct Hf as [Fe K2]. apply Nat.eqb_eq in K1. apply edge_eqb_eq in Fe. subst e. right. unfold at_last.
          replace (zk k) with (n - 1) by lia. rewrite A1. auto.
        + rewrite Fb, xyz_index_xyz in Hd. apply in_flat_map in Hd. destruct Hd as (h & Hh & Hd). pose proof (at_key _ _ _ _ Hd) as Ky. rewrite (at_value _ _ _ _ _ _ Hd (same_sd lay Hv Hobs B Hs h Sb Hh)) in Hf.
          assert (Hh' : In h (H2 lay (zk (N + 1)))) by (unfold H2; replace (zk (N + 1) - 2) with (n - 1) by lia; exact Hh). rewrite same_value in Hf by assumption.
          left. exists (N + 1)%nat, h. rewrite Z.min_r by lia. replace (zk (N + 1)) with (n - 1 + 1 + 1) by lia. rewrite !ahead_step, A1. cbn [negb]. split; [lia|]. split; [now apply mark_spot | auto].
      - assert (A1 : ahead n = true) by (destruct (ahead n); [reflexivity | discriminate]).
        assert (Fb : final_basis lay = xyz n) by (now rewrite (final_cases lay), Sb). destruct Hd as [Hd|Hd].
        + rewrite (third_spec lay Sb) in Hd. apply in_flat_map in Hd. destruct Hd as (h & Hh & Hd). pose proof (at_key _ _ _ _ Hd) as Ky.
          assert (Hh' : In h (H2 lay n)) by (unfold H2; replace ((n - 2) mod 3) with ((n + 1) mod 3) by dlia; exact Hh). rewrite (at_value _ _ _ _ _ _ Hd (other_sd lay Hv Hobs B Hs h Sb Hh')) in Hf.
          assert (Hn : In h (H2 lay (zk N))) by (rewrite ZN; exact Hh'). rewrite other_value in Hf by assumption.
          left. exists N, h. rewrite Z.min_r by lia. rewrite ZN, A1. split; [lia|]. split; [now apply mark_spot | auto].
        + rewrite Fb, xyz_index_xyz in Hd. apply in_flat_map in Hd. destruct Hd as (h & Hh & Hd). pose proof (at_key _ _ _ _ Hd) as Ky. rewrite (at_value _ _ _ _ _ _ Hd (diff_sd lay Hv Hobs B Hs h Sb Hh)) in Hf.
          assert (Hh' : In h (H2 lay (zk (N + 2)))) by (unfold H2; replace (zk (N + 2) - 2) with n by lia; exact Hh). rewrite diff_value in Hf by assumption.
          left. exists (N + 2)%nat, h. rewrite Z.min_r by lia. replace (zk (N + 2)) with (n + 1 + 1) by lia. rewrite !ahead_step, A1. cbn [negb]. split; [lia|]. split; [now apply mark_spot | auto].
    Qed.
    Theorem fired d : In d dets -> xsum B (d_meas d) = true -> at_hex d \/ at_first d \/ at_last d.
    Proof.
      intros Hd Hf. rewrite (circuit_detectors lay Hv Hs) in Hd. apply in_app_or in Hd. destruct Hd as [Hd|Hd].
      - apply in_flat_map in Hd. destruct Hd as (s & Hs' & Hd). apply in_seq in Hs'. destruct (row_fired s d ltac:(lia) Hd Hf); auto.
      - destruct (fin_fired d Hd Hf); auto.
    Qed.

    (** ** Counting *)
    Definition sel (x : bool) (y : Q * Q * Q) : list (Q * Q * Q) := if x then [y] else [].
    Definition keys0 : list (Q * Q * Q) := sel (xorb (xorb u v) f) (kt (zk k) (if (k =? 0)%nat then e_center e0 else h1)) ++ sel u (kt (Z.min (zk (k + 2)) n) ha) ++ sel v (kt (Z.min (zk (k + 2)) n) hb) ++
      sel f (kt (Z.min (zk (k + 4)) n) (if (k =? N - 1)%nat then e_center e0 else h2)).
    Definition keys1 : list (Q * Q * Q) := sel w (kt (Z.min (zk (k + 1)) n) h2) ++ sel w (kt (Z.min (zk (k + 3)) n) h1).
    Lemma fired_side d : In d dets -> xsum B (d_meas d) = true -> if eqb (watches lay d) (ahead (zk k)) then In (dkey d) keys0 else In (dkey d) keys1.
    Proof.
      intros Hd Hf. assert (Alt : ahead (zk k) = negb (ahead (zk (k + 1))) /\ ahead (zk (k + 2)) = ahead (zk k) /\ ahead (zk (k + 3)) = ahead (zk (k + 1)) /\ ahead (zk (k + 4)) = ahead (zk k)).
      { replace (zk (k + 1)) with (zk k + 1) by lia. replace (zk (k + 2)) with (zk k + 1 + 1) by lia. replace (zk (k + 3)) with (zk k + 1 + 1 + 1) by lia. replace (zk (k + 4)) with (zk k + 1 + 1 + 1 + 1) by lia.
        rewrite !ahead_step. destruct (ahead (zk k)); auto. }
      destruct Alt as (B1 & B2 & B3 & B4). assert (Eq : forall x, eqb x x = true) by (intros []; reflexivity). assert (Nq : forall x, eqb x (negb x) = false) by (intros []; reflexivity).
      destruct (fired d Hd Hf) as [(s & h & Hs1 & Sp & Ky & Wt)|[(K0 & Hx & Ky & Wt)|(K0 & Hx & Ky & Wt)]]; rewrite Wt, Ky.
      - destruct Sp as [(-> & -> & X)|[(-> & -> & X)|[(-> & X)|[(-> & -> & X)|(-> & -> & X)]]]].
        + rewrite Eq. unfold keys0. rewrite X. apply in_or_app. left. left. destruct (Nat.eqb_spec k 0) as [?Fn|?Fn]; [lia|]. now rewrite Z.min_l by lia.
        + rewrite B1, Nq. unfold keys1. rewrite X. left. reflexivity.
        + rewrite B2, Eq. unfold keys0. apply in_or_app. right. destruct X as [(-> & X)|(-> & X)]; rewrite X; [left; reflexivity|]. apply in_or_app. right. left. reflexivity.
        + rewrite B3, B1, Nq. unfold keys1. rewrite X. right. left. reflexivity.
        + rewrite B4, Eq. unfold keys0. rewrite X. apply in_or_app. right. apply in_or_app. right. apply in_or_app. right. left. destruct (Nat.eqb_spec k (N - 1)) as [?Fn|?Fn]; [lia|]. reflexivity.
      - rewrite Eq. unfold keys0. rewrite Hx. apply in_or_app. left. left. destruct (Nat.eqb_spec k 0) as [?Fn|?Fn]; [reflexivity | lia].
      - rewrite Eq. unfold keys0. rewrite Hx. apply in_or_app. right. apply in_or_app. right. apply in_or_app. right. left. destruct (Nat.eqb_spec k (N - 1)) as [?Fn|?Fn]; [|lia]. now rewrite Z.min_r by lia.
    Qed.
    Lemma keys0_length : (length keys0 <= if u && v && f then 4 else 2)%nat.
    Proof. unfold keys0. rewrite !app_length. destruct u, v, f; cbn; lia. Qed.
    Lemma keys1_length : (length keys1 <= 2)%nat.
    Proof. unfold keys1. rewrite !app_length. destruct w; cbn; lia. Qed.
    Lemma NoDup_map_filter {T U} (g : T -> U) p l : NoDup (map g l) -> NoDup (map g (filter p l)).
    Proof.
      induction l as [|x l IH]; [constructor|]. cbn [map filter]. intros H. inversion H as [|? ? H1 H2]; subst. destruct (p x); [|now apply IH]. cbn [map]. constructor; [|now apply IH].
      intros K. apply H1. apply in_map_iff in K. destruct K as (y & <- & Hy). apply filter_In in Hy. now apply in_map.
    Qed.
    Theorem few_fire side : (length (filter (fun d => eqb (watches lay d) side && xsum B (d_meas d)) dets) <= if u && v && f then 4 else 2)%nat.
    Proof.
      rewrite <- (map_length dkey). pose proof (NoDup_map_filter dkey (fun d => eqb (watches lay d) side && xsum B (d_meas d)) _ keys_distinct) as ND.
      destruct (Bool.bool_dec side (ahead (zk k))) as [Es|Es].
      - etransitivity; [|apply keys0_length]. apply NoDup_incl_length; [exact ND|]. intros x Hx. apply in_map_iff in Hx. destruct Hx as (d & <- & Hd). apply filter_In in Hd. destruct Hd as [Hd Hf]. apply andb_prop in Hf. destruct Hf as [H1 H2].
        pose proof (fired_side d Hd H2) as K. rewrite <- Es, H1 in K. exact K.
      - transitivity 2%nat; [|destruct (u && v && f); lia]. etransitivity; [|apply keys1_length]. apply NoDup_incl_length; [exact ND|]. intros x Hx. apply in_map_iff in Hx. destruct Hx as (d & <- & Hd). apply filter_In in Hd. destruct Hd as [Hd Hf]. apply andb_prop in Hf. destruct Hf as [H1 H2].
        pose proof (fired_side d Hd H2) as K. apply eqb_prop in H1. rewrite H1 in K. destruct (eqb side (ahead (zk k))) eqn:F; [apply eqb_prop in F; contradiction | exact K].
    Qed.
  End Fault.

  (** ** The same for the record of a faulty run *)
  Theorem record_few X Y one bare z A0 side : (forall q, isdata lay q -> anti2 (pbits (init_basis lay)) (A0 q) = false) -> core lay X Y one bare ->
    (length (filter (fun d => eqb (watches lay d) side && xsum (fun i => nth i (frecord lay X Y z A0) false) (d_meas d)) dets) <= if (style lay =? "EM3_v2")%string then 4 else 2)%nat.
  Proof.
    intros H0 (k & e0 & P & f & Hk & He0 & HP & Hfl & HX & Hst & _).
    set (Bf := fun i => nth i (recw lay (fl X Y) N ++ map (fun q => anti2 (pbits (final_basis lay)) (X N q)) D) false).
    rewrite (filter_ext_in _ (fun d => eqb (watches lay d) side && xsum Bf (d_meas d))).
    - etransitivity; [apply (few_fire k Hk e0 He0 P HP f Bf)|].
      + intros s e Hs' He. rewrite <- Hfl by assumption. apply (VE_bitw lay (fl X Y) Bf N); [|exact Hs' | exact He]. intros s' e' Hs'' He'. unfold Bf. now apply (nth_recw lay Hv).
      + intros q Hq. unfold dat, Bf. rewrite (dat_at lay Hv) by exact Hq. now rewrite HX.
      + destruct Hst as [Hst|Hst]; [rewrite Hst, String.eqb_refl; destruct (_ && _); lia | rewrite Hst; destruct (_ =? _)%string; lia].
    - intros d Hd. f_equal. rewrite (xsum_ext _ _ _ (fun i _ => record_split lay Hv X Y z A0 i)), xsum_xorb, (Bz_quiet lay Hv Hobs Hs z A0 H0 d Hd). apply xorb_false_l.
  Qed.
End S.
