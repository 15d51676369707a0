(** One error striking between two moments of a generated circuit. *)
From Coq Require Import QArith.
From Verif Require Import Prelude Layout LayoutFacts LayoutEdges LayoutLists LayoutHex LayoutHex2 Pauli LayoutObs LayoutLogic LayoutIndex
  Tracker TrackerFacts Stim Circuit Annot Shift Ends Gen Gen2 Gen3 Traj Eval Frame Exec Exec2 Exec3 Exec4 Detectors Struct Struct2 FaultInv FaultZ FaultSpec.
Open Scope Z_scope.

Definition noX (s : nat) (q : cpx) : bits := bzero.
Definition noY (s : nat) (e : edge) : bool := false.
Lemma map_NoDup_inj {T U} (f : T -> U) l a b : NoDup (map f l) -> In a l -> In b l -> f a = f b -> a = b.
Proof.
  induction l as [|x l IH]; cbn [map]; intros H Ha Hb K; [destruct Ha|]. inversion H; subst.
  destruct Ha as [->|Ha], Hb as [->|Hb]; [reflexivity | | |now apply IH]; exfalso; apply H2; [rewrite K | rewrite <- K]; now apply in_map.
Qed.
Lemma rotn_inv k b : rotn k (rotn (2 * k) b) = b.
Proof.
  rewrite (rotn_mod k), (rotn_mod (2 * k)).
  assert (Hk : (k mod 3 = 0 \/ k mod 3 = 1 \/ k mod 3 = 2)%nat) by (pose proof (Nat.mod_upper_bound k 3 ltac:(lia)); lia).
  rewrite Nat.mul_mod by lia. destruct Hk as [->|[->| ->]]; destruct b as [[] []]; reflexivity.
Qed.
Lemma rotn_zero k : rotn k bzero = bzero.
Proof. induction k as [|k IH]; [reflexivity|]. cbn [rotn]. now rewrite IH. Qed.
Lemma sw_bxor hm a b : sw hm (bxor a b) = bxor (sw hm a) (sw hm b).
Proof. destruct hm; reflexivity. Qed.

Section S.
  Variable lay : layout.
  Hypothesis Hv : valid lay.
  Notation E := (round_edges lay).
  Notation zk := Z.of_nat.
  Notation D := (data_qubit_coords lay).
  Notation ix := (ix lay).
  Notation n := (sub_rounds lay).
  Notation N := (Z.to_nat n).
  Local Opaque data_qubit_coords measure_qubit_coords q2i_dict hex_entries hexes round_edges all_edges isort.

  Lemma center_inj s e e' : In e (E s) -> In e' (E s) -> ix (e_center e) = ix (e_center e') -> e = e'.
  Proof. intros He He' K. exact (map_NoDup_inj (fun e => ix (e_center e)) (E s) e e' (NoDup_centers lay Hv s) He He' K). Qed.

  Section Gen.
    Variable A0 : cpx -> bits.
    Variables (L R M kL kR : nat) (hm : bool) (pa : list (nat * phase)).
    Variables (k : nat) (e0 : edge) (P : cpx -> bits) (T : nat) (f zz : bool).
    Hypothesis He0 : In e0 (E (zk k)).
    Notation a := (e_left e0).
    Notation b := (e_right e0).
    Hypothesis HP : forall q, q <> a -> q <> b -> P q = bzero.
    Hypothesis HTa : P a = bzero \/ T = L.
    Hypothesis HTb : P b = bzero \/ T = R.
    Hypothesis Hzz : zz = true -> L = S k /\ (R <= k)%nat.
    Hypothesis Hf : f = true -> (M <= k)%nat /\ ((k < L)%nat \/ In (k, Idle) pa).
    Definition iX (t : nat) (q : cpx) : bits := if (T <=? t)%nat then P q else bzero.
    Definition iY (s : nat) (e : edge) : bool := (s =? k)%nat && edge_eqb e e0 && f.
    Variable err : nat -> bits.
    Hypothesis Ha : err (ix a) = rotn kL (bxor (bsel zz (pbits (xyz (zk k)))) (P a)).
    Hypothesis Hb : err (ix b) = rotn kR (P b).
    Hypothesis Ho : forall q, isdata lay q -> q <> a -> q <> b -> err (ix q) = bzero.
    Hypothesis Hanc : forall s p e, In (s, p) pa -> In e (E (zk s)) -> let u := sw hm (err (ix (e_center e))) in
      fst u = iY s e /\ (p = LeftD -> L = S s /\ snd u = (s =? k)%nat && edge_eqb e e0 && zz).

    Lemma ends0 : isdata lay a /\ isdata lay b /\ data_qubit_parity a = false /\ data_qubit_parity b = true.
    Proof. destruct (round_edge_facts lay Hv _ e0 He0) as (Hl & Hr & Pl & Pr & _). auto. Qed.
    Definition tz (z : nat -> edge -> bool) (s : nat) (e : edge) : bool := xorb (z s e) (zz && (s =? k)%nat && edge_eqb e e0).
    Lemma tz_lt z s e : (zz = true -> s <> k) -> tz z s e = z s e.
    Proof. intros H. unfold tz. destruct zz; cbn [andb]; [|apply xorb_false_r]. destruct (Nat.eqb_spec s k); [now specialize (H eq_refl) | apply xorb_false_r]. Qed.
    Lemma tz_A z s q : (zz = true -> (s <= k)%nat) -> A lay (tz z) A0 s q = A lay z A0 s q.
    Proof. intros H. apply (A_ext lay). intros t e Ht. apply tz_lt. intros K. specialize (H K). lia. Qed.
    Lemma iX_zero s q : isdata lay q -> (data_qubit_parity q = false -> (s < L)%nat) -> (data_qubit_parity q = true -> (s < R)%nat) -> iX s q = bzero.
    Proof.
      intros Hq H1 H2. unfold iX. destruct (Nat.leb_spec T s) as [Le|Gt]; [|reflexivity]. destruct ends0 as (_ & _ & Pl & Pr).
      destruct (cpx_dec q a) as [->|Na]; [|destruct (cpx_dec q b) as [->|Nb]; [|now apply HP]].
      - destruct HTa as [K|K]; [exact K|]. specialize (H1 Pl). lia.
      - destruct HTb as [K|K]; [exact K|]. specialize (H2 Pr). lia.
    Qed.
    Lemma C_before z s q : isdata lay q -> (zz = true -> (s <= k)%nat) -> (data_qubit_parity q = false -> (s < L)%nat) -> (data_qubit_parity q = true -> (s < R)%nat) ->
      C lay A0 iX (tz z) s q = C lay A0 noX z s q.
    Proof. intros Hq H0 H1 H2. unfold C. rewrite tz_A by exact H0. rewrite iX_zero by assumption. reflexivity. Qed.
    Lemma mm_before z s e : (R <= L)%nat -> (s < R)%nat -> In e (E (zk s)) -> mm lay A0 iX iY (tz z) s e = xorb (mm lay A0 noX noY z s e) (iY s e).
    Proof.
      intros HRL Hs He. destruct (round_edge_facts lay Hv _ e He) as (Hl & Hr & Pl & Pr & _). rewrite !mm_split.
      rewrite !C_before; auto; try lia; try congruence; try (intros K; destruct (Hzz K); lia). unfold noY. now rewrite xorb_false_r.
    Qed.
    Lemma iY_before s e : (s < M)%nat -> iY s e = false.
    Proof. intros Hs. unfold iY. destruct f; [|now rewrite andb_false_r]. destruct (Hf eq_refl) as [K _]. destruct (Nat.eqb_spec s k); [lia | reflexivity]. Qed.
    Lemma edge_touch q : isdata lay q -> (touch lay (zk k) q = e0 <-> q = a \/ q = b).
    Proof.
      intros Hq. split.
      - intros K. pose proof (proj2 (touch_unique lay Hv (zk k) q e0 Hq He0) (eq_sym K)) as [H|H]; auto.
      - intros H. symmetry. apply (touch_unique lay Hv (zk k) q e0 Hq He0). destruct H; auto.
    Qed.
    Lemma A_left z q : isdata lay q -> data_qubit_parity q = false -> A lay (tz z) A0 L q = bxor (A lay z A0 L q) (bsel (zz && cpx_eqb q a) (pbits (xyz (zk k)))).
    Proof.
      intros Hq Pq. destruct (bool_dec zz true) as [K|K].
      - destruct (Hzz K) as [EL _]. rewrite EL. cbn [A]. unfold kick. rewrite tz_A by lia. unfold tz at 1. rewrite K, Nat.eqb_refl. cbn [andb].
        rewrite <- bxor_assoc. f_equal. replace (edge_eqb (touch lay (zk k) q) e0) with (cpx_eqb q a).
        + destruct (z k (touch lay (zk k) q)), (cpx_eqb q a); cbn [xorb bsel]; now rewrite ?bxor_zero_r, ?bxor_zero_l, ?bxor_self.
        + destruct ends0 as (_ & _ & _ & Pr). apply eq_true_iff_eq. rewrite cpx_eqb_eq, edge_eqb_eq, edge_touch by exact Hq. split; [auto|]. intros [?|?]; [assumption|]. subst q. congruence.
      - apply not_true_is_false in K. rewrite K. cbn [andb bsel]. rewrite bxor_zero_r. apply tz_A. congruence.
    Qed.

    Theorem inject st : St lay A0 noX noY L R M kL kR hm pa st -> St lay A0 iX iY L R M kL kR hm pa (strike err st).
    Proof.
      intros (z & HI & Hpa). destruct HI as [IL IR IM SL SR IC IO]. destruct ends0 as (Da & Db & Pa & Pb).
      exists (tz z). split; [split; cbn [fr frec with_fr strike]|].
      - intros q Hq Pq. rewrite IL by assumption. unfold C. rewrite A_left by assumption. rewrite !rotn_bxor.
        destruct (cpx_dec q a) as [->|Na].
        + rewrite cpx_eqb_refl, andb_true_r, Ha. unfold noX, iX. rewrite rotn_bxor, rotn_zero, bxor_zero_r, !bxor_assoc. f_equal. f_equal.
          destruct HTa as [K|K]; [rewrite K; now destruct (_ <=? _)%nat | rewrite K, Nat.leb_refl; reflexivity].
        + assert (Nb : q <> b) by congruence. rewrite (Ho q Hq Na Nb). replace (cpx_eqb q a) with false by (symmetry; apply not_true_is_false; rewrite cpx_eqb_eq; exact Na).
          rewrite andb_false_r. cbn [bsel]. unfold iX, noX. rewrite (HP q Na Nb), rotn_zero. destruct (_ <=? _)%nat; now rewrite rotn_zero, !bxor_zero_r.
      - intros q Hq Pq. rewrite IR by assumption. unfold C. rewrite tz_A by (intros K; apply Hzz, K). rewrite !rotn_bxor.
        destruct (cpx_dec q b) as [->|Nb].
        + rewrite Hb. unfold noX, iX. rewrite rotn_zero, bxor_zero_r. f_equal.
          destruct HTb as [K|K]; [rewrite K; now destruct (_ <=? _)%nat | rewrite K, Nat.leb_refl; reflexivity].
        + assert (Na : q <> a) by congruence. rewrite (Ho q Hq Na Nb). unfold iX, noX. rewrite (HP q Na Nb), rotn_zero. destruct (_ <=? _)%nat; now rewrite ?rotn_zero, !bxor_zero_r.
      - rewrite IM. apply recw_ext. intros t e Ht He. rewrite mm_before by (auto; lia). now rewrite iY_before, xorb_false_r by exact Ht.
      - intros t q Hq Pq Ht. unfold iX. destruct (cpx_dec q a) as [->|Na].
        + destruct HTa as [K|K]; [rewrite K; now destruct (_ <=? t)%nat, (_ <=? L)%nat|]. subst T. rewrite Nat.leb_refl. destruct (Nat.leb_spec L t); [reflexivity | lia].
        + assert (Nb : q <> b) by congruence. rewrite (HP q Na Nb). now destruct (_ <=? t)%nat, (_ <=? L)%nat.
      - intros t q Hq Pq Ht. unfold iX. destruct (cpx_dec q b) as [->|Nb].
        + destruct HTb as [K|K]; [rewrite K; now destruct (_ <=? t)%nat, (_ <=? R)%nat|]. subst T. rewrite Nat.leb_refl. destruct (Nat.leb_spec R t); [reflexivity | lia].
        + assert (Na : q <> a) by congruence. rewrite (HP q Na Nb). now destruct (_ <=? t)%nat, (_ <=? R)%nat.
      - intros s e Hs. unfold iY in Hs. apply andb_prop in Hs. destruct Hs as [Hs Hff]. apply andb_prop in Hs. destruct Hs as [Hs _]. apply Nat.eqb_eq in Hs. subst s. apply (Hf Hff).
      - exact IO.
      - intros [s p] Hin. destruct (Hpa _ Hin) as [Hbd HA]. split; [exact Hbd|]. intros e He. specialize (HA e He). cbn [fr with_fr strike] in *. rewrite sw_bxor.
        destruct (Hanc s p e Hin He) as [U1 U2]. cbn zeta in *. set (u := sw hm (err (ix (e_center e)))) in *. set (v := sw hm (fr st (ix (e_center e)))) in *. clearbody u v.
        unfold bxor. cbn [fst snd]. destruct Hbd as [B1 B2]. cbn [fst snd] in B1, B2.
        assert (Ep : pb lay A0 iX iY (tz z) s e = pb lay A0 noX noY z s e).
        { unfold pb. destruct (pc3 lay); [|reflexivity]. apply (accw_near lay Hv _ _ M); [exact He | exact B1 |]. intros t Ht He'. rewrite mm_before by (auto; lia). now rewrite iY_before, xorb_false_r by exact Ht. }
        destruct (round_edge_facts lay Hv _ e He) as (Hl & Hr & Pl & Pr & _). destruct p.
        + rewrite Ep, U1, HA. change (noY s e) with false. now rewrite xorb_false_r.
        + destruct (U2 eq_refl) as [EL U3]. destruct HA as [HA1 HA2]. split.
          * rewrite Ep, U1, HA1. rewrite C_before; auto; [|intros K; destruct (Hzz K); lia | lia | congruence]. change (noY s e) with false. generalize (iY s e), (pb lay A0 noX noY z s e), (anti2 (pbits (xyz (zk s))) (C lay A0 noX z s (e_left e))). now intros [] [] [].
          * rewrite HA2, U3. unfold tz. f_equal. now destruct zz, (s =? k)%nat, (edge_eqb e e0).
        + rewrite U1, HA. unfold bitw. rewrite mm_before by (auto; lia).
          replace (accw lay (mm lay A0 iX iY (tz z)) s e) with (accw lay (mm lay A0 noX noY z) s e).
          2:{ apply (accw_near lay Hv _ _ M); [exact He | exact B1 |]. intros t Ht He'. rewrite mm_before by (auto; lia). now rewrite iY_before, xorb_false_r by exact Ht. }
          destruct (pc3 lay); [|reflexivity]. apply xorb_assoc.
    Qed.
  End Gen.

  (** What [inject] leaves behind is the trace of one fault around check [e0] of sub-round k. *)
  Lemma core_edge (one bare : Prop) k e0 P T f : (k < N)%nat -> In e0 (E (zk k)) -> (forall q, q <> e_left e0 -> q <> e_right e0 -> P q = bzero) -> T = k \/ T = S k ->
    style lay = "EM3_v2"%string \/ P (e_left e0) = bzero \/ P (e_right e0) = bzero \/ (T = k /\ f = false) ->
    (one -> P (e_left e0) = bzero \/ P (e_right e0) = bzero) -> (bare -> f = false) ->
    core lay (iX P T) (iY k e0 f) one bare.
  Proof.
    intros Hk He0 HP HT HS Hone Hbare.
    assert (K : forall s e, In e (E (zk s)) -> s = k -> e <> e0 -> par P (edge_op (xyz (zk s)) e) = false).
    { intros s e He -> Hne. unfold edge_op. rewrite par_pstr. apply xsum_false. intros q Hq. rewrite HP; [apply anti2_zero_r|..]; intros ->; apply Hne.
      - pose proof (round_edge_facts lay Hv _ e0 He0) as (Dl & _). transitivity (touch lay (zk k) (e_left e0)); [|symmetry; apply (touch_unique lay Hv); auto].
        apply (touch_unique lay Hv); auto. destruct Hq as [Hq|[Hq|[]]]; auto.
      - pose proof (round_edge_facts lay Hv _ e0 He0) as (_ & Dr & _). transitivity (touch lay (zk k) (e_right e0)); [|symmetry; apply (touch_unique lay Hv); auto].
        apply (touch_unique lay Hv); auto. destruct Hq as [Hq|[Hq|[]]]; auto. }
    exists k, e0, P, (xorb f (match T =? k with true => false | false => par P (edge_op (xyz (zk k)) e0) end)%nat). refine (conj Hk (conj He0 (conj HP (conj _ (conj _ (conj _ (conj Hone _))))))).
    - intros s e Hs He. unfold fl, iY.
      assert (EX : par (iX P T s) (edge_op (xyz (zk s)) e) = (T <=? s)%nat && par P (edge_op (xyz (zk s)) e)).
      { unfold iX. destruct (T <=? s)%nat; cbn [andb]; [reflexivity|]. unfold edge_op. rewrite par_pstr. apply xsum_false. intros. apply anti2_zero_r. }
      rewrite EX. destruct HT as [->| ->].
      + rewrite Nat.eqb_refl, xorb_false_r. f_equal. now destruct (s =? k)%nat, (edge_eqb e e0), f.
      + replace (S k =? k)%nat with false by (symmetry; apply Nat.eqb_neq; lia). destruct (Nat.eqb_spec s k) as [->|Ns].
        * rewrite Nat.leb_refl. replace (S k <=? k)%nat with false by (symmetry; apply Nat.leb_gt; lia). cbn [andb]. destruct (edge_eqb e e0) eqn:Ee.
          -- apply edge_eqb_eq in Ee. subst e. destruct (par P _), f; reflexivity.
          -- rewrite (K k e He eq_refl) by (intros ->; rewrite (proj2 (edge_eqb_eq e0 e0) eq_refl) in Ee; discriminate). now rewrite andb_false_r.
        * cbn [andb]. rewrite !xorb_false_r. f_equal. destruct (Nat.leb_spec (S k) s), (Nat.leb_spec k s); auto; lia.
    - intros q Hq. unfold iX. destruct (Nat.leb_spec T N); [reflexivity | lia].
    - destruct HS as [HS|HS]; [now left|]. right. destruct HS as [Z0|[Z0|[-> ->]]]; [now rewrite Z0, anti2_zero_r | now rewrite Z0, anti2_zero_r, andb_false_r |].
      rewrite Nat.eqb_refl. apply andb_false_r.
    - intros Hb. rewrite (Hbare Hb), xorb_false_l. destruct (T =? k)%nat; [discriminate | auto].
  Qed.
  Lemma core_none one bare : supported lay -> core lay noX noY one bare.
  Proof.
    intros Hs. assert (HN : (0 < N)%nat) by (destruct Hs; lia).
    destruct (E (zk 0)) as [|e0 l] eqn:F; [exfalso; pose proof (ne_pos lay Hv) as K; change (zk 0) with 0 in F; rewrite F in K; cbn in K; lia|].
    destruct (core_edge one bare 0 e0 (fun _ => bzero) 0 false HN ltac:(rewrite F; now left) (fun _ _ _ => eq_refl) (or_introl eq_refl) (or_intror (or_introl eq_refl)) (fun _ => or_introl eq_refl) (fun _ => eq_refl)) as (k & e1 & P & g & H1 & H2 & H3 & H4 & H5 & H6).
    exists k, e1, P, g. refine (conj H1 (conj H2 (conj H3 (conj _ (conj _ H6))))).
    - intros s e Hs' He. rewrite <- H4 by assumption. unfold fl, iY, noY. rewrite andb_false_r. reflexivity.
    - intros q Hq. rewrite <- H5 by exact Hq. unfold iX, noX. now destruct (_ <=? _)%nat.
  Qed.

  (** ** Errors between two moments *)
  Definition boundary (L R M : nat) (pa : list (nat * phase)) : Prop :=
    (L <= N)%nat /\ (R <= N)%nat /\ (forall sp sp', In sp pa -> In sp' pa -> zk (fst sp) mod 3 = zk (fst sp') mod 3 -> sp = sp') /\ (forall s, In (s, LeftD) pa -> L = S s).
  Lemma strike_none st : strike (fun _ => bzero) st = with_fr st (fun x => bxor (fr st x) bzero).
  Proof. reflexivity. Qed.

  Section Kinds.
    Hypothesis Hs : supported lay.
    Variable A0 : cpx -> bits.
    Variables (L R M kL kR : nat) (hm : bool) (pa : list (nat * phase)).
    Hypothesis HB : boundary L R M pa.
    Notation clean := (St lay A0 noX noY L R M kL kR hm pa).
    Notation harmed err st := (exists X Y, core lay X Y (is_em3 (style lay) = false \/ one_data lay (Kick err)) (data_only lay (Kick err)) /\ St lay A0 X Y L R M kL kR hm pa (strike err st)).
    Lemma Hn : 1 <= n.
    Proof. apply Hs. Qed.

    (** an error on data qubits only leaves the ancillas alone *)
    Lemma bare_center s e err : In e (E (zk s)) -> data_only lay (Kick err) -> fst (sw hm (err (ix (e_center e)))) = false.
    Proof. intros He Hb. rewrite Hb; [now destruct hm|]. intros q Hq. now apply (ix_data_center lay Hv q (zk s) e). Qed.

    (** the error reaches no other ancilla in use *)
    Lemma anc_zero s p e s' p' e' err x : In (s, p) pa -> In e (E (zk s)) -> only [x; ix (e_center e)] err -> (forall s e, In e (E (zk s)) -> x <> ix (e_center e)) ->
      In (s', p') pa -> In e' (E (zk s')) -> (s' = s -> e' <> e) -> err (ix (e_center e')) = bzero.
    Proof.
      intros Hp He Ho Hx Hin He' Hne. apply Ho. intros [K|[K|[]]]; [now apply (Hx s' e')|]. symmetry in K.
      destruct (Z.eq_dec (zk s' mod 3) (zk s mod 3)) as [Em|Em].
      - destruct HB as (_ & _ & U & _). assert (Hq : (s', p') = (s, p)) by (apply U; auto). injection Hq as -> ->. apply (Hne eq_refl), (center_inj (zk s)); auto.
      - revert K. now apply (ix_centers lay Hv (zk s') (zk s)).
    Qed.
    Lemma data_center q : isdata lay q -> forall s e, In e (E (zk s)) -> ix q <> ix (e_center e).
    Proof. intros Hq s e. now apply ix_data_center. Qed.
    Lemma sw_zero : sw hm bzero = bzero.
    Proof. now destruct hm. Qed.
    Lemma here_eq s e : (s =? s)%nat && edge_eqb e e = true.
    Proof. rewrite Nat.eqb_refl. cbn [andb]. now apply edge_eqb_eq. Qed.
    Lemma here_ne s' s e' e : (s' = s -> e' <> e) -> (s' =? s)%nat && edge_eqb e' e = false.
    Proof. intros H. destruct (Nat.eqb_spec s' s) as [->|]; [|reflexivity]. cbn [andb]. apply not_true_is_false. rewrite edge_eqb_eq. now apply H. Qed.
    Lemma bd_of st sp : clean st -> In sp pa -> bd L R M sp.
    Proof. intros (z & _ & H) Hin. now apply H. Qed.
    Lemma ord_of st : clean st -> (M <= R <= L)%nat.
    Proof. intros (z & HI & _). apply HI. Qed.

    (** after the gates of the left halves: the ancilla and its left neighbour *)
    Lemma kind_left s e err st : In (s, LeftD) pa -> In e (E (zk s)) -> only [ix (e_left e); ix (e_center e)] err -> clean st -> harmed err st.
    Proof.
      intros Hin He Ho Hc. pose proof (bd_of _ _ Hc Hin) as [B1 B2]. cbn [fst snd] in B1, B2. pose proof (ord_of _ Hc) as Hord. destruct HB as (HL & HR & HU & HLD). pose proof (HLD s Hin) as EL.
      destruct (round_edge_facts lay Hv _ e He) as (Hl & Hr & Pl & Pr & _). pose proof (data_center _ Hl) as DC.
      set (u := sw hm (err (ix (e_center e)))).
      set (P := fun q => if cpx_eqb q (e_left e) then bxor (bsel (snd u) (pbits (xyz (zk s)))) (rotn (2 * kL) (err (ix (e_left e)))) else bzero).
      assert (HP : forall q, q <> e_left e -> P q = bzero) by (intros q Hq; unfold P; replace (cpx_eqb q (e_left e)) with false; [reflexivity | symmetry; apply not_true_is_false; now rewrite cpx_eqb_eq]).
      assert (Nlr : e_right e <> e_left e) by congruence.
      exists (iX P (S s)), (iY s e (fst u)). split; [apply core_edge; auto; [lia | intros Hb; exact (bare_center s e err He Hb)]|].
      eapply (inject A0 L R M kL kR hm pa s e P (S s) (fst u) (snd u) He); try exact Hc; auto.
      - lia.
      - intros _. split; lia.
      - unfold P. rewrite cpx_eqb_refl, bxor_assoc, bxor_self, bxor_zero_l, rotn_inv. reflexivity.
      - rewrite HP, rotn_zero by exact Nlr. apply Ho. intros [K|[K|[]]]; [now apply (ix_data_ne lay Hv _ _ Hl Hr ltac:(congruence)) | symmetry in K; now apply (data_center _ Hr _ _ He)].
      - intros q Hq Na Nb. apply Ho. intros [K|[K|[]]]; [apply (ix_data_ne lay Hv _ _ Hl Hq ltac:(congruence) K) | symmetry in K; now apply (data_center _ Hq _ _ He)].
      - intros s' p' e' Hin' He'. cbn zeta. destruct (Nat.eq_dec s' s) as [->|Ns]; [destruct (edge_dec e' e) as [->|Ne]|].
        + unfold iY. rewrite here_eq. cbn [andb]. split; [reflexivity|]. intros _. split; [exact EL | reflexivity].
        + rewrite (anc_zero s LeftD e s p' e' err (ix (e_left e))) by (auto; congruence). rewrite sw_zero. unfold iY. rewrite here_ne by auto. split; [reflexivity|]. intros ->. split; [exact EL | reflexivity].
        + rewrite (anc_zero s LeftD e s' p' e' err (ix (e_left e))) by (auto; congruence). rewrite sw_zero. unfold iY. rewrite here_ne by (intros; congruence). split; [reflexivity|]. intros ->. split; [now apply HLD | reflexivity].
    Qed.
    (** after the gates of the right halves: the ancilla and its right neighbour *)
    Lemma kind_right s e err st : In (s, BothD) pa -> In e (E (zk s)) -> only [ix (e_right e); ix (e_center e)] err -> err (ix (e_right e)) = bzero \/ R = S s -> clean st -> harmed err st.
    Proof.
      intros Hin He Ho HR0 Hc. pose proof (bd_of _ _ Hc Hin) as [B1 B2]. cbn [fst snd] in B1, B2. pose proof (ord_of _ Hc) as Hord. destruct HB as (HL & HR & HU & HLD).
      destruct (round_edge_facts lay Hv _ e He) as (Hl & Hr & Pl & Pr & _). pose proof (data_center _ Hr) as DC.
      set (u := sw hm (err (ix (e_center e)))).
      set (P := fun q => if cpx_eqb q (e_right e) then rotn (2 * kR) (err (ix (e_right e))) else bzero).
      assert (HP : forall q, q <> e_right e -> P q = bzero) by (intros q Hq; unfold P; replace (cpx_eqb q (e_right e)) with false; [reflexivity | symmetry; apply not_true_is_false; now rewrite cpx_eqb_eq]).
      assert (Nlr : e_left e <> e_right e) by congruence.
      assert (HPb : P (e_right e) = rotn (2 * kR) (err (ix (e_right e)))) by (unfold P; now rewrite cpx_eqb_refl).
      exists (iX P (S s)), (iY s e (fst u)). split; [apply core_edge; auto; [lia | intros Hb; exact (bare_center s e err He Hb)]|].
      eapply (inject A0 L R M kL kR hm pa s e P (S s) (fst u) false He); try exact Hc; auto.
      - destruct HR0 as [K|K]; [left; rewrite HPb, K; apply rotn_zero | right; lia].
      - discriminate.
      - intros _. split; lia.
      - rewrite HP by exact Nlr. cbn [bsel]. rewrite bxor_zero_l, rotn_zero. apply Ho. intros [K|[K|[]]]; [now apply (ix_data_ne lay Hv _ _ Hr Hl ltac:(congruence)) | symmetry in K; now apply (data_center _ Hl _ _ He)].
      - now rewrite HPb, rotn_inv.
      - intros q Hq Na Nb. apply Ho. intros [K|[K|[]]]; [apply (ix_data_ne lay Hv _ _ Hr Hq ltac:(congruence) K) | symmetry in K; now apply (data_center _ Hq _ _ He)].
      - intros s' p' e' Hin' He'. cbn zeta. destruct (Nat.eq_dec s' s) as [->|Ns]; [destruct (edge_dec e' e) as [->|Ne]|].
        + unfold iY. rewrite here_eq. cbn [andb]. split; [reflexivity|]. intros ->. exfalso. assert (K : (s, LeftD) = (s, BothD)) by (apply HU; auto). discriminate.
        + rewrite (anc_zero s BothD e s p' e' err (ix (e_right e))) by (auto; congruence). rewrite sw_zero. unfold iY. rewrite here_ne by auto. split; [reflexivity|]. intros ->. split; [now apply HLD | reflexivity].
        + rewrite (anc_zero s BothD e s' p' e' err (ix (e_right e))) by (auto; congruence). rewrite sw_zero. unfold iY. rewrite here_ne by (intros; congruence). split; [reflexivity|]. intros ->. split; [now apply HLD | reflexivity].
    Qed.
    (** the ancilla waiting for its check *)
    Lemma kind_idle s e err st : In (s, Idle) pa -> In e (E (zk s)) -> only [ix (e_center e)] err -> clean st -> harmed err st.
    Proof.
      intros Hin He Ho Hc. pose proof (bd_of _ _ Hc Hin) as [B1 B2]. cbn [fst snd] in B1, B2. pose proof (ord_of _ Hc) as Hord. destruct HB as (HL & HR & HU & HLD).
      destruct (round_edge_facts lay Hv _ e He) as (Hl & Hr & Pl & Pr & _).
      assert (Hd : forall q, isdata lay q -> err (ix q) = bzero) by (intros q Hq; apply Ho; intros [K|[]]; symmetry in K; now apply (data_center _ Hq _ _ He)).
      assert (Ho2 : only [ix (e_left e); ix (e_center e)] err) by (intros x Hx; apply Ho; intros K; apply Hx; now right).
      pose proof (data_center _ Hl) as DC. set (u := sw hm (err (ix (e_center e)))).
      assert (G : St lay A0 (iX (fun _ => bzero) s) (iY s e (fst u)) L R M kL kR hm pa (strike err st)).
      { eapply (inject A0 L R M kL kR hm pa s e (fun _ => bzero) s (fst u) false He); try exact Hc; auto.
        - discriminate.
        - intros _. split; [lia | now right].
        - cbn [bsel]. rewrite bxor_zero_l, rotn_zero. auto.
        - rewrite rotn_zero. auto.
        - intros s' p' e' Hin' He'. cbn zeta. destruct (Nat.eq_dec s' s) as [->|Ns]; [destruct (edge_dec e' e) as [->|Ne]|].
          + unfold iY. rewrite here_eq. cbn [andb]. split; [reflexivity|]. intros ->. exfalso. assert (K : (s, LeftD) = (s, Idle)) by (apply HU; auto). discriminate.
          + rewrite (anc_zero s Idle e s p' e' err (ix (e_left e))) by (auto; congruence). rewrite sw_zero. unfold iY. rewrite here_ne by auto. split; [reflexivity|]. intros ->. split; [now apply HLD | reflexivity].
          + rewrite (anc_zero s Idle e s' p' e' err (ix (e_left e))) by (auto; congruence). rewrite sw_zero. unfold iY. rewrite here_ne by (intros; congruence). split; [reflexivity|]. intros ->. split; [now apply HLD | reflexivity]. }
      destruct (Nat.lt_ge_cases s N) as [Hlt|Hge].
      - exists (iX (fun _ => bzero) s), (iY s e (fst u)). split; [apply core_edge; auto; intros Hb; exact (bare_center s e err He Hb) | exact G].
      - exists (iX (fun _ => bzero) s), (iY s e (fst u)). split; [|exact G].
        destruct (core_none (is_em3 (style lay) = false \/ one_data lay (Kick err)) (data_only lay (Kick err)) Hs) as (k & e1 & P & g & H1 & H2 & H3 & H4 & H5 & H6). exists k, e1, P, g. refine (conj H1 (conj H2 (conj H3 (conj _ (conj _ H6))))).
        + intros t e' Ht He'. rewrite <- H4 by assumption. unfold fl. f_equal.
          * apply par_ext. intros pq _. unfold iX, noX. now destruct (_ <=? _)%nat.
          * unfold iY, noY. replace (t =? s)%nat with false by (symmetry; apply Nat.eqb_neq; lia). reflexivity.
        + intros q Hq. rewrite <- H5 by exact Hq. unfold iX, noX. now destruct (_ <=? _)%nat.
    Qed.
    (** a data qubit *)
    Lemma kind_data q err st : isdata lay q -> only [ix q] err -> clean st -> harmed err st.
    Proof.
      intros Hq Ho Hc. pose proof (ord_of _ Hc) as Hord. pose proof Hn as Hn. destruct HB as (HL & HR & HU & HLD).
      set (B := if data_qubit_parity q then R else L). set (k := if (B <? N)%nat then B else (N - 1)%nat).
      assert (HBN : (B <= N)%nat) by (unfold B; destruct (data_qubit_parity q); lia).
      assert (Hk : (k < N)%nat) by (unfold k; destruct (Nat.ltb_spec B N); lia).
      assert (HT : B = k \/ B = S k) by (unfold k; destruct (Nat.ltb_spec B N); lia).
      set (e := touch lay (zk k) q). assert (He : In e (E (zk k))) by (now apply touch_in).
      pose proof (proj2 (touch_unique lay Hv (zk k) q e Hq He) eq_refl) as Hqe.
      destruct (round_edge_facts lay Hv _ e He) as (Hl & Hr & Pl & Pr & _).
      set (kk := if data_qubit_parity q then kR else kL).
      set (P := fun q' => if cpx_eqb q' q then rotn (2 * kk) (err (ix q)) else bzero).
      assert (HP : forall q', q' <> q -> P q' = bzero) by (intros q' Hq'; unfold P; replace (cpx_eqb q' q) with false; [reflexivity | symmetry; apply not_true_is_false; now rewrite cpx_eqb_eq]).
      assert (HPq : P q = rotn (2 * kk) (err (ix q))) by (unfold P; now rewrite cpx_eqb_refl).
      assert (Hoq : forall q', isdata lay q' -> q' <> q -> err (ix q') = bzero) by (intros q' Hq' Hne; apply Ho; intros [K|[]]; now apply (ix_data_ne lay Hv _ _ Hq Hq' ltac:(congruence))).
      assert (HP2 : forall q', q' <> e_left e -> q' <> e_right e -> P q' = bzero) by (intros q' N1 N2; apply HP; destruct Hqe; congruence).
      exists (iX P B), (iY k e false). assert (P0 : P (e_left e) = bzero \/ P (e_right e) = bzero) by (destruct Hqe as [K|K]; [right | left]; apply HP; congruence).
      split; [apply core_edge; auto; tauto|].
      eapply (inject A0 L R M kL kR hm pa k e P B false false He); try exact Hc; auto; try discriminate.
      - destruct Hqe as [K|K]; [right; unfold B; rewrite <- K, Pl; reflexivity | left; apply HP; congruence].
      - destruct Hqe as [K|K]; [left; apply HP; congruence | right; unfold B; rewrite <- K, Pr; reflexivity].
      - cbn [bsel]. rewrite bxor_zero_l. destruct Hqe as [K|K].
        + rewrite K, HPq. unfold kk. rewrite <- K, Pl. now rewrite rotn_inv.
        + rewrite HP by congruence. rewrite rotn_zero. apply Hoq; [exact Hl | congruence].
      - destruct Hqe as [K|K].
        + rewrite HP by congruence. rewrite rotn_zero. apply Hoq; [exact Hr | congruence].
        + rewrite K, HPq. unfold kk. rewrite <- K, Pr. now rewrite rotn_inv.
      - intros q' Hq' Na Nb. apply Hoq; [exact Hq' | destruct Hqe; congruence].
      - intros s' p' e' Hin' He'. cbn zeta. unfold iY. rewrite !andb_false_r.
        replace (err (ix (e_center e'))) with bzero by (symmetry; apply Ho; intros [K|[]]; now apply (data_center _ Hq _ _ He')). rewrite sw_zero. split; [reflexivity|].
        intros ->. split; [now apply HLD | reflexivity].
    Qed.
    (** the two data qubits of a check about to be measured *)
    Lemma kind_pair e err st : is_em3 (style lay) = true -> pa = [] -> L = M -> R = M -> (M < N)%nat -> In e (E (zk M)) -> only [ix (e_left e); ix (e_right e)] err -> clean st -> harmed err st.
    Proof.
      intros Hem Epa EL ER HM He Ho Hc. destruct (round_edge_facts lay Hv _ e He) as (Hl & Hr & Pl & Pr & _).
      set (P := fun q => if cpx_eqb q (e_left e) then rotn (2 * kL) (err (ix q)) else if cpx_eqb q (e_right e) then rotn (2 * kR) (err (ix q)) else bzero).
      assert (Nlr : cpx_eqb (e_right e) (e_left e) = false) by (apply not_true_is_false; rewrite cpx_eqb_eq; congruence).
      assert (HP2 : forall q', q' <> e_left e -> q' <> e_right e -> P q' = bzero).
      { intros q' N1 N2. unfold P. replace (cpx_eqb q' (e_left e)) with false by (symmetry; apply not_true_is_false; now rewrite cpx_eqb_eq). replace (cpx_eqb q' (e_right e)) with false by (symmetry; apply not_true_is_false; now rewrite cpx_eqb_eq). reflexivity. }
      exists (iX P M), (iY M e false). split.
      { apply core_edge; auto. intros [Q|(q0 & Q)]; [congruence|]. assert (D0 : q0 <> e_left e \/ q0 <> e_right e) by (destruct (cpx_eqb q0 (e_left e)) eqn:B; [apply cpx_eqb_eq in B; right; congruence | left; intros ->; rewrite cpx_eqb_refl in B; discriminate]).
        destruct D0 as [D0|D0]; [left | right]; unfold P; rewrite ?Nlr, cpx_eqb_refl, Q by (assumption || congruence); apply rotn_zero. }
      eapply (inject A0 L R M kL kR hm pa M e P M false false He); try exact Hc; auto; try discriminate.
      - cbn [bsel]. rewrite bxor_zero_l. unfold P. now rewrite cpx_eqb_refl, rotn_inv.
      - unfold P. now rewrite Nlr, cpx_eqb_refl, rotn_inv.
      - intros q Hq Na Nb. apply Ho. intros [K|[K|[]]]; [apply (ix_data_ne lay Hv _ _ Hl Hq ltac:(congruence) K) | apply (ix_data_ne lay Hv _ _ Hr Hq ltac:(congruence) K)].
      - rewrite Epa. intros s' p' e' [].
    Qed.
    (** nothing that matters *)
    Lemma kind_none err st : (forall q, isdata lay q -> err (ix q) = bzero) -> (forall s p e, In (s, p) pa -> In e (E (zk s)) -> err (ix (e_center e)) = bzero) -> clean st -> harmed err st.
    Proof.
      intros H1 H2 Hc. pose proof Hn as Hn.
      assert (Hq : exists q, isdata lay q).
      { destruct (E (zk 0)) as [|e0 l] eqn:F; [exfalso; pose proof (ne_pos lay Hv) as K; change (zk 0) with 0 in F; rewrite F in K; cbn in K; lia|].
        exists (e_left e0). apply (round_edge_facts lay Hv (zk 0)). rewrite F. now left. }
      exists noX, noY. split; [now apply core_none|]. destruct Hc as (z & HI & Hpa). exists z. destruct HI as [IL IR IM SL SR IC IO]. split; [split; auto|].
      - intros q Hq' Pq. cbn [strike fr with_fr]. rewrite H1, bxor_zero_r by exact Hq'. auto.
      - intros q Hq' Pq. cbn [strike fr with_fr]. rewrite H1, bxor_zero_r by exact Hq'. auto.
      - intros [s p] Hin. destruct (Hpa _ Hin) as [Hb HA]. split; [exact Hb|]. eapply Anc_fr; [|exact HA]. intros e He. cbn [strike fr with_fr]. rewrite (H2 s p e Hin He). apply bxor_zero_r.
    Qed.
    (** any one qubit *)
    Theorem kind_single x err st : only [x] err -> clean st -> harmed err st.
    Proof.
      intros Ho Hc. destruct (in_dec Nat.eq_dec x (map ix D)) as [Hd|Hd].
      - apply in_map_iff in Hd. destruct Hd as (q & <- & Hq). apply (proj1 (in_data lay Hv q)) in Hq. now apply (kind_data q).
      - assert (H1 : forall q, isdata lay q -> err (ix q) = bzero) by (intros q Hq; apply Ho; intros [K|[]]; apply Hd; rewrite K; apply in_map; exact (proj2 (in_data lay Hv q) Hq)).
        destruct (in_dec Nat.eq_dec x (flat_map (fun sp => centers lay (zk (fst sp))) pa)) as [Hp|Hp].
        + apply in_flat_map in Hp. destruct Hp as ([s p] & Hin & Hx). unfold centers in Hx. apply in_map_iff in Hx. destruct Hx as (e & <- & He). cbn [fst] in He.
          destruct (round_edge_facts lay Hv _ e He) as (Hl & Hr & _). destruct p.
          * now apply (kind_idle s e).
          * apply (kind_left s e); auto. intros x Hx. apply Ho. intros K. apply Hx. now right.
          * apply (kind_right s e); auto. intros x Hx. apply Ho. intros K. apply Hx. now right.
        + apply kind_none; auto. intros s p e Hin He. apply Ho. intros [K|[]]. apply Hp. apply in_flat_map. exists (s, p). split; [exact Hin|]. cbn [fst]. unfold centers. rewrite K. exact (in_map (fun e => ix (e_center e)) _ _ He).
    Qed.
  End Kinds.
End S.
