(** The logical observables: which qubits they act on, how they meet edges and hexes. *)
From Verif Require Import Prelude Layout LayoutFacts LayoutEdges LayoutLists LayoutHex LayoutHex2 Pauli.
Open Scope Z_scope.

(** ** Lists selected by repeated patterns *)
Lemma select_app {A} f1 f2 (l1 l2 : list A) : length f1 = length l1 ->
  select (f1 ++ f2) (l1 ++ l2) = select f1 l1 ++ select f2 l2.
Proof.
  revert l1. induction f1 as [|b f1 IH]; intros [|x l1] H; simpl in H; try lia; [reflexivity|].
  unfold select in *. cbn [app combine filter map fst snd].
  destruct b; cbn [map app filter snd]; rewrite IH by lia; reflexivity.
Qed.
Lemma select_seq_mul {A B} (pat : list bool) (block : B -> list A) l :
  (forall i, In i l -> length (block i) = length pat) ->
  select (concat (repeat pat (length l))) (flat_map block l) = flat_map (fun i => select pat (block i)) l.
Proof.
  induction l as [|i l IH]; intros H; [reflexivity|]. cbn [length repeat concat flat_map].
  rewrite select_app by (symmetry; apply H; left; reflexivity).
  rewrite IH by (intros; apply H; right; assumption). reflexivity.
Qed.

Section O.
  Variable lay : layout.
  Hypothesis Hv : valid lay.
  Notation tw := (tile_width lay).
  Notation th := (tile_height lay).
  Ltac tiles := pose proof (tw_pos lay Hv); pose proof (th_pos lay Hv).
  Notation partner := (partner lay).

  (** ** Explicit lists *)
  Definition hblock (i : Z) : list cpx := [(8 * i + 2, 2); (8 * i + 2, 0); (8 * i + 6, 0); (8 * i + 6, 2)].
  Definition vblock (j : Z) : list cpx := [(2, 6 * j); (2, 6 * j + 2); (2, 6 * j + 4)].

  Lemma zrange_sorted a b : StronglySorted Z.lt (zrange a b).
  Proof.
    unfold zrange. generalize (Z.to_nat (b - a)) as n. intros n.
    assert (G : forall k, StronglySorted Z.lt (map (fun i => a + Z.of_nat i) (seq k n))).
    { induction n as [|n IH]; intros k; simpl; constructor; [apply IH|].
      apply Forall_forall. intros x Hx. apply in_map_iff in Hx. destruct Hx as (i & <- & Hi). apply in_seq in Hi. lia. }
    apply G.
  Qed.
  Lemma sorted_flat_map {A} (R : A -> A -> Prop) (f : Z -> list A) l :
    StronglySorted Z.lt l -> (forall i, In i l -> StronglySorted R (f i)) ->
    (forall i j x y, In i l -> In j l -> i < j -> In x (f i) -> In y (f j) -> R x y) ->
    StronglySorted R (flat_map f l).
  Proof.
    induction 1 as [|i l Hs IH Hf]; intros H1 H2; simpl; [constructor|].
    assert (G : forall m, StronglySorted R m -> (forall x y, In x m -> In y (flat_map f l) -> R x y) ->
                     StronglySorted R (m ++ flat_map f l)).
    { induction 1 as [|x m Hm IHm Hfm]; intros Hxy; simpl.
      - apply IH; [intros; apply H1; right; assumption | intros i' j' x' y' Hi' Hj'; apply H2; right; assumption].
      - constructor; [apply IHm; intros; apply Hxy; [right|]; assumption|].
        apply Forall_app. split; [assumption|]. apply Forall_forall. intros y Hy. apply Hxy; [left; reflexivity | assumption]. }
    apply G; [apply H1; left; reflexivity|].
    intros x y Hx Hy. apply in_flat_map in Hy. destruct Hy as (j & Hj & Hy).
    apply (H2 i j); auto; [left; reflexivity | right; assumption | rewrite Forall_forall in Hf; apply Hf, Hj].
  Qed.

  Lemma hkey_inj q1 q2 : isdata lay q1 -> isdata lay q2 -> in_h_rows q1 = true -> in_h_rows q2 = true ->
    obs_h_key q1 = obs_h_key q2 -> q1 = q2.
  Proof.
    intros H1 H2 R1 R2 E. destruct q1 as [x1 y1], q2 as [x2 y2]. unfold obs_h_key, in_h_rows in *. cbn [fst snd] in *.
    injection E as -> E. f_equal.
    apply orb_prop in R1, R2. rewrite !Z.eqb_eq in R1, R2.
    destruct R1 as [->| ->], R2 as [->| ->]; try reflexivity; exfalso; revert E; generalize (x2 / 4); intros; dlia.
  Qed.

  Lemma obs_h_qubits_eq : obs_h_qubits lay = flat_map hblock (zrange 0 tw).
  Proof.
    tiles. unfold obs_h_qubits.
    assert (Hin : forall q, In q (filter in_h_rows (data_qubit_coords lay)) <-> In q (flat_map hblock (zrange 0 tw))).
    { intros q. rewrite filter_In, in_data, in_flat_map by exact Hv. split.
      - intros [Hq Hr]. destruct (isdata_ex lay q Hq) as (a & b & -> & Hb). unfold inbox in Hb. cbn [fst snd] in *.
        unfold in_h_rows in Hr. cbn [snd] in Hr. apply orb_prop in Hr. rewrite !Z.eqb_eq in Hr.
        exists (a / 2). split; [apply in_zrange; dlia|]. unfold hblock, In.
        destruct (Z.eq_dec (a mod 2) 0); destruct Hr as [Hr|Hr];
        [right; left | left | right; right; left | right; right; right; left]; f_equal; dlia.
      - intros (i & Hi & Hq). apply in_zrange in Hi. unfold hblock, In in Hq.
        unfold isdata, inbox, in_h_rows. decompose [or] Hq; try contradiction; subst q; cbn [fst snd];
        (split; [dlia | reflexivity]). }
    assert (Hnd : NoDup (flat_map hblock (zrange 0 tw))).
    { apply NoDup_flat_map; [apply NoDup_zrange | |].
      - intros i _. unfold hblock. repeat constructor; cbv [In]; intros K; decompose [or] K; try contradiction;
        match goal with E : _ = _ |- _ => injection E; lia end.
      - intros i j q _ _ H1 H2. unfold hblock, In in H1, H2.
        decompose [or] H1; try contradiction; decompose [or] H2; try contradiction; subst;
        match goal with E : (_, _) = (_, _) |- _ => injection E; lia end. }
    apply (sorted_unique (fun a b => clex_leb (obs_h_key a) (obs_h_key b))).
    - intros x y Hx Hy L1 L2. rewrite in_isort in Hx, Hy. apply filter_In in Hx, Hy.
      rewrite in_data in Hx, Hy by exact Hv. apply hkey_inj; try tauto. apply clex_antisym; assumption.
    - apply isort_sorted; [intros; apply clex_total | intros x y z; apply clex_trans].
    - apply sorted_flat_map; [apply zrange_sorted | |].
      + intros i _. unfold hblock, le_.
        assert (K : forall x y, obs_h_key (x, y) = (x, (2 + y + 2 * (x / 4)) mod 4)) by reflexivity.
        assert (E1 : obs_h_key (8 * i + 2, 2) = (8 * i + 2, 0)) by (rewrite K; f_equal; dlia).
        assert (E2 : obs_h_key (8 * i + 2, 0) = (8 * i + 2, 2)) by (rewrite K; f_equal; dlia).
        assert (E3 : obs_h_key (8 * i + 6, 0) = (8 * i + 6, 0)) by (rewrite K; f_equal; dlia).
        assert (E4 : obs_h_key (8 * i + 6, 2) = (8 * i + 6, 2)) by (rewrite K; f_equal; dlia).
        repeat constructor; rewrite ?E1, ?E2, ?E3, ?E4; unfold clex_leb; cbn [fst snd];
          rewrite ?orb_true_iff, ?andb_true_iff, ?Z.ltb_lt, ?Z.eqb_eq, ?Z.leb_le; lia.
      + intros i j x y _ _ Hij Hx Hy. unfold le_, clex_leb. apply orb_true_iff. left.
        apply Z.ltb_lt. unfold hblock, In in Hx, Hy.
        decompose [or] Hx; try contradiction; decompose [or] Hy; try contradiction; subst; cbn [fst obs_h_key]; lia.
    - rewrite <- isort_perm. apply NoDup_same_perm; [apply NoDup_filter, NoDup_data | exact Hnd | exact Hin].
  Qed.

  Lemma obs_v_qubits_eq : obs_v_qubits lay = flat_map vblock (zrange 0 (th * 2)).
  Proof.
    tiles. unfold obs_v_qubits, sorted_complex.
    assert (Hin : forall q, In q (filter (fun q => fst q =? 2) (data_qubit_coords lay)) <-> In q (flat_map vblock (zrange 0 (th * 2)))).
    { intros q. rewrite filter_In, in_data, in_flat_map by exact Hv. split.
      - intros [Hq Hr]. destruct (isdata_ex lay q Hq) as (a & b & -> & Hb). unfold inbox in Hb. cbn [fst snd] in *.
        apply Z.eqb_eq in Hr. exists (b / 3). split; [apply in_zrange; dlia|]. unfold vblock, In.
        destruct (mod3_split b 0) as (k & d & -> & [->|[->| ->]]); [left | right; left | right; right; left]; f_equal; dlia.
      - intros (i & Hi & Hq). apply in_zrange in Hi. unfold vblock, In in Hq.
        unfold isdata, inbox. decompose [or] Hq; try contradiction; subst q; cbn [fst snd];
        (split; [dlia | reflexivity]). }
    assert (Hnd : NoDup (flat_map vblock (zrange 0 (th * 2)))).
    { apply NoDup_flat_map; [apply NoDup_zrange | |].
      - intros i _. unfold vblock. repeat constructor; cbv [In]; intros K; decompose [or] K; try contradiction;
        match goal with E : _ = _ |- _ => injection E; lia end.
      - intros i j q _ _ H1 H2. unfold vblock, In in H1, H2.
        decompose [or] H1; try contradiction; decompose [or] H2; try contradiction; subst;
        match goal with E : (_, _) = (_, _) |- _ => injection E; lia end. }
    apply (sorted_unique clex_leb).
    - intros x y _ _ L1 L2. apply clex_antisym; assumption.
    - apply isort_sorted; [intros; apply clex_total | intros x y z; apply clex_trans].
    - apply sorted_flat_map; [apply zrange_sorted | |].
      + intros i _. unfold vblock, le_.
        repeat constructor; unfold clex_leb; cbn [fst snd];
          rewrite ?orb_true_iff, ?andb_true_iff, ?Z.ltb_lt, ?Z.eqb_eq, ?Z.leb_le; lia.
      + intros i j x y _ _ Hij Hx Hy. unfold le_, clex_leb. apply orb_true_iff. right.
        unfold vblock, In in Hx, Hy.
        decompose [or] Hx; try contradiction; decompose [or] Hy; try contradiction; subst; cbn [fst snd];
        rewrite andb_true_iff, Z.eqb_eq, Z.leb_le; lia.
    - rewrite <- isort_perm. apply NoDup_same_perm; [apply NoDup_filter, NoDup_data | exact Hnd | exact Hin].
  Qed.

  (** ** Membership tests for the observables before sub-round s *)
  Definition hmem (s : Z) (q : cpx) : bool :=
    match s mod 6 with
    | 0 | 5 => in_h_rows q
    | 1 | 2 => snd q =? 2
    | _ => snd q =? 0
    end.
  Definition vmem (s : Z) (q : cpx) : bool :=
    (fst q =? 2) &&
    match s mod 6 with
    | 0 | 1 => negb ((snd q / 2) mod 3 =? 0)
    | 2 | 3 => negb ((snd q / 2) mod 3 =? 2)
    | _ => negb ((snd q / 2) mod 3 =? 1)
    end.
  Definition hbasis (s : Z) : pauli := match s mod 6 with 0 | 1 => PX | 2 | 3 => PZ | _ => PY end.
  Definition vbasis (s : Z) : pauli := match s mod 6 with 0 => PZ | 1 | 2 => PY | 3 | 4 => PX | _ => PZ end.

  Lemma mod6_cases s : s mod 6 = 0 \/ s mod 6 = 1 \/ s mod 6 = 2 \/ s mod 6 = 3 \/ s mod 6 = 4 \/ s mod 6 = 5.
  Proof. dlia. Qed.

  Lemma obs_h_basis s : fst (obs_h_before_sub_round lay s) = hbasis s.
  Proof.
    unfold obs_h_before_sub_round, obs_h_pattern, hbasis.
    destruct (mod6_cases s) as [->|[->|[->|[->|[->| ->]]]]]; reflexivity.
  Qed.
  Lemma obs_v_basis s : fst (obs_v_before_sub_round lay s) = vbasis s.
  Proof.
    unfold obs_v_before_sub_round, obs_v_pattern, vbasis.
    destruct (mod6_cases s) as [->|[->|[->|[->|[->| ->]]]]]; reflexivity.
  Qed.

  Lemma obs_h_list s : snd (obs_h_before_sub_round lay s) =
    flat_map (fun i => select (snd (obs_h_pattern s)) (hblock i)) (zrange 0 tw).
  Proof.
    tiles. unfold obs_h_before_sub_round. destruct (obs_h_pattern s) as [c pat] eqn:E. cbn [snd].
    unfold seq_mul. rewrite obs_h_qubits_eq.
    replace (Z.to_nat tw) with (length (zrange 0 tw)) by (rewrite length_zrange; lia).
    apply select_seq_mul. intros i _. unfold obs_h_pattern in E.
    destruct (mod6_cases s) as [D|[D|[D|[D|[D|D]]]]]; rewrite D in E; injection E as <- <-; reflexivity.
  Qed.
  Lemma obs_v_list s : snd (obs_v_before_sub_round lay s) =
    flat_map (fun i => select (snd (obs_v_pattern s)) (vblock i)) (zrange 0 (th * 2)).
  Proof.
    tiles. unfold obs_v_before_sub_round. destruct (obs_v_pattern s) as [c pat] eqn:E. cbn [snd].
    unfold seq_mul. rewrite obs_v_qubits_eq.
    replace (Z.to_nat (th * 2)) with (length (zrange 0 (th * 2))) by (rewrite length_zrange; lia).
    apply select_seq_mul. intros i _. unfold obs_v_pattern in E.
    destruct (mod6_cases s) as [D|[D|[D|[D|[D|D]]]]]; rewrite D in E; injection E as <- <-; reflexivity.
  Qed.

  Lemma select_sub {A} f (l : list A) x : In x (select f l) -> In x l.
  Proof.
    unfold select. intros H. apply in_map_iff in H. destruct H as ([b y] & <- & H).
    apply filter_In in H. destruct H as [H _]. eapply in_combine_r; exact H.
  Qed.
  Lemma NoDup_select {A} f (l : list A) : NoDup l -> NoDup (select f l).
  Proof.
    intros H. revert f. induction H as [|x l Hn Hnd IH]; intros [|[] f]; try (constructor; fail).
    - unfold select. cbn [combine filter fst map snd]. constructor; [|apply (IH f)].
      intros Hin. apply Hn. eapply (select_sub f). exact Hin.
    - apply (IH f).
  Qed.

  Lemma NoDup_obs_h s : NoDup (snd (obs_h_before_sub_round lay s)).
  Proof.
    unfold obs_h_before_sub_round. destruct (obs_h_pattern s) as [c pat]. cbn [snd]. apply NoDup_select.
    apply NoDup_isort, NoDup_filter, NoDup_data.
  Qed.
  Lemma NoDup_obs_v s : NoDup (snd (obs_v_before_sub_round lay s)).
  Proof.
    unfold obs_v_before_sub_round. destruct (obs_v_pattern s) as [c pat]. cbn [snd]. apply NoDup_select.
    apply NoDup_isort, NoDup_filter, NoDup_data.
  Qed.

  Lemma in_obs_h s q : In q (snd (obs_h_before_sub_round lay s)) <-> isdata lay q /\ hmem s q = true.
  Proof.
    tiles. rewrite obs_h_list, in_flat_map. unfold obs_h_pattern, hmem, in_h_rows. split.
    - intros (i & Hi & Hq). apply in_zrange in Hi.
      destruct (mod6_cases s) as [D|[D|[D|[D|[D|D]]]]]; rewrite D in *; unfold select, hblock in Hq; cbn [snd combine filter fst map In] in Hq;
      unfold isdata, inbox; decompose [or] Hq; try contradiction; subst q; cbn [fst snd]; (split; [dlia | reflexivity]).
    - intros [Hq Hm]. destruct (isdata_ex lay q Hq) as (a & b & -> & Hb). unfold inbox in Hb. cbn [fst snd] in *.
      exists (a / 2). split; [apply in_zrange; dlia|].
      destruct (mod2_split a 0) as (k & d & Ea & Hd). replace (a / 2) with k by (destruct Hd; subst; dlia).
      destruct (mod6_cases s) as [D|[D|[D|[D|[D|D]]]]]; rewrite D in *; unfold select, hblock; cbn [snd combine filter fst map In];
      try (apply orb_prop in Hm); rewrite ?Z.eqb_eq in Hm;
      destruct Hd as [->| ->]; try destruct Hm as [Hm|Hm];
      subst a;
      first [ left; f_equal; lia | right; left; f_equal; lia | right; right; left; f_equal; lia | right; right; right; left; f_equal; lia ].
  Qed.
  Lemma in_obs_v s q : In q (snd (obs_v_before_sub_round lay s)) <-> isdata lay q /\ vmem s q = true.
  Proof.
    tiles. rewrite obs_v_list, in_flat_map. unfold obs_v_pattern, vmem. split.
    - intros (i & Hi & Hq). apply in_zrange in Hi.
      destruct (mod6_cases s) as [D|[D|[D|[D|[D|D]]]]]; rewrite D in *; unfold select, vblock in Hq; cbn [snd combine filter fst map In] in Hq;
      unfold isdata, inbox; decompose [or] Hq; try contradiction; subst q; cbn [fst snd];
      (split; [dlia | change (2 =? 2) with true; rewrite andb_true_l, negb_true_iff, Z.eqb_neq; dlia]).
    - intros [Hq Hm]. destruct (isdata_ex lay q Hq) as (a & b & -> & Hb). unfold inbox in Hb. cbn [fst snd] in *.
      apply andb_prop in Hm. destruct Hm as [Hx Hm]. apply Z.eqb_eq in Hx. assert (a = 0) by lia. subst a.
      replace (2 * b / 2) with b in Hm by dlia.
      exists (b / 3). split; [apply in_zrange; dlia|].
      destruct (mod3_split b 0) as (k & d & -> & Hd). replace ((0 + 3 * k + d) / 3) with k by (destruct Hd as [->|[->| ->]]; dlia).
      destruct (mod6_cases s) as [D|[D|[D|[D|[D|D]]]]]; rewrite D in *; unfold select, vblock; cbn [snd combine filter fst map In];
      rewrite negb_true_iff, Z.eqb_neq in Hm;
      destruct Hd as [->|[->| ->]]; try (exfalso; dlia);
      first [ left; f_equal; lia | right; left; f_equal; lia ].
  Qed.
End O.
