(** The edges around a hex belong to the next two rounds and cover its qubits. *)
From Verif Require Import Prelude Layout LayoutFacts LayoutEdges LayoutLists LayoutHex.
Open Scope Z_scope.

Definition ends (e : edge) : list cpx := [e_left e; e_right e].

Lemma Edge_ends_perm a b c : Permutation (ends (Edge a b c)) [a; b].
Proof.
  unfold ends. destruct (Edge_ends a b c) as [[-> ->]|[-> ->]]; [reflexivity | apply perm_swap].
Qed.

Section H.
  Variable lay : layout.
  Hypothesis Hv : valid lay.

  Lemma edge_of_offsets_at h ab ctr :
    ishex lay h ->
    (fst (cadd h (cmid (fst ab) (snd ab))) mod 4 = 2 /\ cmid (fst ab) (snd ab) = ctr /\
       (fst ab = cadd ctr (0, -1) /\ snd ab = cadd ctr (0, 1) \/ snd ab = cadd ctr (0, -1) /\ fst ab = cadd ctr (0, 1)))
    \/ (fst (cadd h (cmid (fst ab) (snd ab))) mod 4 = 0 /\ cmid (fst ab) (snd ab) = ctr /\
       (fst ab = cadd ctr (-2, 0) /\ snd ab = cadd ctr (2, 0) \/ snd ab = cadd ctr (-2, 0) /\ fst ab = cadd ctr (2, 0))) ->
    edge_of_offsets lay h ab = edge_at lay (wrap lay (cadd h ctr)).
  Proof.
    intros Hh Hc. unfold edge_of_offsets, edge_at. rewrite !wrap_idem_add.
    destruct (wrap_rep lay Hv (cadd h ctr)) as (t & u & Ew & _). rewrite Ew at 1. cbn [fst].
    assert (A : forall d, cadd h (cadd ctr d) = cadd (cadd h ctr) d).
    { intros d. unfold cadd; cbn [fst snd]. f_equal; lia. }
    destruct ab as [x y]. cbn [fst snd] in *.
    destruct Hc as [(H1 & Hm & [[E1 E2]|[E1 E2]])|(H1 & Hm & [[E1 E2]|[E1 E2]])];
      rewrite Hm in *; subst x y; rewrite !A.
    - replace ((_ + 8 * t) mod 4 =? 2) with true by (symmetry; apply Z.eqb_eq; clear - H1; dlia). reflexivity.
    - replace ((_ + 8 * t) mod 4 =? 2) with true by (symmetry; apply Z.eqb_eq; clear - H1; dlia). apply Edge_swap'.
    - replace ((_ + 8 * t) mod 4 =? 2) with false by (symmetry; apply Z.eqb_neq; clear - H1; dlia). reflexivity.
    - replace ((_ + 8 * t) mod 4 =? 2) with false by (symmetry; apply Z.eqb_neq; clear - H1; dlia). apply Edge_swap'.
  Qed.

  Lemma ishex_ex h : ishex lay h -> exists a k, h = (4 * a, 2 * a + 4 * k).
  Proof.
    intros (_ & Hx & Hy). destruct h as [X Y]. cbn [fst snd] in *. apply mod_ex in Hx. destruct Hx as [a ->].
    replace ((4 * a + 0) / 2) with (2 * a) in Hy by dlia. apply mod_cong in Hy; [|lia]. destruct Hy as [k ->].
    exists a, k. f_equal; lia.
  Qed.

  Lemma first_edges_at h : ishex lay h ->
    first_edges_around_hex lay h = map (fun d => edge_at lay (wrap lay (cadd h d))) [(2, -1); (0, 2); (-2, -1)].
  Proof.
    intros Hh. destruct (ishex_ex h Hh) as (a & k & ->). unfold first_edges_around_hex, FIRST_EDGES. cbn [map].
    f_equal; [|f_equal; [|f_equal]]; apply edge_of_offsets_at; try exact Hh;
      unfold pos, cmid, cadd; cbn [fst snd].
    - left. split; [dlia|]. split; [reflexivity|]. left; split; reflexivity.
    - right. split; [dlia|]. split; [reflexivity|]. right; split; reflexivity.
    - left. split; [dlia|]. split; [reflexivity|]. right; split; reflexivity.
  Qed.
  Lemma second_edges_at h : ishex lay h ->
    second_edges_around_hex lay h = map (fun d => edge_at lay (wrap lay (cadd h d))) [(0, -2); (2, 1); (-2, 1)].
  Proof.
    intros Hh. destruct (ishex_ex h Hh) as (a & k & ->). unfold second_edges_around_hex, SECOND_EDGES. cbn [map].
    f_equal; [|f_equal; [|f_equal]]; apply edge_of_offsets_at; try exact Hh;
      unfold pos, cmid, cadd; cbn [fst snd].
    - right. split; [dlia|]. split; [reflexivity|]. left; split; reflexivity.
    - left. split; [dlia|]. split; [reflexivity|]. left; split; reflexivity.
    - left. split; [dlia|]. split; [reflexivity|]. right; split; reflexivity.
  Qed.

  Lemma hex_edge_in h d r : ishex lay h ->
    In (d, r) [((2, -1), 1); ((0, 2), 1); ((-2, -1), 1); ((0, -2), 2); ((2, 1), 2); ((-2, 1), 2)] ->
    In (edge_at lay (wrap lay (cadd h d))) (round_edges lay (hexcat h + r)).
  Proof.
    intros Hh Hd. apply in_round_edges; [exact Hv|]. rewrite edge_at_center.
    destruct (ishex_ex h Hh) as (a & k & ->).
    destruct (wrap_rep lay Hv (cadd (4 * a, 2 * a + 4 * k) d)) as (t & u & Ew & Hbox).
    unfold iscenter. rewrite Ew in *. clear Ew. unfold cadd in *. cbn [fst snd] in *.
    unfold isvert, ishoriz, ecolor, hexcat. cbn [fst snd].
    replace ((2 * a + 4 * k) / 2) with (a + 2 * k) by dlia.
    split; [split; [exact Hbox|]|split; [|reflexivity]]; clear Hbox Hh;
    (destruct Hd as [Hd|[Hd|[Hd|[Hd|[Hd|[Hd|[]]]]]]]; injection Hd as <- <-);
    cbn [fst snd]; try (left; split; dlia); try (right; split; dlia); eqbs; dlia.
  Qed.

  Lemma first_edges_round h e : ishex lay h -> In e (first_edges_around_hex lay h) -> In e (round_edges lay (hexcat h + 1)).
  Proof.
    intros Hh He. rewrite first_edges_at in He by exact Hh. apply in_map_iff in He. destruct He as (d & <- & Hd).
    apply hex_edge_in; [exact Hh|]. simpl in Hd. decompose [or] Hd; subst; simpl; auto; contradiction.
  Qed.
  Lemma second_edges_round h e : ishex lay h -> In e (second_edges_around_hex lay h) -> In e (round_edges lay (hexcat h + 2)).
  Proof.
    intros Hh He. rewrite second_edges_at in He by exact Hh. apply in_map_iff in He. destruct He as (d & <- & Hd).
    apply hex_edge_in; [exact Hh|]. simpl in Hd. decompose [or] Hd; subst; simpl; auto 10; contradiction.
  Qed.

  Lemma first_edges_cover h : Permutation (flat_map ends (first_edges_around_hex lay h)) (qubits_around_hex lay h).
  Proof.
    rewrite qubits_around_hex_perm. unfold first_edges_around_hex, FIRST_EDGES, edge_of_offsets.
    cbn [map flat_map fst snd]. rewrite !app_nil_r. rewrite !Edge_ends_perm. cbn [app]. unfold six. cbn [map].
    change (pos 1 (-1)) with (2, -2). change (pos 1 0) with (2, 0). change (pos 1 1) with (2, 2).
    change (pos (-1) 1) with (-2, 2). change (pos (-1) 0) with (-2, 0). change (pos (-1) (-1)) with (-2, -2).
    generalize (wrap lay (cadd h (2, -2))) (wrap lay (cadd h (2, 0))) (wrap lay (cadd h (2, 2)))
       (wrap lay (cadd h (-2, 2))) (wrap lay (cadd h (-2, 0))) (wrap lay (cadd h (-2, -2))).
    intros a b c d e f.
    apply (Permutation_trans (l' := [d; a; b; c; e; f])); [apply (Permutation_sym (Permutation_middle [a; b; c] [e; f] d))|].
    constructor. constructor.
    apply (Permutation_trans (l' := [f; b; c; e])); [apply (Permutation_sym (Permutation_middle [b; c; e] [] f))|].
    constructor. apply (Permutation_middle [c; e] [] b).
  Qed.
  Lemma second_edges_cover h : Permutation (flat_map ends (second_edges_around_hex lay h)) (qubits_around_hex lay h).
  Proof.
    rewrite qubits_around_hex_perm. unfold second_edges_around_hex, SECOND_EDGES, edge_of_offsets.
    cbn [map flat_map fst snd]. rewrite !app_nil_r. rewrite !Edge_ends_perm. cbn [app]. unfold six. cbn [map].
    change (pos 1 (-1)) with (2, -2). change (pos 1 0) with (2, 0). change (pos 1 1) with (2, 2).
    change (pos (-1) 1) with (-2, 2). change (pos (-1) 0) with (-2, 0). change (pos (-1) (-1)) with (-2, -2).
    generalize (wrap lay (cadd h (2, -2))) (wrap lay (cadd h (2, 0))) (wrap lay (cadd h (2, 2)))
       (wrap lay (cadd h (-2, 2))) (wrap lay (cadd h (-2, 0))) (wrap lay (cadd h (-2, -2))).
    intros a b c d e f.
    (* [f; a; b; c; d; e] -> [d; a; f; c; e; b] *)
    apply (Permutation_trans (l' := [d; f; a; b; c; e])); [apply (Permutation_sym (Permutation_middle [f; a; b; c] [e] d))|].
    constructor. apply (Permutation_trans (l' := [a; f; b; c; e])); [apply perm_swap|].
    constructor. constructor. apply (Permutation_middle [c; e] [] b).
  Qed.
  Lemma length_first h : length (first_edges_around_hex lay h) = 3%nat.
  Proof. reflexivity. Qed.
  Lemma length_second h : length (second_edges_around_hex lay h) = 3%nat.
  Proof. reflexivity. Qed.
End H.
