(** Hex neighbourhoods and commutation with edges. *)
From Verif Require Import Prelude Layout LayoutFacts LayoutEdges LayoutLists.
Open Scope Z_scope.

Section H.
  Variable lay : layout.
  Hypothesis Hv : valid lay.
  Notation tw := (tile_width lay).
  Notation th := (tile_height lay).
  Ltac tiles := pose proof (tw_pos lay Hv); pose proof (th_pos lay Hv).
  Notation partner := (partner lay).
  Notation touch_center := (touch_center lay).

  (** The hex of category c next to a data qubit. *)
  Definition hex_off (c : Z) (q : cpx) : cpx :=
    let d := (c - snd q / 2) mod 3 in
    let same := (fst q / 4) mod 2 =? (snd q / 2) mod 2 in
    if d =? 0 then (if same then -2 else 2, 0)
    else (if same then 2 else -2, if d =? 1 then 2 else -2).
  Definition hexq (c : Z) (q : cpx) : cpx := wrap lay (cadd q (hex_off c q)).

  Lemma hex_off_ab c a b :
    hex_off c (4 * a + 2, 2 * b) =
    let d := (c - b) mod 3 in
    if d =? 0 then (if (a - b) mod 2 =? 0 then -2 else 2, 0)
    else (if (a - b) mod 2 =? 0 then 2 else -2, if d =? 1 then 2 else -2).
  Proof.
    unfold hex_off. cbn [fst snd]. replace ((4 * a + 2) / 4) with a by dlia. replace (2 * b / 2) with b by dlia.
    replace (a mod 2 =? b mod 2) with ((a - b) mod 2 =? 0); [reflexivity|].
    destruct (Z.eqb_spec ((a - b) mod 2) 0), (Z.eqb_spec (a mod 2) (b mod 2)); try reflexivity; exfalso; dlia.
  Qed.

  Lemma hexq_ishex c q : isdata lay q -> ishex lay (hexq c q) /\ hexcat (hexq c q) = c mod 3.
  Proof.
    intros Hq. destruct (isdata_ex lay q Hq) as (a & b & -> & Hb). unfold hexq.
    destruct (wrap_rep lay Hv (cadd (4 * a + 2, 2 * b) (hex_off c (4 * a + 2, 2 * b)))) as (t & u & Ew & Hbox).
    unfold ishex, hexcat. split; [split; [exact Hbox|]|]; rewrite Ew; clear Ew Hbox Hb Hq; rewrite hex_off_ab; cbv zeta;
    destruct (mod3_split c b) as (k & d & -> & Hd); destruct (mod2_split a b) as (m & p & -> & Hp);
    destruct Hd as [->|[->| ->]], Hp as [->| ->]; eqbs; unfold cadd; cbn [fst snd];
    try split; dlia.
  Qed.

  (** The six offsets around a hex, in the order the code lists them. *)
  Definition six : list cpx := [(-2, 2); (2, -2); (-2, -2); (2, 2); (-2, 0); (2, 0)].
  Lemma qubits_around_hex_perm h : Permutation (qubits_around_hex lay h) (map (fun d => wrap lay (cadd h d)) six).
  Proof.
    unfold qubits_around_hex, sorted_complex. rewrite <- isort_perm.
    unfold EDGE_TYPES, six, pos, cscale. simpl. reflexivity.
  Qed.

  Lemma six_inj h d1 d2 : In d1 six -> In d2 six -> ishex lay h ->
    wrap lay (cadd h d1) = wrap lay (cadd h d2) -> d1 = d2.
  Proof.
    tiles. intros H1 H2 (Hb & _) E. destruct h as [X Y]. unfold inbox in Hb. cbn [fst snd] in Hb.
    unfold wrap, cadd, coord_width2, coord_height2 in E. cbn [fst snd] in E.
    assert (forall d, In d six -> (fst d = -2 \/ fst d = 2) /\ (snd d = -2 \/ snd d = 0 \/ snd d = 2)).
    { intros d Hd. unfold six in Hd. simpl in Hd. decompose [or] Hd; subst; simpl; lia. }
    pose proof (H3 d1 H1). pose proof (H3 d2 H2). destruct d1 as [x1 y1], d2 as [x2 y2]. cbn [fst snd] in *.
    injection E as Ex Ey. rewrite !mod_small_cases in Ex, Ey by lia.
    repeat match type of Ex with context [?a <? ?b] => destruct (Z.ltb_spec a b) end;
    repeat match type of Ey with context [?a <? ?b] => destruct (Z.ltb_spec a b) end; f_equal; lia.
  Qed.

  Lemma NoDup_six : NoDup six.
  Proof.
    unfold six. repeat constructor; simpl; intros K; decompose [or] K; try contradiction; discriminate.
  Qed.

  Lemma NoDup_around h : ishex lay h -> NoDup (qubits_around_hex lay h).
  Proof.
    intros Hh. eapply Permutation_NoDup; [symmetry; apply qubits_around_hex_perm|].
    apply NoDup_map_inj; [|apply NoDup_six]. intros. eapply six_inj; eauto.
  Qed.
  Lemma length_around h : length (qubits_around_hex lay h) = 6%nat.
  Proof. now rewrite (Permutation_length (qubits_around_hex_perm h)). Qed.

  (** A data qubit lies around a hex iff the hex is its hex of that category. *)
  Lemma in_around h q : ishex lay h ->
    In q (qubits_around_hex lay h) <-> isdata lay q /\ hexq (hexcat h) q = h.
  Proof.
    intros Hh. split.
    - intros Hin. apply (Permutation_in _ (qubits_around_hex_perm h)) in Hin.
      apply in_map_iff in Hin. destruct Hin as (d & <- & Hd).
      destruct Hh as (Hb & Hx & Hy). destruct h as [X Y]. cbn [fst snd] in *.
      apply mod_ex in Hx. destruct Hx as [a ->]. replace ((4 * a + 0) / 2) with (2 * a) in Hy by dlia.
      assert (EY : exists k, Y = 2 * a + 4 * k) by (apply mod_cong in Hy; [|lia]; destruct Hy as [k ->]; exists k; lia).
      destruct EY as [k ->]. clear Hy.
      destruct (wrap_rep lay Hv (cadd (4 * a + 0, 2 * a + 4 * k) d)) as (t & u & Ew & Hbox).
      assert (Hdd : (fst d = -2 \/ fst d = 2) /\ (snd d = -2 \/ snd d = 0 \/ snd d = 2)).
      { unfold six in Hd. simpl in Hd. decompose [or] Hd; subst; simpl; lia. }
      split.
      + split; [exact Hbox|]. rewrite Ew. unfold cadd; cbn [fst snd]. clear Ew Hbox Hb Hd. split; dlia.
      + transitivity (wrap lay (4 * a + 0, 2 * a + 4 * k)); [|apply wrap_id, Hb].
        unfold hexq. rewrite wrap_idem_add.
        replace (hex_off (hexcat (4 * a + 0, 2 * a + 4 * k)) (wrap lay (cadd (4 * a + 0, 2 * a + 4 * k) d))) with (cscale (-1) d).
        { unfold cadd, cscale; cbn [fst snd]. f_equal. f_equal; lia. }
        rewrite Ew. clear Ew Hbox Hb Hd. unfold cadd; cbn [fst snd]. destruct d as [dx dy]. cbn [fst snd] in *.
        unfold hexcat. cbn [fst snd]. replace ((2 * a + 4 * k) / 2) with (a + 2 * k) by dlia.
        set (c := (a + 2 * k) mod 3).
        destruct Hdd as [Hdx Hdy].
        assert (EE : exists dx2 dy2, (4 * a + 0 + dx + 8 * t, 2 * a + 4 * k + dy + 12 * u) =
          (4 * (a + dx2 + 2 * t) + 2, 2 * (a + 2 * k + dy2 + 6 * u)) /\
          ((dx = 2 /\ dx2 = 0) \/ (dx = -2 /\ dx2 = -1)) /\ dy = 2 * dy2).
        { destruct Hdx as [-> | ->], Hdy as [-> | [-> | ->]];
          [exists (-1), (-1) | exists (-1), 0 | exists (-1), 1 | exists 0, (-1) | exists 0, 0 | exists 0, 1];
          (split; [f_equal; lia | split; [lia | reflexivity]]). }
        destruct EE as (dx2 & dy2 & -> & Hdx2 & ->). rewrite hex_off_ab. cbv zeta. unfold cscale. cbn [fst snd].
        assert (Hdy' : dy2 = -1 \/ dy2 = 0 \/ dy2 = 1) by lia. unfold c; clear c Hdy.
        destruct Hdx2 as [[-> ->]|[-> ->]]; destruct Hdy' as [->|[->| ->]]; clear; eqbs; reflexivity.
    - intros [Hq E]. destruct (isdata_ex lay q Hq) as (a & b & -> & Hb).
      apply (Permutation_in _ (Permutation_sym (qubits_around_hex_perm h))). apply in_map_iff.
      exists (cscale (-1) (hex_off (hexcat h) (4 * a + 2, 2 * b))). split.
      + rewrite <- E at 1. unfold hexq at 1. rewrite wrap_idem_add.
        transitivity (wrap lay (4 * a + 2, 2 * b)); [|apply wrap_id, Hb].
        f_equal. unfold cadd, cscale; cbn [fst snd]. f_equal; lia.
      + rewrite hex_off_ab. cbv zeta. unfold six.
        destruct (_ =? 0), (_ =? 0); try destruct (_ =? 1); simpl; tauto.
  Qed.

  (** An edge of another round lies entirely inside or outside a hex. *)
  Lemma hexq_partner c r q : isdata lay q -> r mod 3 <> c mod 3 -> hexq c (partner r q) = hexq c q.
  Proof.
    intros Hq Hr. destruct (isdata_ex lay q Hq) as (a & b & -> & _).
    assert (E : cadd (cscale 2 (touch_off r (4 * a + 2, 2 * b))) (hex_off c (partner r (4 * a + 2, 2 * b))) = hex_off c (4 * a + 2, 2 * b)).
    { unfold LayoutEdges.partner.
      destruct (wrap_rep lay Hv (cadd (4 * a + 2, 2 * b) (cscale 2 (touch_off r (4 * a + 2, 2 * b))))) as (t & u & Ew & _).
      rewrite Ew. clear Ew Hq.
      assert (EE : exists da db, touch_off r (4 * a + 2, 2 * b) = (2 * da, db) /\
         (da = 0 /\ db = 1 /\ (r - b) mod 3 = 2 \/ da = 0 /\ db = -1 /\ (r - b) mod 3 = 1 \/
          da = 1 /\ db = 0 /\ (r - b) mod 3 = 0 /\ (a - b) mod 2 = 0 \/ da = -1 /\ db = 0 /\ (r - b) mod 3 = 0 /\ (a - b) mod 2 = 1)).
      { destruct (touch_off_cases r a b) as [[E H]|[[E H]|[[E [H H']]|[E [H H']]]]];
        [exists 0, 1 | exists 0, (-1) | exists 1, 0 | exists (-1), 0]; rewrite E; (split; [reflexivity | tauto]). }
      destruct EE as (da & db & -> & Hcase).
      unfold cadd, cscale. cbn [fst snd].
      replace (4 * a + 2 + 2 * (2 * da) + 8 * t, 2 * b + 2 * db + 12 * u) with
        (4 * (a + da + 2 * t) + 2, 2 * (b + db + 6 * u)) by (f_equal; lia).
      rewrite !hex_off_ab. cbv zeta.
      destruct (mod3_split c b) as (k & d & -> & Hd); destruct (mod2_split a b) as (m & p & -> & Hp);
      destruct (mod3_split r b) as (k' & d' & -> & Hd').
      destruct Hd as [->|[->| ->]], Hp as [->| ->], Hd' as [->|[->| ->]];
      destruct Hcase as [(-> & -> & R)|[(-> & -> & R)|[(-> & -> & R & S)|(-> & -> & R & S)]]];
      try (exfalso; dlia); clear; eqbs; cbn [fst snd]; reflexivity. }
    unfold hexq. unfold LayoutEdges.partner at 1. rewrite wrap_idem_add. rewrite <- E. unfold cadd; cbn [fst snd].
    f_equal. f_equal; lia.
  Qed.
End H.
