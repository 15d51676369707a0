(** The lists computed by the layout: membership, distinctness, lengths, matchings,
    neighbourhoods of hexes. *)
From Verif Require Import Prelude Layout LayoutFacts LayoutEdges.
Open Scope Z_scope.

Section L.
  Variable lay : layout.
  Hypothesis Hv : valid lay.
  Notation tw := (tile_width lay).
  Notation th := (tile_height lay).
  Ltac tiles := pose proof (tw_pos lay Hv); pose proof (th_pos lay Hv).
  Notation partner := (partner lay).
  Notation touch_center := (touch_center lay).

  Lemma ecolor_range c : 0 <= ecolor c < 3.
  Proof. unfold ecolor. destruct (_ =? 2); dlia. Qed.

  (** The edge of round r at data qubit q. *)
  Definition touch (r : Z) (q : cpx) : edge := edge_at lay (touch_center r q).

  Lemma partner_mod r q : partner (r mod 3) q = partner r q.
  Proof.
    unfold LayoutEdges.partner, touch_off.
    replace ((r mod 3 - snd q / 2) mod 3) with ((r - snd q / 2) mod 3); [reflexivity|].
    generalize (snd q / 2). intros. dlia.
  Qed.
  Lemma touch_center_mod r q : touch_center (r mod 3) q = touch_center r q.
  Proof.
    unfold LayoutEdges.touch_center, touch_off.
    replace ((r mod 3 - snd q / 2) mod 3) with ((r - snd q / 2) mod 3); [reflexivity|].
    generalize (snd q / 2). intros. dlia.
  Qed.

  Lemma in_round_edges_touch r e : In e (round_edges lay r) <->
    exists q, isdata lay q /\ data_qubit_parity q = false /\ e = mkEdge q (partner r q) (touch_center r q).
  Proof.
    rewrite in_round_edges by exact Hv. split.
    - intros (Hc & Hcol & He). pose proof (center_ends lay Hv _ Hc) as H. cbv zeta in H.
      rewrite <- He in H. destruct H as (H1 & H2 & H3 & H4).
      exists (e_left e). split; [exact H1|]. split; [exact H2|].
      rewrite Hcol, touch_center_mod in H3. rewrite Hcol, partner_mod in H4. rewrite H3, <- H4. now destruct e.
    - intros (q & Hq & Hp & ->). cbn [e_center].
      destruct (touch_iscenter lay Hv r q Hq) as [H1 H2]. split; [exact H1|]. split; [exact H2|].
      rewrite (touch_edge lay Hv r q Hq), Hp. reflexivity.
  Qed.

  Lemma round_edge_facts r e : In e (round_edges lay r) ->
    isdata lay (e_left e) /\ isdata lay (e_right e) /\
    data_qubit_parity (e_left e) = false /\ data_qubit_parity (e_right e) = true /\
    e_right e = partner r (e_left e) /\ e_left e = partner r (e_right e) /\
    e_center e = touch_center r (e_left e) /\ e_center e = touch_center r (e_right e) /\
    iscenter lay (e_center e) /\ ecolor (e_center e) = r mod 3.
  Proof.
    intros He. pose proof He as He'. apply in_round_edges_touch in He. destruct He as (q & Hq & Hp & ->).
    cbn [e_left e_right e_center].
    destruct (touch_partner lay Hv r q Hq) as [H1 H2].
    pose proof (partner_parity lay Hv r q Hq) as Hpp. rewrite Hp in Hpp.
    destruct (touch_iscenter lay Hv r q Hq) as [H3 H4].
    rewrite H1, H2. repeat split; auto; try apply Hq; try apply (partner_isdata lay Hv r q Hq); try apply H3.
  Qed.

  (** Exactly one edge of each round touches a data qubit. *)
  Lemma touch_unique r q e : isdata lay q -> In e (round_edges lay r) ->
    (e_left e = q \/ e_right e = q) <-> e = touch r q.
  Proof.
    intros Hq He. destruct (round_edge_facts r e He) as (Hl & Hr & Pl & Pr & E1 & E2 & E3 & E4 & _).
    unfold touch. split.
    - intros [<-|<-].
      + rewrite (touch_edge lay Hv r _ Hl), Pl, <- E1, <- E3. now destruct e.
      + rewrite (touch_edge lay Hv r _ Hr), Pr, <- E2, <- E4. now destruct e.
    - intros ->. rewrite (touch_edge lay Hv r q Hq). destruct (data_qubit_parity q); [right|left]; reflexivity.
  Qed.
  Lemma touch_in r q : isdata lay q -> In (touch r q) (round_edges lay r).
  Proof.
    intros Hq. apply in_round_edges; [exact Hv|]. unfold touch. rewrite edge_at_center.
    destruct (touch_iscenter lay Hv r q Hq). auto.
  Qed.

  Lemma round_edges_mod r : round_edges lay (r mod 3) = round_edges lay r.
  Proof. unfold round_edges. now rewrite Zmod_mod. Qed.

  Lemma round_edges_disjoint r1 r2 e : In e (round_edges lay r1) -> In e (round_edges lay r2) -> r1 mod 3 = r2 mod 3.
  Proof.
    intros H1 H2. apply round_edge_facts in H1, H2. destruct H1 as (_&_&_&_&_&_&_&_&_&H1), H2 as (_&_&_&_&_&_&_&_&_&H2).
    congruence.
  Qed.

  (** ** Distinctness *)
  Lemma ishex_et_inj h1 h2 e1 e2 : ishex lay h1 -> ishex lay h2 -> In e1 EDGE_TYPES -> In e2 EDGE_TYPES ->
    hexcat h1 = hexcat h2 ->
    wrap lay (cadd h1 (et_off e1)) = wrap lay (cadd h2 (et_off e2)) -> h1 = h2 /\ e1 = e2.
  Proof.
    tiles. intros (B1 & X1 & Y1) (B2 & X2 & Y2) He1 He2 Hcat E.
    destruct h1 as [hx1 hy1], h2 as [hx2 hy2]. unfold inbox, hexcat in *. cbn [fst snd] in *.
    assert (O : forall et, In et EDGE_TYPES ->
              (et_off et = (2, -3) /\ et = (pos 2 (-3), pos 1 (-1))) \/
              (et_off et = (2, 3) /\ et = (pos 2 3, pos 1 1)) \/
              (et_off et = (4, 0) /\ et = (pos 4 0, pos 1 0))).
    { intros et [<-|[<-|[<-|[]]]]; [left|right;left|right;right]; split; reflexivity. }
    apply O in He1, He2. clear O.
    unfold wrap, cadd, coord_width2, coord_height2 in E.
    destruct He1 as [[E1 ->]|[[E1 ->]|[E1 ->]]]; destruct He2 as [[E2 ->]|[[E2 ->]|[E2 ->]]];
      try rewrite E1 in E; try rewrite E2 in E; cbn [fst snd] in E; injection E as Ex Ey; clear E1 E2;
      rewrite !mod_small_cases in Ex, Ey by lia;
      repeat match type of Ex with context [?a <? ?b] => destruct (Z.ltb_spec a b) end;
      repeat match type of Ey with context [?a <? ?b] => destruct (Z.ltb_spec a b) end;
      try (exfalso; lia); try (split; [f_equal; lia | reflexivity]); exfalso; dlia.
  Qed.

  Lemma NoDup_round_edges_centers r : NoDup (map e_center (round_edges lay r)).
  Proof.
    unfold round_edges.
    eapply Permutation_NoDup; [apply Permutation_map; apply isort_perm|].
    rewrite flat_map_concat_map, concat_map, map_map, <- flat_map_concat_map.
    apply NoDup_flat_map.
    - apply NoDup_hexes, Hv.
    - intros h Hh. apply in_hexes in Hh; [|exact Hv]. destruct Hh as [Hh _]. rewrite map_map.
      apply NoDup_map_inj.
      + intros e1 e2 H1 H2. rewrite !hex_to_edge_at, !edge_at_center by assumption.
        intros E. eapply (ishex_et_inj h h e1 e2); eauto.
      + unfold EDGE_TYPES. constructor; [|constructor; [|constructor; [intros [] | constructor]]];
          cbv [In pos]; intros K; decompose [or] K; try contradiction; discriminate.
    - intros h1 h2 b H1 H2 Hb1 Hb2. apply in_hexes in H1, H2; try exact Hv.
      destruct H1 as [H1 C1], H2 as [H2 C2].
      rewrite map_map in Hb1, Hb2. apply in_map_iff in Hb1, Hb2.
      destruct Hb1 as (e1 & E1 & He1), Hb2 as (e2 & E2 & He2).
      rewrite !hex_to_edge_at, !edge_at_center in E1, E2 by assumption.
      destruct (ishex_et_inj h1 h2 e1 e2); auto; congruence.
  Qed.
  Lemma NoDup_round_edges r : NoDup (round_edges lay r).
  Proof. eapply NoDup_map_inv, NoDup_round_edges_centers. Qed.

  Lemma in_all_edges e : In e (all_edges lay) <-> iscenter lay (e_center e) /\ e = edge_at lay (e_center e).
  Proof.
    unfold all_edges. rewrite !in_app_iff, !in_round_edges by exact Hv.
    pose proof (ecolor_range (e_center e)).
    change (0 mod 3) with 0. change (1 mod 3) with 1. change (2 mod 3) with 2.
    split; [tauto|]. intros. assert (ecolor (e_center e) = 0 \/ ecolor (e_center e) = 1 \/ ecolor (e_center e) = 2) by lia. tauto.
  Qed.
  Lemma in_all_edges_round e : In e (all_edges lay) <-> exists r, 0 <= r < 3 /\ In e (round_edges lay r).
  Proof.
    unfold all_edges. rewrite !in_app_iff. split.
    - intros [H|[H|H]]; [exists 0 | exists 1 | exists 2]; split; auto; lia.
    - intros (r & Hr & H). assert (r = 0 \/ r = 1 \/ r = 2) as [->|[->| ->]] by lia; auto.
  Qed.

  Lemma NoDup_all_edges_centers : NoDup (map e_center (all_edges lay)).
  Proof.
    unfold all_edges. rewrite !map_app.
    assert (D : forall r1 r2 c, In c (map e_center (round_edges lay r1)) -> In c (map e_center (round_edges lay r2)) -> r1 mod 3 = r2 mod 3).
    { intros r1 r2 c H1 H2. apply in_map_iff in H1, H2. destruct H1 as (e1 & <- & H1), H2 as (e2 & E & H2).
      apply round_edge_facts in H1, H2. destruct H1 as (_&_&_&_&_&_&_&_&_&H1), H2 as (_&_&_&_&_&_&_&_&_&H2). congruence. }
    apply NoDup_app_intro; [apply NoDup_round_edges_centers | apply NoDup_app_intro; try apply NoDup_round_edges_centers |].
    - intros c H1 H2. specialize (D _ _ c H1 H2). discriminate.
    - intros c H1 H2. apply in_app_iff in H2. destruct H2 as [H2|H2]; specialize (D _ _ c H1 H2); discriminate.
  Qed.

  (** ** Data and measurement qubits *)
  Lemma in_data q : In q (data_qubit_coords lay) <-> isdata lay q.
  Proof.
    unfold data_qubit_coords, sorted_complex. rewrite in_isort, nodup_In, in_flat_map. split.
    - intros (e & He & Hq). apply in_all_edges_round in He. destruct He as (r & _ & He).
      apply round_edge_facts in He. destruct He as (H1 & H2 & _).
      destruct Hq as [<-|[<-|[]]]; assumption.
    - intros Hq. exists (touch 0 q). split.
      + apply in_all_edges_round. exists 0. split; [lia|]. now apply touch_in.
      + destruct (proj2 (touch_unique 0 q (touch 0 q) Hq (touch_in 0 q Hq)) eq_refl) as [E|E]; [left | right; left]; exact E.
  Qed.
  Lemma NoDup_data : NoDup (data_qubit_coords lay).
  Proof. apply NoDup_isort, NoDup_nodup. Qed.
  Lemma data_sorted : StronglySorted (le_ clex_leb) (data_qubit_coords lay).
  Proof. apply isort_sorted; [apply clex_total | apply clex_trans]. Qed.

  Lemma in_measure c : In c (measure_qubit_coords lay) <-> iscenter lay c.
  Proof.
    unfold measure_qubit_coords, sorted_complex. rewrite in_isort, nodup_In, in_map_iff. split.
    - intros (e & <- & He). now apply in_all_edges in He.
    - intros Hc. exists (edge_at lay c). rewrite edge_at_center. split; [reflexivity|].
      apply in_all_edges. rewrite edge_at_center. auto.
  Qed.
  Lemma NoDup_measure : NoDup (measure_qubit_coords lay).
  Proof. apply NoDup_isort, NoDup_nodup. Qed.
  Lemma measure_sorted : StronglySorted (le_ clex_leb) (measure_qubit_coords lay).
  Proof. apply isort_sorted; [apply clex_total | apply clex_trans]. Qed.

  Lemma data_not_measure c : isdata lay c -> iscenter lay c -> False.
  Proof.
    intros (_ & H1 & H2) (_ & [[H3 H4]|[H3 H4]]); dlia.
  Qed.

  (** Explicit enumerations, used for counting. *)
  Definition rows_of (f : Z -> list Z) (n : Z) : list cpx :=
    flat_map (fun y => map (fun x => (x, 2 * y)) (f y)) (zrange 0 n).

  Lemma count_data : length (data_qubit_coords lay) = Z.to_nat (data_width lay * data_height lay).
  Proof.
    tiles. destruct (valid_tiles lay Hv) as (_ & _ & Ew & Eh).
    set (l := flat_map (fun y => map (fun i => (4 * i + 2, 2 * y)) (zrange 0 (2 * tw))) (zrange 0 (6 * th))).
    assert (Hp : Permutation (data_qubit_coords lay) l).
    { apply NoDup_same_perm; [apply NoDup_data | |].
      - unfold l. apply NoDup_flat_map; [apply NoDup_zrange | |].
        + intros y _. apply NoDup_map_inj; [|apply NoDup_zrange]. intros i j _ _ E. injection E. lia.
        + intros y1 y2 b _ _ H1 H2. apply in_map_iff in H1, H2. destruct H1 as (i & <- & _), H2 as (j & E & _).
          injection E. lia.
      - intros q. rewrite in_data. unfold l. rewrite in_flat_map. split.
        + intros (Hb & H1 & H2). destruct q as [X Y]. unfold inbox in Hb. cbn [fst snd] in *.
          exists (Y / 2). split; [apply in_zrange; dlia|]. apply in_map_iff. exists (X / 4).
          split; [f_equal; dlia | apply in_zrange; dlia].
        + intros (y & Hy & Hin). apply in_map_iff in Hin. destruct Hin as (i & <- & Hi). apply in_zrange in Hy, Hi.
          unfold isdata, inbox. cbn [fst snd]. dlia. }
    rewrite (Permutation_length Hp). unfold l.
    rewrite (length_flat_map_const _ (Z.to_nat (2 * tw))).
    - rewrite length_zrange. rewrite Ew, Eh. nia.
    - intros. rewrite map_length, length_zrange. f_equal. lia.
  Qed.

  Lemma count_half (p : bool) :
    length (filter (fun q => Bool.eqb (data_qubit_parity q) p) (data_qubit_coords lay)) = Z.to_nat (6 * (tw * th)).
  Proof.
    tiles.
    set (l := flat_map (fun y => map (fun i => (8 * i + (if (y mod 2 =? 0) then (if p then 6 else 2) else (if p then 2 else 6)), 2 * y)) (zrange 0 tw)) (zrange 0 (6 * th))).
    assert (Hp : Permutation (filter (fun q => Bool.eqb (data_qubit_parity q) p) (data_qubit_coords lay)) l).
    { apply NoDup_same_perm; [apply NoDup_filter, NoDup_data | |].
      - unfold l. apply NoDup_flat_map; [apply NoDup_zrange | |].
        + intros y _. apply NoDup_map_inj; [|apply NoDup_zrange]. intros i j _ _ E. injection E. lia.
        + intros y1 y2 b _ _ H1 H2. apply in_map_iff in H1, H2. destruct H1 as (i & <- & _), H2 as (j & E & _).
          injection E. lia.
      - intros q. rewrite filter_In, in_data. unfold l. rewrite in_flat_map. split.
        + intros [Hq Hpar]. destruct (isdata_ex lay q Hq) as (a & b & -> & Hb). apply Bool.eqb_prop in Hpar.
          rewrite parity_ab in Hpar. unfold inbox in Hb. cbn [fst snd] in *.
          exists b. split; [apply in_zrange; lia|]. apply in_map_iff. exists (a / 2).
          split; [|apply in_zrange; dlia]. f_equal. subst p.
          destruct (Z.eqb_spec (b mod 2) 0), (Z.eqb_spec ((a + b) mod 2) 1); dlia.
        + intros (y & Hy & Hin). apply in_map_iff in Hin. destruct Hin as (i & <- & Hi). apply in_zrange in Hy, Hi.
          assert (E : (8 * i + (if y mod 2 =? 0 then if p then 6 else 2 else if p then 2 else 6), 2 * y) =
                      (4 * (2 * i + (if y mod 2 =? 0 then if p then 1 else 0 else if p then 0 else 1)) + 2, 2 * y)).
          { f_equal. destruct (y mod 2 =? 0), p; lia. }
          rewrite E. split.
          * unfold isdata, inbox. cbn [fst snd]. destruct (y mod 2 =? 0), p; dlia.
          * rewrite parity_ab. apply Bool.eqb_true_iff.
            destruct (Z.eqb_spec (y mod 2) 0), p;
            match goal with |- context [?a =? 1] => destruct (Z.eqb_spec a 1) end; try reflexivity; exfalso; dlia. }
    rewrite (Permutation_length Hp). unfold l.
    rewrite (length_flat_map_const _ (Z.to_nat tw)).
    - rewrite length_zrange. nia.
    - intros. rewrite map_length, length_zrange. f_equal. lia.
  Qed.

  (** Left ends of the edges of a round are exactly the even data qubits; right ends the odd ones. *)
  Lemma lefts_perm r : Permutation (map e_left (round_edges lay r))
                                   (filter (fun q => negb (data_qubit_parity q)) (data_qubit_coords lay)).
  Proof.
    apply NoDup_same_perm.
    - apply NoDup_map_inj; [|apply NoDup_round_edges].
      intros e1 e2 H1 H2 E. pose proof (round_edge_facts r e1 H1) as (F1 & _).
      transitivity (touch r (e_left e1)).
      + apply touch_unique; auto.
      + symmetry. apply touch_unique; auto.
    - apply NoDup_filter, NoDup_data.
    - intros q. rewrite in_map_iff, filter_In, in_data, negb_true_iff. split.
      + intros (e & <- & He). apply round_edge_facts in He. tauto.
      + intros [Hq Hp]. exists (touch r q). split; [|now apply touch_in].
        unfold touch. now rewrite (touch_edge lay Hv r q Hq), Hp.
  Qed.
  Lemma rights_perm r : Permutation (map e_right (round_edges lay r)) (filter data_qubit_parity (data_qubit_coords lay)).
  Proof.
    apply NoDup_same_perm.
    - apply NoDup_map_inj; [|apply NoDup_round_edges].
      intros e1 e2 H1 H2 E. pose proof (round_edge_facts r e1 H1) as (_ & F1 & _).
      transitivity (touch r (e_right e1)).
      + apply touch_unique; auto.
      + symmetry. apply touch_unique; auto.
    - apply NoDup_filter, NoDup_data.
    - intros q. rewrite in_map_iff, filter_In, in_data. split.
      + intros (e & <- & He). apply round_edge_facts in He. tauto.
      + intros [Hq Hp]. exists (touch r q). split; [|now apply touch_in].
        unfold touch. now rewrite (touch_edge lay Hv r q Hq), Hp.
  Qed.

  Lemma filter_split {A} (p : A -> bool) l : Permutation (filter (fun x => negb (p x)) l ++ filter p l) l.
  Proof.
    induction l as [|a l IH]; simpl; [constructor|].
    destruct (p a); simpl; [rewrite <- Permutation_middle|]; constructor; exact IH.
  Qed.

  Lemma ends_perm_app (l : list edge) : Permutation (flat_map (fun e => [e_left e; e_right e]) l) (map e_left l ++ map e_right l).
  Proof.
    induction l as [|e l IH]; simpl; [constructor|]. constructor.
    rewrite <- Permutation_middle. constructor. exact IH.
  Qed.

  (** Each round is a perfect matching of the data qubits. *)
  Lemma round_matching r : Permutation (flat_map (fun e => [e_left e; e_right e]) (round_edges lay r)) (data_qubit_coords lay).
  Proof.
    rewrite ends_perm_app, lefts_perm, rights_perm. apply filter_split.
  Qed.

  Lemma count_round_edges r : length (round_edges lay r) = Z.to_nat (6 * (tw * th)).
  Proof.
    rewrite <- (map_length e_left), (Permutation_length (lefts_perm r)), <- (count_half false).
    reflexivity.
  Qed.
  Lemma measure_perm : Permutation (measure_qubit_coords lay) (map e_center (all_edges lay)).
  Proof.
    unfold measure_qubit_coords, sorted_complex. rewrite <- isort_perm.
    apply NoDup_same_perm; [apply NoDup_nodup | apply NoDup_all_edges_centers | intros; apply nodup_In].
  Qed.
  Lemma count_measure : length (measure_qubit_coords lay) = Z.to_nat (18 * (tw * th)).
  Proof.
    rewrite (Permutation_length measure_perm), map_length. unfold all_edges.
    rewrite !app_length, !count_round_edges. pose proof (tw_pos lay Hv). pose proof (th_pos lay Hv). nia.
  Qed.
End L.
