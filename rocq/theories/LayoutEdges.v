(** End points of edges, the edge of each round at each data qubit, and the
    neighbourhoods of hexes. *)
From Verif Require Import Prelude Layout LayoutFacts.
Open Scope Z_scope.

Section E.
  Variable lay : layout.
  Hypothesis Hv : valid lay.
  Notation tw := (tile_width lay).
  Notation th := (tile_height lay).
  Ltac tiles := pose proof (tw_pos lay Hv); pose proof (th_pos lay Hv).

  (** Write a data qubit as (4a+2, 2b). *)
  Lemma isdata_ex q : isdata lay q -> exists a b, q = (4 * a + 2, 2 * b) /\ inbox lay q.
  Proof.
    intros (Hb & Hx & Hy). destruct q as [X Y]. cbn [fst snd] in *.
    apply mod_ex in Hx, Hy. destruct Hx as [a ->], Hy as [b ->]. exists a, b. split; [f_equal; lia | exact Hb].
  Qed.

  Lemma parity_ab a b : data_qubit_parity (4 * a + 2, 2 * b) = ((a + b) mod 2 =? 1).
  Proof.
    unfold data_qubit_parity. cbn [fst snd].
    destruct (Z.eqb_spec ((2 * ((4 * a + 2) / 4) + 2 * b) mod 4) 0), (Z.eqb_spec ((a + b) mod 2) 1);
      try reflexivity; exfalso; dlia.
  Qed.

  Lemma Edge_ft a b c : data_qubit_parity a = false -> data_qubit_parity b = true -> Edge a b c = mkEdge a b c.
  Proof. intros Ha Hb. unfold Edge, endpoint_gt. rewrite Ha, Hb. reflexivity. Qed.
  Lemma Edge_tf a b c : data_qubit_parity a = true -> data_qubit_parity b = false -> Edge a b c = mkEdge b a c.
  Proof. intros Ha Hb. unfold Edge, endpoint_gt. rewrite Ha, Hb. reflexivity. Qed.

  (** ** The round-r edge at a data qubit *)
  Definition touch_off (r : Z) (q : cpx) : cpx :=
    let d := (r - snd q / 2) mod 3 in
    if d =? 2 then (0, 1) else if d =? 1 then (0, -1)
    else if (fst q - 2) mod 8 =? (2 * snd q) mod 8 then (2, 0) else (-2, 0).
  Definition touch_center (r : Z) (q : cpx) : cpx := wrap lay (cadd q (touch_off r q)).
  Definition partner (r : Z) (q : cpx) : cpx := wrap lay (cadd q (cscale 2 (touch_off r q))).

  Lemma touch_off_cases r a b :
    let q := (4 * a + 2, 2 * b) in
    (touch_off r q = (0, 1) /\ (r - b) mod 3 = 2) \/
    (touch_off r q = (0, -1) /\ (r - b) mod 3 = 1) \/
    (touch_off r q = (2, 0) /\ (r - b) mod 3 = 0 /\ (a - b) mod 2 = 0) \/
    (touch_off r q = (-2, 0) /\ (r - b) mod 3 = 0 /\ (a - b) mod 2 = 1).
  Proof.
    intros q. unfold q, touch_off. cbn [fst snd].
    replace (2 * b / 2) with b by dlia.
    destruct (Z.eqb_spec ((r - b) mod 3) 2); [left; auto|].
    destruct (Z.eqb_spec ((r - b) mod 3) 1); [right; left; auto|].
    assert ((r - b) mod 3 = 0) by dlia.
    replace (4 * a + 2 - 2) with (4 * a) by lia. replace (2 * (2 * b)) with (4 * b) by lia.
    destruct (Z.eqb_spec ((4 * a) mod 8) ((4 * b) mod 8)) as [E|E]; [right; right; left | right; right; right];
      (split; [reflexivity|]; split; [assumption|]).
    - clear - E. dlia.
    - clear - E. dlia.
  Qed.

  Lemma partner_isdata r q : isdata lay q -> isdata lay (partner r q).
  Proof.
    intros Hq. destruct (isdata_ex q Hq) as (a & b & -> & Hb). unfold partner.
    destruct (wrap_rep lay Hv (cadd (4 * a + 2, 2 * b) (cscale 2 (touch_off r (4 * a + 2, 2 * b))))) as (t & u & Ew & Hbox).
    split; [exact Hbox|]. rewrite Ew. unfold cadd, cscale.
    destruct (touch_off_cases r a b) as [[-> _]|[[-> _]|[[-> _]|[-> _]]]]; cbn [fst snd]; split; dlia.
  Qed.

  Lemma partner_parity r q : isdata lay q -> data_qubit_parity (partner r q) = negb (data_qubit_parity q).
  Proof.
    intros Hq. destruct (isdata_ex q Hq) as (a & b & -> & Hb). unfold partner.
    destruct (wrap_rep lay Hv (cadd (4 * a + 2, 2 * b) (cscale 2 (touch_off r (4 * a + 2, 2 * b))))) as (t & u & Ew & Hbox).
    rewrite Ew. unfold cadd, cscale.
    rewrite parity_ab.
    destruct (touch_off_cases r a b) as [[-> _]|[[-> _]|[[-> _]|[-> _]]]]; cbn [fst snd].
    - replace (4 * a + 2 + 2 * 0 + 8 * t, 2 * b + 2 * 1 + 12 * u) with (4 * (a + 2 * t) + 2, 2 * (b + 1 + 6 * u)) by (f_equal; lia).
      rewrite parity_ab. destruct (Z.eqb_spec ((a + 2 * t + (b + 1 + 6 * u)) mod 2) 1), (Z.eqb_spec ((a + b) mod 2) 1); try reflexivity; exfalso; dlia.
    - replace (4 * a + 2 + 2 * 0 + 8 * t, 2 * b + 2 * -1 + 12 * u) with (4 * (a + 2 * t) + 2, 2 * (b - 1 + 6 * u)) by (f_equal; lia).
      rewrite parity_ab. destruct (Z.eqb_spec ((a + 2 * t + (b - 1 + 6 * u)) mod 2) 1), (Z.eqb_spec ((a + b) mod 2) 1); try reflexivity; exfalso; dlia.
    - replace (4 * a + 2 + 2 * 2 + 8 * t, 2 * b + 2 * 0 + 12 * u) with (4 * (a + 1 + 2 * t) + 2, 2 * (b + 6 * u)) by (f_equal; lia).
      rewrite parity_ab. destruct (Z.eqb_spec ((a + 1 + 2 * t + (b + 6 * u)) mod 2) 1), (Z.eqb_spec ((a + b) mod 2) 1); try reflexivity; exfalso; dlia.
    - replace (4 * a + 2 + 2 * -2 + 8 * t, 2 * b + 2 * 0 + 12 * u) with (4 * (a - 1 + 2 * t) + 2, 2 * (b + 6 * u)) by (f_equal; lia).
      rewrite parity_ab. destruct (Z.eqb_spec ((a - 1 + 2 * t + (b + 6 * u)) mod 2) 1), (Z.eqb_spec ((a + b) mod 2) 1); try reflexivity; exfalso; dlia.
  Qed.

  Lemma touch_iscenter r q : isdata lay q ->
    iscenter lay (touch_center r q) /\ ecolor (touch_center r q) = r mod 3.
  Proof.
    intros Hq. destruct (isdata_ex q Hq) as (a & b & -> & Hb). unfold touch_center.
    destruct (wrap_rep lay Hv (cadd (4 * a + 2, 2 * b) (touch_off r (4 * a + 2, 2 * b)))) as (t & u & Ew & Hbox).
    unfold iscenter. rewrite Ew in *. unfold cadd in *. clear Ew.
    unfold isvert, ishoriz, ecolor.
    destruct (touch_off_cases r a b) as [[E ?]|[[E ?]|[[E ?]|[E ?]]]]; rewrite E in *; cbn [fst snd] in *; clear E.
    - split; [split; [exact Hbox|left; split; clear; dlia]|].
      destruct (Z.eqb_spec ((4 * a + 2 + 0 + 8 * t) mod 4) 2); [|exfalso; dlia]. clear - H. dlia.
    - split; [split; [exact Hbox|left; split; clear; dlia]|].
      destruct (Z.eqb_spec ((4 * a + 2 + 0 + 8 * t) mod 4) 2); [|exfalso; dlia]. clear - H. dlia.
    - destruct H as [H H']. split; [split; [exact Hbox|right; split; clear - H'; dlia]|].
      destruct (Z.eqb_spec ((4 * a + 2 + 2 + 8 * t) mod 4) 2); [exfalso; dlia|]. clear - H. dlia.
    - destruct H as [H H']. split; [split; [exact Hbox|right; split; clear - H'; dlia]|].
      destruct (Z.eqb_spec ((4 * a + 2 + -2 + 8 * t) mod 4) 2); [exfalso; dlia|]. clear - H. dlia.
  Qed.

  Lemma touch_edge r q : isdata lay q ->
    edge_at lay (touch_center r q) =
    if data_qubit_parity q then mkEdge (partner r q) q (touch_center r q)
    else mkEdge q (partner r q) (touch_center r q).
  Proof.
    intros Hq.
    assert (E : edge_at lay (touch_center r q) = Edge q (partner r q) (touch_center r q)).
    { destruct (isdata_ex q Hq) as (a & b & -> & Hb).
      assert (Hw : wrap lay (4 * a + 2, 2 * b) = (4 * a + 2, 2 * b)) by now apply wrap_id.
      unfold edge_at, touch_center at 1, partner.
      destruct (wrap_rep lay Hv (cadd (4 * a + 2, 2 * b) (touch_off r (4 * a + 2, 2 * b)))) as (t & u & Ew & _).
      unfold touch_center. rewrite !wrap_idem_add. rewrite Ew at 1. clear Ew.
      destruct (touch_off_cases r a b) as [[E _]|[[E _]|[[E _]|[E _]]]]; rewrite E in *; unfold cadd, cscale; cbn [fst snd] in *; clear E.
      - destruct (Z.eqb_spec ((4 * a + 2 + 0 + 8 * t) mod 4) 2); [|exfalso; dlia].
        f_equal; [rewrite <- Hw|]; f_equal; f_equal; lia.
      - destruct (Z.eqb_spec ((4 * a + 2 + 0 + 8 * t) mod 4) 2); [|exfalso; dlia]. rewrite Edge_swap'.
        f_equal; [rewrite <- Hw|]; f_equal; f_equal; lia.
      - destruct (Z.eqb_spec ((4 * a + 2 + 2 + 8 * t) mod 4) 2); [exfalso; dlia|].
        f_equal; [rewrite <- Hw|]; f_equal; f_equal; lia.
      - destruct (Z.eqb_spec ((4 * a + 2 + -2 + 8 * t) mod 4) 2); [exfalso; dlia|]. rewrite Edge_swap'.
        f_equal; [rewrite <- Hw|]; f_equal; f_equal; lia. }
    rewrite E. pose proof (partner_parity r q Hq) as Hp.
    destruct (data_qubit_parity q) eqn:Eq; simpl in Hp; [apply Edge_tf | apply Edge_ft]; assumption.
  Qed.

  Lemma touch_off_partner r q : isdata lay q -> touch_off r (partner r q) = cscale (-1) (touch_off r q).
  Proof.
    intros Hq. destruct (isdata_ex q Hq) as (a & b & -> & _). unfold partner.
    destruct (wrap_rep lay Hv (cadd (4 * a + 2, 2 * b) (cscale 2 (touch_off r (4 * a + 2, 2 * b))))) as (t & u & Ew & _).
    rewrite Ew. clear Ew Hq. unfold cadd.
    destruct (touch_off_cases r a b) as [[E H]|[[E H]|[[E [H H']]|[E [H H']]]]]; rewrite E; unfold cscale; cbn [fst snd].
    - replace (4 * a + 2 + 2 * 0 + 8 * t, 2 * b + 2 * 1 + 12 * u) with (4 * (a + 2 * t) + 2, 2 * (b + 1 + 6 * u)) by (f_equal; lia).
      destruct (touch_off_cases r (a + 2 * t) (b + 1 + 6 * u)) as [[E2 G]|[[E2 G]|[[E2 [G G']]|[E2 [G G']]]]]; rewrite E2; try reflexivity; exfalso; dlia.
    - replace (4 * a + 2 + 2 * 0 + 8 * t, 2 * b + 2 * -1 + 12 * u) with (4 * (a + 2 * t) + 2, 2 * (b - 1 + 6 * u)) by (f_equal; lia).
      destruct (touch_off_cases r (a + 2 * t) (b - 1 + 6 * u)) as [[E2 G]|[[E2 G]|[[E2 [G G']]|[E2 [G G']]]]]; rewrite E2; try reflexivity; exfalso; dlia.
    - replace (4 * a + 2 + 2 * 2 + 8 * t, 2 * b + 2 * 0 + 12 * u) with (4 * (a + 1 + 2 * t) + 2, 2 * (b + 6 * u)) by (f_equal; lia).
      destruct (touch_off_cases r (a + 1 + 2 * t) (b + 6 * u)) as [[E2 G]|[[E2 G]|[[E2 [G G']]|[E2 [G G']]]]]; rewrite E2; try reflexivity; exfalso; dlia.
    - replace (4 * a + 2 + 2 * -2 + 8 * t, 2 * b + 2 * 0 + 12 * u) with (4 * (a - 1 + 2 * t) + 2, 2 * (b + 6 * u)) by (f_equal; lia).
      destruct (touch_off_cases r (a - 1 + 2 * t) (b + 6 * u)) as [[E2 G]|[[E2 G]|[[E2 [G G']]|[E2 [G G']]]]]; rewrite E2; try reflexivity; exfalso; dlia.
  Qed.

  Lemma touch_partner r q : isdata lay q ->
    touch_center r (partner r q) = touch_center r q /\ partner r (partner r q) = q.
  Proof.
    intros Hq. pose proof (touch_off_partner r q Hq) as Ht.
    assert (Hw : wrap lay q = q) by (apply wrap_id, Hq).
    unfold touch_center. unfold partner at 3. rewrite Ht. unfold partner. rewrite !wrap_idem_add.
    unfold cadd, cscale. cbn [fst snd]. split.
    - f_equal. f_equal; lia.
    - transitivity (wrap lay q); [|exact Hw]. f_equal. destruct q; cbn [fst snd]; f_equal; lia.
  Qed.

  (** Every edge centre is the touching centre of both its end points. *)
  Lemma center_ends c : iscenter lay c ->
    let e := edge_at lay c in
    isdata lay (e_left e) /\ data_qubit_parity (e_left e) = false /\
    touch_center (ecolor c) (e_left e) = c /\ e_right e = partner (ecolor c) (e_left e).
  Proof.
    intros [Hb Hk]. cbv zeta.
    assert (H : exists q, isdata lay q /\ touch_center (ecolor c) q = c).
    { destruct c as [X Y]. destruct Hk as [[H1 H2]|[H1 H2]]; cbn [fst snd] in *.
      - exists (X, Y - 1). unfold inbox in Hb; cbn [fst snd] in Hb.
        apply mod_ex in H1, H2. destruct H1 as [a ->], H2 as [b ->].
        split; [unfold isdata, inbox; cbn [fst snd]; dlia|].
        unfold touch_center, ecolor. cbn [fst snd].
        replace ((4 * a + 2) mod 4 =? 2) with true by (symmetry; apply Z.eqb_eq; dlia).
        replace (2 * b + 1 - 1) with (2 * b) by lia.
        destruct (touch_off_cases ((2 * b / 2 + 2) mod 3) a b) as [[E H]|[[E H]|[[E H]|[E H]]]];
          try (exfalso; dlia). rewrite E. unfold cadd; cbn [fst snd].
        rewrite wrap_id; [f_equal; lia|]. unfold inbox; cbn [fst snd]. lia.
      - apply mod_ex in H1. destruct H1 as [b ->]. apply mod_cong in H2; [|lia]. destruct H2 as [k ->].
        set (X := 2 * (2 * b + 0) + 4 + 8 * k) in *.
        exists (wrap lay (X + 2, 2 * b + 0)).
        destruct (wrap_rep lay Hv (X + 2, 2 * b + 0)) as (t & u & Ew & Hbox).
        split; [split; [exact Hbox|]; rewrite Ew; unfold X; cbn [fst snd]; split; dlia|].
        unfold touch_center. rewrite wrap_idem_add.
        assert (Et : touch_off (ecolor (X, 2 * b + 0)) (wrap lay (X + 2, 2 * b + 0)) = (-2, 0)).
        { rewrite Ew. unfold X. cbn [fst snd].
          replace (2 * (2 * b + 0) + 4 + 8 * k + 2 + 8 * t, 2 * b + 0 + 12 * u) with
            (4 * (b + 1 + 2 * k + 2 * t) + 2, 2 * (b + 6 * u)) by (f_equal; lia).
          unfold ecolor. cbn [fst snd].
          replace ((2 * (2 * b + 0) + 4 + 8 * k) mod 4 =? 2) with false by (symmetry; apply Z.eqb_neq; dlia).
          destruct (touch_off_cases (((2 * b + 0) / 2) mod 3) (b + 1 + 2 * k + 2 * t) (b + 6 * u)) as [[E H]|[[E H]|[[E [H H']]|[E [H H']]]]];
          [exfalso; dlia | exfalso; dlia | exfalso; clear - H'; dlia | exact E]. }
        rewrite Et. unfold cadd; cbn [fst snd].
        transitivity (wrap lay (X, 2 * b + 0)); [f_equal; f_equal; lia | apply wrap_id; exact Hb]. }
    destruct H as (q & Hq & Ec).
    pose proof (touch_edge (ecolor c) q Hq) as He. rewrite Ec in He. rewrite He.
    destruct (data_qubit_parity q) eqn:Eq; cbn [e_left e_right].
    2: { repeat split; try assumption; apply Hq. }
    pose proof (partner_isdata (ecolor c) q Hq) as Hp.
    pose proof (partner_parity (ecolor c) q Hq) as Hpp. rewrite Eq in Hpp. simpl in Hpp.
    split; [exact Hp|]. split; [exact Hpp|].
    destruct (touch_partner (ecolor c) q Hq) as [H1 H2]. rewrite H1, H2. auto.
  Qed.
End E.
