(** Undetected errors of the code that the checks of one round leave behind, in grid
    coordinates.  Used by Prop_Distance.v. *)
From Verif Require Import Prelude Layout LayoutFacts LayoutEdges LayoutLists LayoutHex LayoutHex2 Pauli LayoutObs LayoutLogic Torus.
Open Scope Z_scope.

Lemma period_mult {A} (f : Z -> A) p : (forall c, f (c + p) = f c) -> forall k c, f (c + p * k) = f c.
Proof.
  intros H k c. revert k. apply (step_Z (fun k => f (c + p * k) = f c)); [f_equal; lia|].
  intros k. replace (c + p * (k + 1)) with (c + p * k + p) by lia. now rewrite H.
Qed.
Lemma bits_two r x y : anti2 x (pbits (xyz r)) = anti2 y (pbits (xyz r)) ->
  anti2 x (pbits (xyz (r + 1))) = anti2 y (pbits (xyz (r + 1))) -> x = y.
Proof.
  unfold xyz. assert (r mod 3 = 0 /\ (r + 1) mod 3 = 1 \/ r mod 3 = 1 /\ (r + 1) mod 3 = 2 \/ r mod 3 = 2 /\ (r + 1) mod 3 = 0) by dlia.
  destruct x as [[] []], y as [[] []]; decompose [or and] H; rewrite ?H0, ?H1, ?H2; cbn; congruence.
Qed.
Lemma anti_third r x : anti2 x (pbits (xyz (r + 2))) = xorb (anti2 x (pbits (xyz r))) (anti2 x (pbits (xyz (r + 1)))).
Proof.
  unfold xyz. assert (r mod 3 = 0 /\ (r + 1) mod 3 = 1 /\ (r + 2) mod 3 = 2 \/ r mod 3 = 1 /\ (r + 1) mod 3 = 2 /\ (r + 2) mod 3 = 0 \/ r mod 3 = 2 /\ (r + 1) mod 3 = 0 /\ (r + 2) mod 3 = 1) by dlia.
  destruct x as [[] []]; decompose [or and] H; repeat match goal with E : _ mod 3 = _ |- _ => rewrite E; clear E end; reflexivity.
Qed.
Lemma anti2_if (c : bool) x y : anti2 (if c then x else bzero) y = c && anti2 x y.
Proof. destruct c; [reflexivity | apply anti2_zero_l]. Qed.

Section D.
  Variable lay : layout.
  Hypothesis Hv : valid lay.
  Notation tw := (tile_width lay).
  Notation th := (tile_height lay).
  Ltac tiles := pose proof (tw_pos lay Hv); pose proof (th_pos lay Hv).
  Notation partner := (partner lay).

  (** Data qubit in column i, row j, and the hex between columns c-1 and c at row y, on
      all the integers. *)
  Definition Q (i j : Z) : cpx := wrap lay (4 * i + 2, 2 * j).
  Definition Hd (c y : Z) : cpx := wrap lay (4 * c, 2 * y).

  Lemma wrap_ab x y : exists t u, wrap lay (x, y) = (x + 8 * tw * t, y + 12 * th * u).
  Proof.
    tiles. unfold wrap, coord_width2, coord_height2. cbn [fst snd].
    exists (- (x / (8 * tw))), (- (y / (12 * th))). f_equal; rewrite Z.mod_eq by lia; lia.
  Qed.
  Lemma wrap_per x y t u : wrap lay (x + 8 * tw * t, y + 12 * th * u) = wrap lay (x, y).
  Proof.
    tiles. unfold wrap, coord_width2, coord_height2. cbn [fst snd].
    replace (x + 8 * tw * t) with (x + t * (8 * tw)) by lia. replace (y + 12 * th * u) with (y + u * (12 * th)) by lia.
    f_equal; apply Z.mod_add; lia.
  Qed.
  Lemma Q_per_i i j : Q (i + 2 * tw) j = Q i j.
  Proof. unfold Q. rewrite <- (wrap_per (4 * i + 2) (2 * j) 1 0). f_equal. f_equal; lia. Qed.
  Lemma Q_per_j i j : Q i (j + 6 * th) = Q i j.
  Proof. unfold Q. rewrite <- (wrap_per (4 * i + 2) (2 * j) 0 1). f_equal. f_equal; lia. Qed.
  Lemma Q_isdata i j : isdata lay (Q i j).
  Proof.
    unfold Q. destruct (wrap_rep lay Hv (4 * i + 2, 2 * j)) as (t & u & E & Hb). split; [exact Hb|]. rewrite E. cbn [fst snd]. split; dlia.
  Qed.
  Lemma isdata_Q q : isdata lay q -> q = Q (fst q / 4) (snd q / 2).
  Proof.
    intros Hq. destruct (isdata_ex lay q Hq) as (a & b & -> & Hb). unfold Q. cbn [fst snd].
    replace ((4 * a + 2) / 4) with a by dlia. replace (2 * b / 2) with b by dlia. symmetry. apply wrap_id, Hb.
  Qed.
  Lemma Hd_ishex c y : (c + y) mod 2 = 0 -> ishex lay (Hd c y) /\ hexcat (Hd c y) = y mod 3.
  Proof.
    intros H. unfold Hd. destruct (wrap_rep lay Hv (4 * c, 2 * y)) as (t & u & E & Hb). unfold ishex, hexcat.
    split; [split; [exact Hb|]|]; rewrite E; cbn [fst snd]; [split|]; dlia.
  Qed.

  Lemma partner_Q r i j : partner r (Q i j) =
    match (r - j) mod 3 with 2 => Q i (j + 1) | 1 => Q i (j - 1) | _ => if (i + j) mod 2 =? 0 then Q (i + 1) j else Q (i - 1) j end.
  Proof.
    unfold LayoutEdges.partner, Q at 1. rewrite wrap_idem_add. unfold Q at 1.
    destruct (wrap_rep lay Hv (4 * i + 2, 2 * j)) as (t & u & -> & _). cbn [fst snd].
    replace (4 * i + 2 + 8 * t, 2 * j + 12 * u) with (4 * (i + 2 * t) + 2, 2 * (j + 6 * u)) by (f_equal; lia).
    destruct (touch_off_cases r (i + 2 * t) (j + 6 * u)) as [[-> E]|[[-> E]|[[-> [E F]]|[-> [E F]]]]].
    - replace ((r - j) mod 3) with 2 by dlia. unfold Q, cadd, cscale. cbn [fst snd]. f_equal. f_equal; lia.
    - replace ((r - j) mod 3) with 1 by dlia. unfold Q, cadd, cscale. cbn [fst snd]. f_equal. f_equal; lia.
    - replace ((r - j) mod 3) with 0 by dlia. replace ((i + j) mod 2) with 0 by dlia. cbn [Z.eqb]. unfold Q, cadd, cscale. cbn [fst snd]. f_equal. f_equal; lia.
    - replace ((r - j) mod 3) with 0 by dlia. replace ((i + j) mod 2) with 1 by dlia. cbn [Z.eqb]. unfold Q, cadd, cscale. cbn [fst snd]. f_equal. f_equal; lia.
  Qed.

  Lemma hexq_Q c i j : hexq lay c (Q i j) =
    match (c - j) mod 3 with
    | 0 => Hd (if (i + j) mod 2 =? 0 then i else i + 1) j
    | 1 => Hd (if (i + j) mod 2 =? 0 then i + 1 else i) (j + 1)
    | _ => Hd (if (i + j) mod 2 =? 0 then i + 1 else i) (j - 1)
    end.
  Proof.
    unfold hexq, Q at 1. rewrite wrap_idem_add. unfold Q.
    destruct (wrap_rep lay Hv (4 * i + 2, 2 * j)) as (t & u & -> & _). cbn [fst snd].
    replace (4 * i + 2 + 8 * t, 2 * j + 12 * u) with (4 * (i + 2 * t) + 2, 2 * (j + 6 * u)) by (f_equal; lia).
    rewrite hex_off_ab. cbv zeta.
    replace ((c - (j + 6 * u)) mod 3) with ((c - j) mod 3) by dlia. replace ((i + 2 * t - (j + 6 * u)) mod 2) with ((i + j) mod 2) by dlia.
    assert ((c - j) mod 3 = 0 \/ (c - j) mod 3 = 1 \/ (c - j) mod 3 = 2) as [->|[->| ->]] by dlia;
      destruct ((i + j) mod 2 =? 0); cbn [Z.eqb Pos.eqb]; unfold Hd, cadd; cbn [fst snd]; f_equal; f_equal; lia.
  Qed.

  (** The syndrome of an error P. *)
  Section P.
    Variable P : pstring.
    Definition an (s : Z) (q : cpx) : bool := anti2 (bits_at P q) (pbits (xyz s)).
    Lemma an_third s q : an (s + 2) q = xorb (an s q) (an (s + 1) q).
    Proof. apply anti_third. Qed.
    Lemma an_mod s s' q : s mod 3 = s' mod 3 -> an s q = an s' q.
    Proof. intros H. unfold an, xyz. now rewrite H. Qed.

    Lemma anti_pstr_an s l : anticommutes (pstr (xyz s) l) P = xsum (an s) l.
    Proof. rewrite anticommutes_bits. unfold pstr. rewrite xsum_map. apply xsum_ext. intros q _. cbn [fst snd]. apply anti2_sym. Qed.

    Lemma anti_hex c y : (c + y) mod 2 = 0 -> anticommutes (hex_op lay (Hd c y)) P =
      x6 (an y (Q (c - 1) (y - 1))) (an y (Q (c - 1) y)) (an y (Q (c - 1) (y + 1))) (an y (Q c (y - 1))) (an y (Q c y)) (an y (Q c (y + 1))).
    Proof.
      intros H. destruct (Hd_ishex c y H) as [_ E]. unfold hex_op. rewrite anti_pstr_an, (xsum_perm _ _ _ (qubits_around_hex_perm lay _)).
      rewrite xsum_map. unfold six, xsum, fold_right.
      rewrite !(an_mod (hexcat (Hd c y)) y) by (rewrite E; dlia).
      unfold Hd. rewrite !wrap_idem_add. unfold cadd. cbn [fst snd].
      unfold Q, x6, x3.
      replace (4 * (c - 1) + 2) with (4 * c + -2) by lia. replace (2 * (y - 1)) with (2 * y + -2) by lia. replace (2 * (y + 1)) with (2 * y + 2) by lia.
      rewrite !(Z.add_0_r (2 * y)).
      generalize (an y (wrap lay (4 * c + -2, 2 * y + 2))) (an y (wrap lay (4 * c + 2, 2 * y + -2))) (an y (wrap lay (4 * c + -2, 2 * y + -2)))
        (an y (wrap lay (4 * c + 2, 2 * y + 2))) (an y (wrap lay (4 * c + -2, 2 * y))) (an y (wrap lay (4 * c + 2, 2 * y))).
      intros [] [] [] [] [] []; reflexivity.
    Qed.

    Lemma anti_touch r q : isdata lay q -> anticommutes (edge_op (xyz r) (touch lay r q)) P = xorb (an r q) (an r (partner r q)).
    Proof.
      intros Hq. unfold edge_op. rewrite anti_pstr_an. unfold touch. rewrite touch_edge by assumption.
      destruct (data_qubit_parity q); cbn [e_left e_right xsum fold_right]; rewrite xorb_false_r; [apply xorb_comm | reflexivity].
    Qed.

    Section R.
      Variable r : Z.
      Definition undet : Prop :=
        (forall e, In e (round_edges lay r) -> anticommutes (edge_op (xyz r) e) P = false) /\
        (forall h, ishex lay h -> anticommutes (hex_op lay h) P = false).
      (** strip m, row k of the strip, column i *)
      Definition qd (k m i : Z) : cpx := Q (i + r) (r + 3 * m + k).
      Definition al (m i : Z) : bool := an r (qd 0 m i).
      Definition ga (m i : Z) : bool := an r (qd 1 m i).
      Definition bA (m i : Z) : bool := xorb (an (r + 1) (qd 0 m i)) (an (r + 1) (qd 0 m (i + 1))).
      Definition bB (m i : Z) : bool := xorb (an (r + 1) (qd 1 m i)) (an (r + 1) (qd 2 m i)).
      Definition w_ := Z.to_nat tw.
      Definition n_ := Z.to_nat th.

      Lemma qd_per_m k m i : qd k (m + Z.of_nat (2 * n_)) i = qd k m i.
      Proof. tiles. unfold qd, n_. rewrite <- (Q_per_j (i + r) (r + 3 * m + k)). f_equal. lia. Qed.
      Lemma qd_per_i k m i : qd k m (i + Z.of_nat (2 * w_)) = qd k m i.
      Proof. tiles. unfold qd, w_. rewrite <- (Q_per_i (i + r) (r + 3 * m + k)). f_equal. lia. Qed.
      Lemma Pal : periodic w_ n_ al.
      Proof. split; intros; unfold al; now rewrite ?qd_per_m, ?qd_per_i. Qed.
      Lemma Pga : periodic w_ n_ ga.
      Proof. split; intros; unfold ga; now rewrite ?qd_per_m, ?qd_per_i. Qed.
      Lemma PbA : periodic w_ n_ bA.
      Proof.
        split; intros; unfold bA; [now rewrite !qd_per_m|]. replace (i + Z.of_nat (2 * w_) + 1) with (i + 1 + Z.of_nat (2 * w_)) by lia. now rewrite !qd_per_i.
      Qed.
      Lemma PbB : periodic w_ n_ bB.
      Proof. split; intros; unfold bB; now rewrite ?qd_per_m, ?qd_per_i. Qed.

      Lemma qd_next k m i : qd (k + 3) m i = qd k (m + 1) i.
      Proof. unfold qd. f_equal. lia. Qed.
      Lemma partner_0 m i : (i + m) mod 2 = 0 -> partner r (qd 0 m i) = qd 0 m (i + 1).
      Proof.
        intros H. unfold qd. rewrite partner_Q. replace ((r - (r + 3 * m + 0)) mod 3) with 0 by dlia.
        replace ((i + r + (r + 3 * m + 0)) mod 2) with 0 by dlia. cbn [Z.eqb]. f_equal. lia.
      Qed.
      Lemma partner_0' m i : (i + m) mod 2 = 1 -> partner r (qd 0 m i) = qd 0 m (i - 1).
      Proof.
        intros H. unfold qd. rewrite partner_Q. replace ((r - (r + 3 * m + 0)) mod 3) with 0 by dlia.
        replace ((i + r + (r + 3 * m + 0)) mod 2) with 1 by dlia. cbn [Z.eqb]. f_equal. lia.
      Qed.
      Lemma partner_1 m i : partner r (qd 1 m i) = qd 2 m i.
      Proof. unfold qd. rewrite partner_Q. replace ((r - (r + 3 * m + 1)) mod 3) with 2 by dlia. f_equal. lia. Qed.
      Lemma partner_2 m i : partner r (qd 2 m i) = qd 1 m i.
      Proof. unfold qd. rewrite partner_Q. replace ((r - (r + 3 * m + 2)) mod 3) with 1 by dlia. f_equal. lia. Qed.

      (** strip and column of a data qubit *)
      Lemma isdata_qd q : isdata lay q -> exists k m i, (k = 0 \/ k = 1 \/ k = 2) /\ q = qd k m i.
      Proof.
        intros Hq. rewrite (isdata_Q q Hq). exists ((snd q / 2 - r) mod 3), ((snd q / 2 - r) / 3), (fst q / 4 - r). split; [dlia|].
        unfold qd. f_equal; dlia.
      Qed.

      Section U.
        Hypothesis HU : undet.
        Lemma an_partner q : isdata lay q -> an r (partner r q) = an r q.
        Proof.
          intros Hq. pose proof (proj1 HU _ (touch_in lay Hv r q Hq)) as K. rewrite anti_touch in K by exact Hq.
          destruct (an r q), (an r (partner r q)); cbn in K; congruence.
        Qed.
        Lemma an_2 m i : an r (qd 2 m i) = ga m i.
        Proof. unfold ga. rewrite <- partner_1. apply an_partner, Q_isdata. Qed.
        Lemma E0 m i : (i + m) mod 2 = 0 -> al m i = al m (i + 1).
        Proof. intros H. unfold al. rewrite <- (partner_0 m i H). symmetry. apply an_partner, Q_isdata. Qed.
        Lemma hex_zero c y : (c + y) mod 2 = 0 ->
          x6 (an y (Q (c - 1) (y - 1))) (an y (Q (c - 1) y)) (an y (Q (c - 1) (y + 1))) (an y (Q c (y - 1))) (an y (Q c y)) (an y (Q c (y + 1))) = false.
        Proof. intros H. rewrite <- anti_hex by exact H. apply HU, Hd_ishex, H. Qed.
        Lemma Hr m c : (c + m) mod 2 = 0 ->
          x6 (ga (m - 1) (c - 1)) (al m (c - 1)) (ga m (c - 1)) (ga (m - 1) c) (al m c) (ga m c) = false.
        Proof.
          intros H. pose proof (hex_zero (c + r) (r + 3 * m) ltac:(dlia)) as K. rewrite !(an_mod (r + 3 * m) r) in K by dlia.
          rewrite <- !(an_2 (m - 1)). unfold al, ga, qd.
          replace (r + 3 * (m - 1) + 2) with (r + 3 * m - 1) by lia. replace (r + 3 * m + 0) with (r + 3 * m) by lia.
          replace (c - 1 + r) with (c + r - 1) by lia. exact K.
        Qed.
        Lemma H1 m i : (i + m) mod 2 = 0 -> x3 (bA m i) (bB m i) (bB m (i + 1)) = false.
        Proof.
          intros H. pose proof (hex_zero (i + 1 + r) (r + 3 * m + 1) ltac:(dlia)) as K. rewrite !(an_mod (r + 3 * m + 1) (r + 1)) in K by dlia.
          unfold bA, bB, qd.
          replace (r + 3 * m + 1 - 1) with (r + 3 * m + 0) in K by lia. replace (r + 3 * m + 1 + 1) with (r + 3 * m + 2) in K by lia.
          replace (i + 1 + r - 1) with (i + r) in K by lia. revert K. unfold x6, x3.
          generalize (an (r + 1) (Q (i + r) (r + 3 * m + 0))) (an (r + 1) (Q (i + r) (r + 3 * m + 1))) (an (r + 1) (Q (i + r) (r + 3 * m + 2)))
            (an (r + 1) (Q (i + 1 + r) (r + 3 * m + 0))) (an (r + 1) (Q (i + 1 + r) (r + 3 * m + 1))) (an (r + 1) (Q (i + 1 + r) (r + 3 * m + 2))).
          intros [] [] [] [] [] []; cbn; congruence.
        Qed.
        Lemma H2 m i : (i + m) mod 2 = 1 -> x3 (bA (m + 1) i) (bB m i) (bB m (i + 1)) = false.
        Proof.
          intros H. pose proof (hex_zero (i + 1 + r) (r + 3 * m + 2) ltac:(dlia)) as K. rewrite !(an_mod (r + 3 * m + 2) (r + 2)) in K by dlia.
          rewrite !an_third in K.
          replace (r + 3 * m + 2 - 1) with (r + 3 * m + 1) in K by lia. replace (r + 3 * m + 2 + 1) with (r + 3 * (m + 1) + 0) in K by lia.
          replace (i + 1 + r - 1) with (i + r) in K by lia. fold (qd 0 (m + 1) i) (qd 0 (m + 1) (i + 1)) (qd 1 m i) (qd 1 m (i + 1)) (qd 2 m i) (qd 2 m (i + 1)) in K.
          rewrite !an_2 in K. fold (al (m + 1) i) (al (m + 1) (i + 1)) (ga m i) (ga m (i + 1)) in K. rewrite (E0 (m + 1) i) in K by dlia.
          unfold bA, bB. revert K. unfold x6, x3.
          generalize (al (m + 1) (i + 1)) (ga m i) (ga m (i + 1)) (an (r + 1) (qd 0 (m + 1) i)) (an (r + 1) (qd 0 (m + 1) (i + 1)))
            (an (r + 1) (qd 1 m i)) (an (r + 1) (qd 1 m (i + 1))) (an (r + 1) (qd 2 m i)) (an (r + 1) (qd 2 m (i + 1))).
          intros [] [] [] [] [] [] [] [] []; cbn; congruence.
        Qed.
      End U.
    End R.
  End P.

  (** ** Products of stabilizers and checks *)
  Lemma bits_one {A} (op : A -> pstring) l x q : NoDup l -> In x l -> (forall y, In y l -> y <> x -> bits_at (op y) q = bzero) ->
    bits_at (flat_map op l) q = bits_at (op x) q.
  Proof.
    intros Hn. induction Hn as [|y l Hy Hn IH]; intros Hin H; [destruct Hin|]. cbn [flat_map]. rewrite bits_at_app. destruct Hin as [->|Hin].
    - replace (bits_at (flat_map op l) q) with bzero; [apply bxor_zero_r|]. symmetry. rewrite bits_at_concat.
      assert (K : forall z, In z l -> bits_at (op z) q = bzero) by (intros z Hz; apply H; [right; exact Hz | intros ->; contradiction]).
      clear - K. induction l as [|z l IH]; [reflexivity|]. cbn [fold_right]. rewrite K by (left; reflexivity). rewrite IH by (intros; apply K; right; assumption). reflexivity.
    - rewrite (H y) by (first [left; reflexivity | intros ->; contradiction]). rewrite bxor_zero_l. apply IH; [exact Hin|]. intros z Hz. apply H. right. exact Hz.
  Qed.
  Lemma bits_none {A} (op : A -> pstring) l q : (forall y, In y l -> bits_at (op y) q = bzero) -> bits_at (flat_map op l) q = bzero.
  Proof.
    induction l as [|y l IH]; intros H; [reflexivity|]. cbn [flat_map]. rewrite bits_at_app, H by (left; reflexivity).
    rewrite IH by (intros; apply H; right; assumption). reflexivity.
  Qed.
  Lemma bits_hex h q : ishex lay h -> bits_at (hex_op lay h) q = if cmem q (qubits_around_hex lay h) then pbits (xyz (hexcat h)) else bzero.
  Proof. intros Hh. unfold hex_op. apply bits_at_pstr, NoDup_around; assumption. Qed.
  Lemma xyz_mod c : xyz (c mod 3) = xyz c.
  Proof. apply xyz_eq. dlia. Qed.

  Definition sel_hexes (F : cpx -> bool) (c : Z) : list cpx := filter F (hexes lay (c mod 3)).
  Lemma bits_sel_hexes F c q : isdata lay q ->
    bits_at (flat_map (hex_op lay) (sel_hexes F c)) q = if F (hexq lay c q) then pbits (xyz c) else bzero.
  Proof.
    intros Hq. destruct (hexq_ishex lay Hv c q Hq) as [Hh Hc].
    assert (K : forall h, In h (sel_hexes F c) -> h <> hexq lay c q -> bits_at (hex_op lay h) q = bzero).
    { intros h Hin Hne. unfold sel_hexes in Hin. apply filter_In in Hin. destruct Hin as [Hin _]. apply in_hexes in Hin; [|exact Hv]. destruct Hin as [Hx Hcat].
      rewrite bits_hex by exact Hx. replace (cmem q _) with false; [reflexivity|]. symmetry. apply cmem_false. intros Hin. apply in_around in Hin; [|exact Hv | exact Hx].
      destruct Hin as [_ E]. apply Hne. rewrite <- E. rewrite Hcat. unfold hexq, hex_off. f_equal. f_equal.
      replace ((c mod 3 - snd q / 2) mod 3) with ((c - snd q / 2) mod 3); [reflexivity|]. generalize (snd q / 2). intros. dlia. }
    destruct (F (hexq lay c q)) eqn:E.
    - rewrite (bits_one _ _ (hexq lay c q)); [| apply NoDup_filter, NoDup_hexes; exact Hv | | exact K].
      + rewrite bits_hex by exact Hh. rewrite Hc, xyz_mod. replace (cmem q _) with true; [reflexivity|]. symmetry. apply cmem_In, in_around; [exact Hv | exact Hh|].
        split; [exact Hq|]. rewrite Hc. unfold hexq, hex_off. f_equal. f_equal.
        replace ((c mod 3 - snd q / 2) mod 3) with ((c - snd q / 2) mod 3); [reflexivity|]. generalize (snd q / 2). intros. dlia.
      + apply filter_In. split; [|exact E]. apply in_hexes; [exact Hv|]. auto.
    - apply bits_none. intros h Hin. apply K; [exact Hin|]. intros ->. unfold sel_hexes in Hin. apply filter_In in Hin. destruct Hin. congruence.
  Qed.
  Lemma bits_sel_hexes_out F c q : ~ isdata lay q -> bits_at (flat_map (hex_op lay) (sel_hexes F c)) q = bzero.
  Proof.
    intros Hq. apply bits_none. intros h Hin. unfold sel_hexes in Hin. apply filter_In in Hin. destruct Hin as [Hin _]. apply in_hexes in Hin; [|exact Hv]. destruct Hin as [Hx _].
    rewrite bits_hex by exact Hx. replace (cmem q _) with false; [reflexivity|]. symmetry. apply cmem_false. intros Hin. apply in_around in Hin; [|exact Hv | exact Hx]. tauto.
  Qed.

  Definition on_data (P : pstring) : Prop := forall p q, In (p, q) P -> isdata lay q.
  Lemma bits_out P q : on_data P -> ~ isdata lay q -> bits_at P q = bzero.
  Proof.
    intros H Hq. induction P as [|[p x] P IH]; [reflexivity|]. cbn [bits_at fold_right fst snd]. destruct (cpx_eqb x q) eqn:E.
    - apply cpx_eqb_eq in E. subst x. exfalso. apply Hq, (H p). left. reflexivity.
    - apply IH. intros p' x' Hin. apply (H p'). right. exact Hin.
  Qed.

  Section Fill.
    Variable r : Z.
    (** The coefficient of a hex, from its column and strip. *)
    Definition coef (f : Z -> Z -> bool) (h : cpx) : bool := f ((snd h / 2 - r) / 3) (fst h / 4 - r).
    Lemma coef_Hd f m c k : periodic (w_) (n_) f -> 0 <= k < 3 -> coef f (Hd (c + r) (r + 3 * m + k)) = f m c.
    Proof.
      intros [P1 P2] Hk. tiles. unfold coef, Hd. destruct (wrap_ab (4 * (c + r)) (2 * (r + 3 * m + k))) as (t & u & ->). cbn [fst snd].
      replace ((2 * (r + 3 * m + k) + 12 * th * u) / 2 - r) with (k + (m + Z.of_nat (2 * n_) * u) * 3).
      2:{ replace (2 * (r + 3 * m + k) + 12 * th * u) with ((r + 3 * m + k + 6 * th * u) * 2) by lia. rewrite Z.div_mul by lia. unfold n_. rewrite Nat2Z.inj_mul, Z2Nat.id by lia. lia. }
      rewrite Z.div_add by lia. rewrite (Z.div_small k) by lia. rewrite Z.add_0_l.
      replace ((4 * (c + r) + 8 * tw * t) / 4 - r) with (c + Z.of_nat (2 * w_) * t).
      2:{ replace (4 * (c + r) + 8 * tw * t) with ((c + r + 2 * tw * t) * 4) by lia. rewrite Z.div_mul by lia. unfold w_. rewrite Nat2Z.inj_mul, Z2Nat.id by lia. lia. }
      rewrite (period_mult (fun x => f (m + Z.of_nat (2 * n_) * u) x) _ (P2 _)).
      apply (period_mult (fun x => f x c)). intros. apply P1.
    Qed.
    Variables (f t : Z -> Z -> bool) (g : cpx -> bool).
    Hypothesis Pf : periodic (w_) (n_) f.
    Hypothesis Pt : periodic (w_) (n_) t.
    Hypothesis Hg : forall q, isdata lay q -> g (partner r q) = g q.
    Definition filled : pstring :=
      flat_map (edge_op (xyz r)) (filter (fun e => g (e_left e)) (round_edges lay r)) ++
      flat_map (hex_op lay) (sel_hexes (coef f) r ++ sel_hexes (coef t) (r + 1) ++ sel_hexes (coef t) (r + 2)).
    Lemma bits_filled q : isdata lay q -> bits_at filled q =
      bxor (if g q then pbits (xyz r) else bzero) (bxor (if coef f (hexq lay r q) then pbits (xyz r) else bzero)
        (bxor (if coef t (hexq lay (r + 1) q) then pbits (xyz (r + 1)) else bzero) (if coef t (hexq lay (r + 2) q) then pbits (xyz (r + 2)) else bzero))).
    Proof.
      intros Hq. unfold filled. rewrite !flat_map_app, !bits_at_app, !bits_sel_hexes by exact Hq.
      rewrite (bits_round_edges lay Hv r _ g).
      2:{ intros e He. destruct (round_edge_facts lay Hv r e He) as (Hl & _ & _ & _ & E & _). rewrite E, Hg by exact Hl. now rewrite andb_diag. }
      rewrite Hg, andb_diag by exact Hq. replace (cmem q (data_qubit_coords lay)) with true; [reflexivity|].
      symmetry. apply cmem_In, in_data; assumption.
    Qed.
    Lemma pneq01 : pneq (xyz r) (xyz (r + 1)) = true. Proof. rewrite pneq_xyz. eqbs. reflexivity. Qed.
    Lemma pneq10 : pneq (xyz (r + 1)) (xyz r) = true. Proof. rewrite pneq_xyz. eqbs. reflexivity. Qed.
    Lemma pneq20 : pneq (xyz (r + 2)) (xyz r) = true. Proof. rewrite pneq_xyz. eqbs. reflexivity. Qed.
    Lemma pneq21 : pneq (xyz (r + 2)) (xyz (r + 1)) = true. Proof. rewrite pneq_xyz. eqbs. reflexivity. Qed.
    Lemma pneq_same a : pneq (xyz a) (xyz a) = false. Proof. rewrite pneq_xyz. eqbs. reflexivity. Qed.
    Lemma filled_a q : isdata lay q -> an filled r q = xorb (coef t (hexq lay (r + 1) q)) (coef t (hexq lay (r + 2) q)).
    Proof.
      intros Hq. unfold an. rewrite bits_filled by exact Hq. rewrite !anti2_bxor_l, !anti2_if, !anti2_pbits, pneq10, pneq20, pneq_same.
      now rewrite !andb_false_r, !andb_true_r, !xorb_false_l.
    Qed.
    Lemma filled_b q : isdata lay q -> an filled (r + 1) q = x3 (g q) (coef f (hexq lay r q)) (coef t (hexq lay (r + 2) q)).
    Proof.
      intros Hq. unfold an. rewrite bits_filled by exact Hq. rewrite !anti2_bxor_l, !anti2_if, !anti2_pbits, pneq01, pneq21, pneq_same.
      now rewrite !andb_false_r, !andb_true_r, !xorb_false_l.
    Qed.

    (** the hexes around each kind of qubit *)
    Lemma hex_r_0 m i : coef f (hexq lay r (qd r 0 m i)) = f m (if (i + m) mod 2 =? 0 then i else i + 1).
    Proof.
      unfold qd. rewrite hexq_Q. replace ((r - (r + 3 * m + 0)) mod 3) with 0 by dlia.
      replace ((i + r + (r + 3 * m + 0)) mod 2) with ((i + m) mod 2) by dlia.
      destruct (_ =? 0); [|replace (i + r + 1) with (i + 1 + r) by lia]; apply coef_Hd; auto; lia.
    Qed.
    Lemma hex_r_1 m i : coef f (hexq lay r (qd r 1 m i)) = f m (if (i + m) mod 2 =? 0 then i else i + 1).
    Proof.
      unfold qd. rewrite hexq_Q. replace ((r - (r + 3 * m + 1)) mod 3) with 2 by dlia.
      replace ((i + r + (r + 3 * m + 1)) mod 2) with (1 - (i + m) mod 2) by dlia.
      destruct (Z.eqb_spec ((i + m) mod 2) 0) as [E|E], (Z.eqb_spec (1 - (i + m) mod 2) 0); try (exfalso; dlia);
        [|replace (i + r + 1) with (i + 1 + r) by lia]; (replace (r + 3 * m + 1 - 1) with (r + 3 * m + 0) by lia); apply coef_Hd; auto; lia.
    Qed.
    Lemma hex_r_2 m i : coef f (hexq lay r (qd r 2 m i)) = f (m + 1) (if (i + m) mod 2 =? 0 then i + 1 else i).
    Proof.
      unfold qd. rewrite hexq_Q. replace ((r - (r + 3 * m + 2)) mod 3) with 1 by dlia.
      replace ((i + r + (r + 3 * m + 2)) mod 2) with ((i + m) mod 2) by dlia.
      destruct (_ =? 0); [replace (i + r + 1) with (i + 1 + r) by lia|]; (replace (r + 3 * m + 2 + 1) with (r + 3 * (m + 1) + 0) by lia); apply coef_Hd; auto; lia.
    Qed.
    Lemma hex_r1_0 m i : coef t (hexq lay (r + 1) (qd r 0 m i)) = t m (if (i + m) mod 2 =? 0 then i + 1 else i).
    Proof.
      unfold qd. rewrite hexq_Q. replace ((r + 1 - (r + 3 * m + 0)) mod 3) with 1 by dlia.
      replace ((i + r + (r + 3 * m + 0)) mod 2) with ((i + m) mod 2) by dlia.
      destruct (_ =? 0); [replace (i + r + 1) with (i + 1 + r) by lia|]; (replace (r + 3 * m + 0 + 1) with (r + 3 * m + 1) by lia); apply coef_Hd; auto; lia.
    Qed.
    Lemma hex_r2_0 m i : coef t (hexq lay (r + 2) (qd r 0 m i)) = t (m - 1) (if (i + m) mod 2 =? 0 then i + 1 else i).
    Proof.
      unfold qd. rewrite hexq_Q. replace ((r + 2 - (r + 3 * m + 0)) mod 3) with 2 by dlia.
      replace ((i + r + (r + 3 * m + 0)) mod 2) with ((i + m) mod 2) by dlia.
      destruct (_ =? 0); [replace (i + r + 1) with (i + 1 + r) by lia|]; (replace (r + 3 * m + 0 - 1) with (r + 3 * (m - 1) + 2) by lia); apply coef_Hd; auto; lia.
    Qed.
    Lemma hex_r12_12 k m i : k = 1 \/ k = 2 ->
      xorb (coef t (hexq lay (r + 1) (qd r k m i))) (coef t (hexq lay (r + 2) (qd r k m i))) = xorb (t m i) (t m (i + 1)).
    Proof.
      intros Hk. unfold qd. rewrite !hexq_Q. destruct Hk as [-> | ->].
      - replace ((r + 1 - (r + 3 * m + 1)) mod 3) with 0 by dlia. replace ((r + 2 - (r + 3 * m + 1)) mod 3) with 1 by dlia.
        replace (r + 3 * m + 1 + 1) with (r + 3 * m + 2) by lia. replace (i + r + 1) with (i + 1 + r) by lia.
        destruct (_ =? 0); rewrite !coef_Hd by (auto; lia); [reflexivity | apply xorb_comm].
      - replace ((r + 1 - (r + 3 * m + 2)) mod 3) with 2 by dlia. replace ((r + 2 - (r + 3 * m + 2)) mod 3) with 0 by dlia.
        replace (r + 3 * m + 2 - 1) with (r + 3 * m + 1) by lia. replace (i + r + 1) with (i + 1 + r) by lia.
        destruct (_ =? 0); rewrite !coef_Hd by (auto; lia); [apply xorb_comm | reflexivity].
    Qed.
  End Fill.

  (** ** The four winding numbers of an undetected error decide whether it matters *)
  Definition wind (P : pstring) (r : Z) : bool * bool * bool * bool :=
    (V (n_) (al P r) (ga P r) 0, R (w_) (ga P r) 0, S_ (w_) (bB P r) 0, U (n_) (bB P r) 0).
  Definition product_of (r : Z) (P : pstring) : Prop :=
    exists es hs, (forall e, In e es -> In e (round_edges lay r)) /\ (forall h, In h hs -> ishex lay h) /\
      same_operator P (flat_map (edge_op (xyz r)) es ++ flat_map (hex_op lay) hs).

  Lemma wind_zero P r : on_data P -> undet P r -> wind P r = (false, false, false, false) -> product_of r P.
  Proof.
    intros Hd HU W. unfold wind in W. injection W as W1 W2 W3 W4.
    destruct (fill_a (w_) (n_) (al P r) (ga P r) (Pal P r) (Pga P r) (E0 P r HU) (Hr P r HU) W1 W2) as (t & Pt & Ht1 & Ht2).
    destruct (fill_b (w_) (n_) (bA P r) (bB P r) (PbB P r) (H1 P r HU) (H2 P r HU) W3 W4) as (f & Pf & Hf1 & Hf2 & Hf3).
    set (g q := x3 (an P (r + 1) q) (coef r f (hexq lay r q)) (coef r t (hexq lay (r + 2) q))).
    assert (Hg0 : forall m i, (i + m) mod 2 = 0 -> g (qd r 0 m (i + 1)) = g (qd r 0 m i)).
    { intros m i H. unfold g. rewrite <- (partner_0 r m i H) at 3. rewrite (hexq_partner lay Hv) by (first [apply Q_isdata | dlia]).
      rewrite !hex_r_0 by exact Pf. pose proof (Hf1 m i H) as K. unfold bA in K. replace ((i + m) mod 2) with 0 by lia. replace ((i + 1 + m) mod 2) with 1 by dlia.
      cbn [Z.eqb]. replace (i + 1 + 1) with (i + 2) by lia. revert K. unfold x3.
      generalize (coef r t (hexq lay (r + 2) (qd r 0 m i))) (an P (r + 1) (qd r 0 m i)) (an P (r + 1) (qd r 0 m (i + 1))) (f m i) (f m (i + 2)).
      intros [] [] [] [] []; cbn; congruence. }
    assert (Hg1 : forall m i, g (qd r 2 m i) = g (qd r 1 m i)).
    { intros m i. unfold g. rewrite <- (partner_1 r m i) at 3. rewrite (hexq_partner lay Hv) by (first [apply Q_isdata | dlia]).
      rewrite hex_r_1, hex_r_2 by exact Pf.
      assert (K : bB P r m i = xorb (f m (if (i + m) mod 2 =? 0 then i else i + 1)) (f (m + 1) (if (i + m) mod 2 =? 0 then i + 1 else i))).
      { destruct (Z.eqb_spec ((i + m) mod 2) 0) as [E|E]; [apply Hf2 | apply Hf3]; dlia. }
      unfold bB in K. revert K. unfold x3.
      generalize (coef r t (hexq lay (r + 2) (qd r 1 m i))) (an P (r + 1) (qd r 1 m i)) (an P (r + 1) (qd r 2 m i)) (f m (if (i + m) mod 2 =? 0 then i else i + 1)) (f (m + 1) (if (i + m) mod 2 =? 0 then i + 1 else i)).
      intros [] [] [] [] []; cbn; congruence. }
    assert (Hg : forall q, isdata lay q -> g (partner r q) = g q).
    { intros q Hq. destruct (isdata_qd r q Hq) as (k & m & i & [->|[->| ->]] & ->).
      - destruct (Z.eq_dec ((i + m) mod 2) 0) as [E|E]; [rewrite partner_0 by exact E; apply Hg0, E|].
        rewrite partner_0' by dlia. rewrite <- (Hg0 m (i - 1)) by dlia. f_equal. f_equal. lia.
      - rewrite partner_1. apply Hg1.
      - rewrite partner_2. symmetry. apply Hg1. }
    exists (filter (fun e => g (e_left e)) (round_edges lay r)), (sel_hexes (coef r f) r ++ sel_hexes (coef r t) (r + 1) ++ sel_hexes (coef r t) (r + 2)).
    split; [intros e He; now apply filter_In in He|]. split.
    { intros h Hin. unfold sel_hexes in Hin. rewrite !in_app_iff, !filter_In, !in_hexes in Hin by exact Hv. tauto. }
    fold (filled r f t g). intros q.
    destruct (cmem q (data_qubit_coords lay)) eqn:Eq.
    - apply cmem_In in Eq. rewrite in_data in Eq by exact Hv. apply (bits_two r).
      + fold (an P r q) (an (filled r f t g) r q). rewrite filled_a by assumption.
        destruct (isdata_qd r q Eq) as (k & m & i & Hk & ->). destruct Hk as [->|Hk].
        * rewrite hex_r1_0, hex_r2_0 by exact Pt. fold (al P r m i). destruct (Z.eqb_spec ((i + m) mod 2) 0) as [E|E].
          -- rewrite (Ht2 m i E). apply xorb_comm.
          -- replace i with (i - 1 + 1) at 1 by lia. rewrite <- (E0 P r HU m (i - 1)) by dlia. rewrite (Ht2 m (i - 1)) by dlia. replace (i - 1 + 1) with i by lia. apply xorb_comm.
        * rewrite hex_r12_12 by assumption. rewrite <- Ht1. destruct Hk as [-> | ->]; [reflexivity | now apply an_2].
      + fold (an P (r + 1) q) (an (filled r f t g) (r + 1) q). rewrite filled_b by assumption. unfold g, x3.
        generalize (an P (r + 1) q) (coef r f (hexq lay r q)) (coef r t (hexq lay (r + 2) q)). intros [] [] []; reflexivity.
    - apply cmem_false in Eq. rewrite in_data in Eq by exact Hv. rewrite (bits_out P q Hd Eq). unfold filled.
      rewrite !flat_map_app, !bits_at_app, !bits_sel_hexes_out by exact Eq.
      rewrite (bits_round_edges lay Hv r _ g).
      2:{ intros e He. destruct (round_edge_facts lay Hv r e He) as (Hl & _ & _ & _ & E & _). rewrite E, Hg by exact Hl. now rewrite andb_diag. }
      replace (cmem q (data_qubit_coords lay)) with false by (symmetry; apply cmem_false; rewrite in_data by exact Hv; exact Eq). reflexivity.
  Qed.
End D.
