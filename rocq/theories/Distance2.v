(** Weights and logical classes of undetected errors. *)
From Verif Require Import Prelude Layout LayoutFacts LayoutEdges LayoutLists LayoutHex LayoutHex2 Pauli LayoutObs LayoutLogic Torus Distance.
Open Scope Z_scope.

Section D.
  Variable lay : layout.
  Hypothesis Hv : valid lay.
  Notation tw := (tile_width lay).
  Notation th := (tile_height lay).
  Ltac tiles := pose proof (tw_pos lay Hv); pose proof (th_pos lay Hv).

  (** ** Weight *)
  Definition acts (P : pstring) (q : cpx) : bool := fst (bits_at P q) || snd (bits_at P q).
  Definition moved (P : pstring) : list cpx := filter (acts P) (data_qubit_coords lay).
  Lemma an_acts P s q : an P s q = true -> acts P q = true.
  Proof. unfold an, acts. destruct (bits_at P q) as [[] []], (pbits (xyz s)) as [[] []]; cbn; congruence. Qed.
  Lemma an_moved P s i j : an P s (Q lay i j) = true -> In (Q lay i j) (moved P).
  Proof. intros H. apply filter_In. split; [apply in_data, Q_isdata; exact Hv | eapply an_acts, H]. Qed.
  Lemma moved_count P (key : cpx -> Z) k : (forall x, 0 <= x < k -> exists q, In q (moved P) /\ key q = x) -> k <= Z.of_nat (length (moved P)).
  Proof.
    intros H. assert (K : (length (zrange 0 k) <= length (map key (moved P)))%nat).
    { apply NoDup_incl_length; [apply NoDup_zrange|]. intros x Hx. apply in_zrange in Hx. destruct (H x Hx) as (q & Hq & <-). apply in_map. exact Hq. }
    rewrite length_zrange, map_length in K. lia.
  Qed.

  Variable r : Z.
  Notation w_ := (w_ lay).
  Notation n_ := (n_ lay).
  Notation al := (al lay).
  Notation ga := (ga lay).
  Notation bA := (bA lay).
  Notation bB := (bB lay).
  Notation qd := (qd lay r).
  Lemma fst_qd k m i : fst (qd k m i) / 4 = (i + r) mod (2 * tw).
  Proof.
    tiles. unfold Distance.qd, Q, wrap, coord_width2. cbn [fst]. replace (4 * (i + r) + 2) with (2 + (i + r) * 4) by lia.
    replace (8 * tw) with (4 * (2 * tw)) by lia. rewrite Z.rem_mul_r by lia. replace ((2 + (i + r) * 4) / 4) with (i + r) by dlia.
    replace ((2 + (i + r) * 4) mod 4) with 2 by dlia. set (x := (i + r) mod (2 * tw)). dlia.
  Qed.
  Lemma snd_qd k m i : 0 <= k < 3 -> 0 <= m < 2 * th -> (snd (qd k m i) / 2 - r) mod (6 * th) = 3 * m + k.
  Proof.
    tiles. intros Hk Hm. unfold Distance.qd, Q. destruct (wrap_ab lay Hv (4 * (i + r) + 2) (2 * (r + 3 * m + k))) as (t & u & ->). cbn [snd].
    replace (2 * (r + 3 * m + k) + 12 * th * u) with ((r + 3 * m + k + 6 * th * u) * 2) by lia. rewrite Z.div_mul by lia.
    replace (r + 3 * m + k + 6 * th * u - r) with (3 * m + k + u * (6 * th)) by lia. rewrite Z.mod_add by lia. apply Z.mod_small. lia.
  Qed.

  Section W.
    Variable P : pstring.
    Hypothesis HU : undet lay P r.
    Lemma weight_V : V n_ (al P r) (ga P r) 0 = true -> 2 * tw <= Z.of_nat (length (moved P)).
    Proof.
      intros HV. tiles. apply (moved_count P (fun q => fst q / 4)). intros x Hx.
      pose proof (V_const w_ n_ (al P r) (ga P r) (Pal lay Hv P r) (Pga lay Hv P r) (E0 lay Hv P r HU) (Hr lay Hv P r HU) (x - r)) as K. rewrite HV in K.
      apply X_true in K. destruct K as (m & _ & K).
      assert (exists k, an P r (qd k m (x - r)) = true) as (k & E).
      { unfold Distance.al, Distance.ga in K. destruct (an P r (qd 0 m (x - r))) eqn:E0; [eauto|]. exists 1. now rewrite xorb_false_l in K. }
      exists (qd k m (x - r)). split; [eapply an_moved, E|]. rewrite fst_qd. replace (x - r + r) with x by lia. apply Z.mod_small. lia.
    Qed.
    Lemma weight_U : U n_ (bB P r) 0 = true -> 2 * tw <= Z.of_nat (length (moved P)).
    Proof.
      intros HV. tiles. apply (moved_count P (fun q => fst q / 4)). intros x Hx.
      pose proof (U_const w_ n_ (bA P r) (bB P r) (PbB lay Hv P r) (H1 lay Hv P r HU) (H2 lay Hv P r HU) (x - r)) as K. rewrite HV in K.
      apply X_true in K. destruct K as (m & _ & K).
      assert (exists k, an P (r + 1) (qd k m (x - r)) = true) as (k & E).
      { unfold Distance.bB in K. destruct (an P (r + 1) (qd 1 m (x - r))) eqn:E1; [eauto|]. exists 2. now rewrite xorb_false_l in K. }
      exists (qd k m (x - r)). split; [eapply an_moved, E|]. rewrite fst_qd. replace (x - r + r) with x by lia. apply Z.mod_small. lia.
    Qed.
    Lemma weight_R : R w_ (ga P r) 0 = true -> 4 * th <= Z.of_nat (length (moved P)).
    Proof.
      intros HV. tiles. apply (moved_count P (fun q => let j := (snd q / 2 - r) mod (6 * th) in 2 * (j / 3) + j mod 3 - 1)). intros x Hx.
      pose proof (R_const w_ n_ (al P r) (ga P r) (Pal lay Hv P r) (Pga lay Hv P r) (E0 lay Hv P r HU) (Hr lay Hv P r HU) (x / 2)) as K. rewrite HV in K.
      apply X_true in K. destruct K as (i & _ & K).
      exists (qd (1 + x mod 2) (x / 2) i). split.
      - apply (an_moved P r). assert (x mod 2 = 0 \/ x mod 2 = 1) as [->| ->] by dlia; [exact K|].
        change (1 + 1) with 2. fold (Distance.qd lay r 2 (x / 2) i). rewrite (an_2 lay Hv P r HU). exact K.
      - cbv zeta. rewrite snd_qd by dlia. dlia.
    Qed.
    Lemma weight_S : S_ w_ (bB P r) 0 = true -> 4 * th <= Z.of_nat (length (moved P)).
    Proof.
      intros HV. tiles. apply (moved_count P (fun q => let j := (snd q / 2 - r) mod (6 * th) in 2 * (j / 3) + if j mod 3 =? 0 then 0 else 1)). intros x Hx.
      assert (x mod 2 = 0 \/ x mod 2 = 1) as [Ex|Ex] by dlia.
      - pose proof (T_const w_ n_ (bA P r) (bB P r) (PbA lay Hv P r) (PbB lay Hv P r) (H1 lay Hv P r HU) (H2 lay Hv P r HU) (x / 2)) as K. rewrite HV in K.
        apply X_true in K. destruct K as (i & _ & K). apply andb_prop in K. destruct K as [_ K].
        assert (exists i', an P (r + 1) (qd 0 (x / 2) i') = true) as (i' & E).
        { unfold Distance.bA in K. destruct (an P (r + 1) (qd 0 (x / 2) i)) eqn:E1; [eauto|]. exists (i + 1). now rewrite xorb_false_l in K. }
        exists (qd 0 (x / 2) i'). split; [eapply an_moved, E|]. cbv zeta. rewrite snd_qd by dlia. eqbs; dlia.
      - pose proof (S_const w_ n_ (bA P r) (bB P r) (PbA lay Hv P r) (PbB lay Hv P r) (H1 lay Hv P r HU) (H2 lay Hv P r HU) (x / 2)) as K. rewrite HV in K.
        apply X_true in K. destruct K as (i & _ & K).
        assert (exists k, (k = 1 \/ k = 2) /\ an P (r + 1) (qd k (x / 2) i) = true) as (k & Hk & E).
        { unfold Distance.bB in K. destruct (an P (r + 1) (qd 1 (x / 2) i)) eqn:E1; [eauto|]. exists 2. rewrite xorb_false_l in K. auto. }
        exists (qd k (x / 2) i). split; [eapply an_moved, E|]. cbv zeta. rewrite snd_qd by dlia. destruct Hk as [-> | ->]; eqbs; dlia.
    Qed.
    Lemma weight_min : wind lay P r <> (false, false, false, false) -> Z.min (2 * tw) (4 * th) <= Z.of_nat (length (moved P)).
    Proof.
      intros H. unfold wind in H.
      pose proof weight_V. pose proof weight_R. pose proof weight_S. pose proof weight_U.
      destruct (V n_ (al P r) (ga P r) 0); [specialize (H0 eq_refl); lia|]. destruct (R w_ (ga P r) 0); [specialize (H1 eq_refl); lia|].
      destruct (S_ w_ (bB P r) 0); [specialize (H2 eq_refl); lia|]. destruct (U n_ (bB P r) 0); [specialize (H3 eq_refl); lia|]. congruence.
    Qed.
  End W.

  (** ** Logical classes *)
  Lemma an_app P P' s q : an (P ++ P') s q = xorb (an P s q) (an P' s q).
  Proof. unfold an. rewrite bits_at_app. apply anti2_bxor_l. Qed.
  Definition xor4 (a b : bool * bool * bool * bool) : bool * bool * bool * bool :=
    match a, b with (a1, a2, a3, a4), (b1, b2, b3, b4) => (xorb a1 b1, xorb a2 b2, xorb a3 b3, xorb a4 b4) end.
  Lemma wind_app P P' : wind lay (P ++ P') r = xor4 (wind lay P r) (wind lay P' r).
  Proof.
    unfold wind, xor4, V, R, S_, U. rewrite <- !X_xor. f_equal; [f_equal; [f_equal|]|]; apply X_ext; intros k _;
      unfold Distance.al, Distance.ga, Distance.bB; rewrite !an_app; bools.
  Qed.
  Lemma undet_app P P' : undet lay P r -> undet lay P' r -> undet lay (P ++ P') r.
  Proof.
    intros [A1 A2] [B1 B2]. split; intros; rewrite anticommutes_app_r; [rewrite A1, B1 by assumption | rewrite A2, B2 by assumption]; reflexivity.
  Qed.
  Lemma on_data_app P P' : on_data lay P -> on_data lay P' -> on_data lay (P ++ P').
  Proof. intros A B p q H. apply in_app_or in H. destruct H; [eapply A | eapply B]; eassumption. Qed.
  Lemma product_commutes P P' : product_of lay r P -> undet lay P' r -> anticommutes P P' = false.
  Proof.
    intros (es & hs & He & Hh & E) [A1 A2]. rewrite (anticommutes_same_l _ _ _ E), anticommutes_app_l.
    rewrite anticommutes_flat_map_l by (intros e Hin; apply A1, He, Hin). rewrite anticommutes_flat_map_l by (intros h Hin; apply A2, Hh, Hin). reflexivity.
  Qed.

  Lemma Hop_undet s : r mod 3 = (s - 1) mod 3 -> undet lay (Hop lay s) r.
  Proof.
    intros H. split.
    - intros e He. rewrite <- round_edges_mod, H, round_edges_mod in He. replace (xyz r) with (xyz (s - 1)) by (now apply xyz_eq). apply H_edge_commute; auto.
    - intros h Hh. rewrite anticommutes_sym. apply H_hex_commute; assumption.
  Qed.
  Lemma Vop_undet s : r mod 3 = (s - 1) mod 3 -> undet lay (Vop lay s) r.
  Proof.
    intros H. split.
    - intros e He. rewrite <- round_edges_mod, H, round_edges_mod in He. replace (xyz r) with (xyz (s - 1)) by (now apply xyz_eq). apply V_edge_commute; auto.
    - intros h Hh. rewrite anticommutes_sym. apply V_hex_commute; assumption.
  Qed.
  Lemma Hop_data s : on_data lay (Hop lay s).
  Proof. intros p q H. unfold Hop, pstr in H. apply in_map_iff in H. destruct H as (x & E & H). injection E as _ <-. now apply in_obs_h in H. Qed.
  Lemma Vop_data s : on_data lay (Vop lay s).
  Proof. intros p q H. unfold Vop, pstr in H. apply in_map_iff in H. destruct H as (x & E & H). injection E as _ <-. now apply in_obs_v in H. Qed.

  Variable s : Z.
  Hypothesis Hs : r mod 3 = (s - 1) mod 3.
  Definition pick (c : bool) (P : pstring) : pstring := if c then P else [].
  Definition comb (c : bool * bool * bool * bool) : pstring :=
    match c with (c1, c2, c3, c4) => pick c1 (Hop lay s) ++ pick c2 (Vop lay s) ++ pick c3 (Hop lay (s + 3)) ++ pick c4 (Vop lay (s + 3)) end.
  Lemma Hs3 : r mod 3 = (s + 3 - 1) mod 3.
  Proof. rewrite Hs. dlia. Qed.
  Lemma undet_nil : undet lay [] r.
  Proof. split; intros; rewrite anticommutes_sym; reflexivity. Qed.
  Lemma undet_pick c P : undet lay P r -> undet lay (pick c P) r.
  Proof. destruct c; [auto | intros _; apply undet_nil]. Qed.
  Lemma data_pick c P : on_data lay P -> on_data lay (pick c P).
  Proof. destruct c; [auto | intros _ p q []]. Qed.
  Lemma comb_undet c : undet lay (comb c) r.
  Proof.
    destruct c as [[[c1 c2] c3] c4]. unfold comb. repeat apply undet_app; apply undet_pick; first [apply Hop_undet | apply Vop_undet]; first [exact Hs | exact Hs3].
  Qed.
  Lemma comb_data c : on_data lay (comb c).
  Proof. destruct c as [[[c1 c2] c3] c4]. unfold comb. repeat apply on_data_app; apply data_pick; first [apply Hop_data | apply Vop_data]. Qed.
  Lemma anti_pick c P P' : anticommutes (pick c P) P' = c && anticommutes P P'.
  Proof. destruct c; reflexivity. Qed.
  (** How a combination commutes with the four observables. *)
  Definition against (P : pstring) : bool * bool * bool * bool :=
    (anticommutes P (Vop lay s), anticommutes P (Hop lay s), anticommutes P (Vop lay (s + 3)), anticommutes P (Hop lay (s + 3))).
  Lemma pstr_self p l : NoDup l -> anticommutes (pstr p l) (pstr p l) = false.
  Proof. intros H. rewrite anticommutes_pstr by exact H. now destruct p. Qed.
  Lemma against_comb c : against (comb c) = c.
  Proof.
    destruct c as [[[c1 c2] c3] c4]. unfold against, comb. rewrite !anticommutes_app_l, !anti_pick.
    assert (HH : forall x, anticommutes (Hop lay x) (Hop lay x) = false) by (intros; apply pstr_self, NoDup_obs_h; exact Hv).
    assert (VV : forall x, anticommutes (Vop lay x) (Vop lay x) = false) by (intros; apply pstr_self, NoDup_obs_v; exact Hv).
    rewrite (anticommutes_sym (Vop lay s) (Hop lay s)), (anticommutes_sym (Hop lay (s + 3)) (Vop lay s)), (anticommutes_sym (Vop lay (s + 3)) (Vop lay s)),
      (anticommutes_sym (Hop lay (s + 3)) (Hop lay s)), (anticommutes_sym (Vop lay (s + 3)) (Hop lay s)), (anticommutes_sym (Vop lay (s + 3)) (Hop lay (s + 3))).
    rewrite !HH, !VV, !HV_anti, !HV3_commute, !VH3_commute, !HH3_commute, !VV3_commute by exact Hv.
    destruct c1, c2, c3, c4; reflexivity.
  Qed.
  Lemma against_app P P' : against (P ++ P') = xor4 (against P) (against P').
  Proof. unfold against, xor4. now rewrite !anticommutes_app_l. Qed.
  Lemma against_product P : product_of lay r P -> against P = (false, false, false, false).
  Proof.
    intros H. unfold against. rewrite !(product_commutes P) by (first [exact H | apply Hop_undet | apply Vop_undet]; first [exact Hs | exact Hs3]). reflexivity.
  Qed.
  Definition all16 : list (bool * bool * bool * bool) :=
    let b := [true; false] in list_prod (list_prod (list_prod b b) b) b.
  Lemma in_all16 x : In x all16.
  Proof. destruct x as [[[a b] c] d]. unfold all16. rewrite !in_prod_iff. destruct a, b, c, d; cbn; tauto. Qed.
  Lemma xor4_zero a b : xor4 a b = (false, false, false, false) -> a = b.
  Proof. destruct a as [[[a1 a2] a3] a4], b as [[[b1 b2] b3] b4]. destruct a1, a2, a3, a4, b1, b2, b3, b4; cbn; congruence. Qed.
  Lemma xor4_self a : xor4 a a = (false, false, false, false).
  Proof. destruct a as [[[a1 a2] a3] a4]. destruct a1, a2, a3, a4; reflexivity. Qed.
  Lemma wind_inj c c' : wind lay (comb c) r = wind lay (comb c') r -> c = c'.
  Proof.
    intros E. assert (K : product_of lay r (comb c ++ comb c')).
    { apply wind_zero; [exact Hv | apply on_data_app; apply comb_data | apply undet_app; apply comb_undet | rewrite wind_app, E; apply xor4_self]. }
    apply against_product in K. rewrite against_app, !against_comb in K. now apply xor4_zero.
  Qed.
  Lemma wind_surj v : exists c, wind lay (comb c) r = v.
  Proof.
    assert (K : incl all16 (map (fun c => wind lay (comb c) r) all16)).
    { apply NoDup_length_incl; [|rewrite map_length; lia | intros x _; apply in_all16].
      apply NoDup_map_inj; [intros; now apply wind_inj|].
      assert (N : forall (A : Type) (l : list A) (b : list bool), NoDup l -> NoDup b -> NoDup (list_prod l b)).
      { intros A l b Hl Hb. induction Hl as [|x l Hx Hl IH]; [constructor|]. cbn [list_prod]. apply NoDup_app_intro; [apply NoDup_map_inj; [congruence | exact Hb] | exact IH |].
        intros y Hy Hy'. apply in_map_iff in Hy. destruct Hy as (z & <- & _). apply in_prod_iff in Hy'. tauto. }
      assert (B : NoDup [true; false]) by (repeat constructor; cbn; intuition congruence).
      unfold all16. cbv zeta. repeat apply N; exact B. }
    specialize (K v (in_all16 v)). apply in_map_iff in K. destruct K as (c & E & _). eauto.
  Qed.
  Lemma classify P : on_data lay P -> undet lay P r -> product_of lay r (comb (against P) ++ P).
  Proof.
    intros Hd HU. destruct (wind_surj (wind lay P r)) as (c & E).
    assert (K : product_of lay r (comb c ++ P)).
    { apply wind_zero; [exact Hv | apply on_data_app; [apply comb_data | exact Hd] | apply undet_app; [apply comb_undet | exact HU] | rewrite wind_app, E; apply xor4_self]. }
    pose proof K as K'. apply against_product in K'. rewrite against_app, against_comb in K'. apply xor4_zero in K'. now rewrite <- K'.
  Qed.
  Lemma product_wind P : on_data lay P -> product_of lay r P -> wind lay P r = (false, false, false, false).
  Proof.
    intros Hd HP. destruct (wind_surj (wind lay P r)) as (c & E).
    assert (HU : undet lay P r).
    { destruct HP as (es & hs & He & Hh & EP). split.
      - intros e Hin. rewrite (anticommutes_same_r _ _ _ EP), anticommutes_app_r, !(anticommutes_sym (edge_op _ _)).
        rewrite anticommutes_flat_map_l by (intros e' He'; apply (edges_commute lay Hv r); auto).
        rewrite anticommutes_flat_map_l by (intros h Hh'; rewrite anticommutes_sym; apply (edge_hex_commute lay Hv r); auto). reflexivity.
      - intros h Hin. rewrite (anticommutes_same_r _ _ _ EP), anticommutes_app_r, !(anticommutes_sym (hex_op _ _)).
        rewrite anticommutes_flat_map_l by (intros e' He'; apply (edge_hex_commute lay Hv r); auto).
        rewrite anticommutes_flat_map_l by (intros h' Hh'; apply (hexes_commute lay Hv); auto). reflexivity. }
    assert (K : product_of lay r (comb c ++ P)).
    { apply wind_zero; [exact Hv | apply on_data_app; [apply comb_data | exact Hd] | apply undet_app; [apply comb_undet | exact HU] | rewrite wind_app, E; apply xor4_self]. }
    apply against_product in K. rewrite against_app, against_comb, (against_product P HP) in K. apply xor4_zero in K. subst c.
    rewrite <- E. unfold wind, comb, V, R, S_, U. cbn [pick app]. f_equal; [f_equal; [f_equal|]|]; apply X_false; reflexivity.
  Qed.

  (** ** Which windings an observable has *)
  Lemma acts_pstr p l q : NoDup l -> acts (pstr p l) q = cmem q l.
  Proof. intros H. unfold acts. rewrite bits_at_pstr by exact H. destruct (cmem q l); [now destruct p | reflexivity]. Qed.
  Lemma moved_h x q : In q (moved (Hop lay x)) -> snd q = 0 \/ snd q = 2.
  Proof.
    intros H. apply filter_In in H. destruct H as [_ H]. unfold Hop in H. rewrite acts_pstr in H by (apply NoDup_obs_h; exact Hv).
    apply cmem_In, in_obs_h in H; [|exact Hv]. destruct H as [_ H]. unfold hmem, in_h_rows in H.
    destruct (mod6_cases x) as [E|[E|[E|[E|[E|E]]]]]; rewrite E in H; try (apply orb_prop in H; destruct H as [H|H]); apply Z.eqb_eq in H; auto.
  Qed.
  Lemma moved_v x q : In q (moved (Vop lay x)) -> fst q = 2.
  Proof.
    intros H. apply filter_In in H. destruct H as [_ H]. unfold Vop in H. rewrite acts_pstr in H by (apply NoDup_obs_v; exact Hv).
    apply cmem_In, in_obs_v in H; [|exact Hv]. destruct H as [_ H]. unfold vmem in H. apply andb_prop in H. now apply Z.eqb_eq.
  Qed.
  Lemma row_free x i y : 2 <= y <= 5 -> In (Q lay i y) (moved (Hop lay x)) -> False.
  Proof.
    tiles. intros Hy H'. apply moved_h in H'. unfold Q, wrap, coord_height2 in H'. cbn [snd] in H'. rewrite Z.mod_small in H' by lia. lia.
  Qed.
  Lemma wind_h x : r mod 3 = (x - 1) mod 3 -> exists a b, wind lay (Hop lay x) r = (a, false, false, b).
  Proof.
    intros Hx. pose proof (Hop_undet x Hx) as HU. unfold wind. exists (V n_ (al (Hop lay x) r) (ga (Hop lay x) r) 0), (U n_ (bB (Hop lay x) r) 0).
    cut (R w_ (ga (Hop lay x) r) 0 = false /\ S_ w_ (bB (Hop lay x) r) 0 = false); [intros [-> ->]; reflexivity|]. split.
    - destruct (R w_ (ga (Hop lay x) r) 0) eqn:E; [exfalso|reflexivity].
      assert (exists y, 2 <= y <= 4 /\ (y - r) mod 3 = 1) as (y & Hy & Ey) by (exists (2 + (r + 2) mod 3); dlia).
      pose proof (R_const w_ n_ _ _ (Pal lay Hv _ r) (Pga lay Hv _ r) (E0 lay Hv _ r HU) (Hr lay Hv _ r HU) ((y - r) / 3)) as K. rewrite E in K.
      apply X_true in K. destruct K as (i & _ & K). unfold Distance.ga, Distance.qd in K. replace (r + 3 * ((y - r) / 3) + 1) with y in K by dlia.
      apply an_moved in K. apply row_free in K; [exact K | lia].
    - destruct (S_ w_ (bB (Hop lay x) r) 0) eqn:E; [exfalso|reflexivity].
      assert (exists y, 2 <= y <= 4 /\ (y - r) mod 3 = 0) as (y & Hy & Ey) by (exists (2 + (r + 1) mod 3); dlia).
      pose proof (T_const w_ n_ _ _ (PbA lay Hv _ r) (PbB lay Hv _ r) (H1 lay Hv _ r HU) (H2 lay Hv _ r HU) ((y - r) / 3)) as K. rewrite E in K.
      apply X_true in K. destruct K as (i & _ & K). apply andb_prop in K. destruct K as [_ K].
      unfold Distance.bA, Distance.qd in K. replace (r + 3 * ((y - r) / 3) + 0) with y in K by dlia.
      destruct (an (Hop lay x) (r + 1) (Q lay (i + r) y)) eqn:E1; [|rewrite xorb_false_l in K; clear E1; rename K into E1];
        apply an_moved in E1; (apply row_free in E1; [exact E1 | lia]).
  Qed.
  Lemma col_free x k m : In (qd k m (1 - r)) (moved (Vop lay x)) -> False.
  Proof.
    tiles. intros H'. apply moved_v in H'. pose proof (fst_qd k m (1 - r)) as K. rewrite H' in K.
    replace (1 - r + r) with 1 in K by lia. rewrite Z.mod_small in K by lia. discriminate K.
  Qed.
  Lemma wind_v x : r mod 3 = (x - 1) mod 3 -> exists a b, wind lay (Vop lay x) r = (false, a, b, false).
  Proof.
    intros Hx. pose proof (Vop_undet x Hx) as HU. unfold wind. exists (R w_ (ga (Vop lay x) r) 0), (S_ w_ (bB (Vop lay x) r) 0).
    cut (V n_ (al (Vop lay x) r) (ga (Vop lay x) r) 0 = false /\ U n_ (bB (Vop lay x) r) 0 = false); [intros [-> ->]; reflexivity|]. split.
    - destruct (V n_ (al (Vop lay x) r) (ga (Vop lay x) r) 0) eqn:E; [exfalso|reflexivity].
      pose proof (V_const w_ n_ _ _ (Pal lay Hv _ r) (Pga lay Hv _ r) (E0 lay Hv _ r HU) (Hr lay Hv _ r HU) (1 - r)) as K. rewrite E in K.
      apply X_true in K. destruct K as (m & _ & K). unfold Distance.al, Distance.ga in K.
      destruct (an (Vop lay x) r (qd 0 m (1 - r))) eqn:E1; [|rewrite xorb_false_l in K; clear E1; rename K into E1]; apply an_moved, col_free in E1; exact E1.
    - destruct (U n_ (bB (Vop lay x) r) 0) eqn:E; [exfalso|reflexivity].
      pose proof (U_const w_ n_ _ _ (PbB lay Hv _ r) (H1 lay Hv _ r HU) (H2 lay Hv _ r HU) (1 - r)) as K. rewrite E in K.
      apply X_true in K. destruct K as (m & _ & K). unfold Distance.bB in K.
      destruct (an (Vop lay x) (r + 1) (qd 1 m (1 - r))) eqn:E1; [|rewrite xorb_false_l in K; clear E1; rename K into E1]; apply an_moved, col_free in E1; exact E1.
  Qed.
  Lemma wind_nil : wind lay [] r = (false, false, false, false).
  Proof. unfold wind, V, R, S_, U. f_equal; [f_equal; [f_equal|]|]; apply X_false; reflexivity. Qed.
  Lemma wind_pick c P : wind lay (pick c P) r = if c then wind lay P r else (false, false, false, false).
  Proof. destruct c; [reflexivity | apply wind_nil]. Qed.
  Lemma wind_classify P : on_data lay P -> undet lay P r -> wind lay P r = wind lay (comb (against P)) r.
  Proof.
    intros Hd HU. pose proof (product_wind _ (on_data_app _ _ (comb_data (against P)) Hd) (classify P Hd HU)) as K.
    rewrite wind_app in K. apply xor4_zero in K. now symmetry.
  Qed.

  (** An error that flips a horizontal observable winds vertically, and the other way round. *)
  Lemma weight_flip_h P : on_data lay P -> undet lay P r -> anticommutes P (Hop lay s) = true -> 4 * th <= Z.of_nat (length (moved P)).
  Proof.
    intros Hd HU HP. pose proof (wind_classify P Hd HU) as K.
    assert (N : wind lay (comb (false, true, false, anticommutes P (Hop lay (s + 3)))) r <> (false, false, false, false)).
    { intros E. rewrite <- wind_nil in E. change [] with (comb (false, false, false, false)) in E. apply wind_inj in E. discriminate E. }
    unfold against, comb in K, N. rewrite HP, !wind_app, !wind_pick in K. rewrite !wind_app, !wind_pick in N.
    destruct (wind_h s Hs) as (a1 & b1 & E1), (wind_h (s + 3) Hs3) as (a2 & b2 & E2), (wind_v s Hs) as (a3 & b3 & E3), (wind_v (s + 3) Hs3) as (a4 & b4 & E4).
    rewrite E1, E2, E3, E4 in K. rewrite E3, E4 in N. unfold wind in K. pose proof (weight_R P HU). pose proof (weight_S P HU).
    destruct (R w_ (ga P r) 0); [auto|]. destruct (S_ w_ (bB P r) 0); [auto|]. exfalso. apply N. clear - K.
    destruct (anticommutes P (Hop lay (s + 3))), (anticommutes P (Vop lay s)), (anticommutes P (Vop lay (s + 3))); cbn in K |- *; injection K as _ K1 K2 _; bools.
  Qed.
  Lemma weight_flip_v P : on_data lay P -> undet lay P r -> anticommutes P (Vop lay s) = true -> 2 * tw <= Z.of_nat (length (moved P)).
  Proof.
    intros Hd HU HP. pose proof (wind_classify P Hd HU) as K.
    assert (N : wind lay (comb (true, false, anticommutes P (Vop lay (s + 3)), false)) r <> (false, false, false, false)).
    { intros E. rewrite <- wind_nil in E. change [] with (comb (false, false, false, false)) in E. apply wind_inj in E. discriminate E. }
    unfold against, comb in K, N. rewrite HP, !wind_app, !wind_pick in K. rewrite !wind_app, !wind_pick in N.
    destruct (wind_h s Hs) as (a1 & b1 & E1), (wind_h (s + 3) Hs3) as (a2 & b2 & E2), (wind_v s Hs) as (a3 & b3 & E3), (wind_v (s + 3) Hs3) as (a4 & b4 & E4).
    rewrite E1, E2, E3, E4 in K. rewrite E1, E2 in N. unfold wind in K. pose proof (weight_V P HU). pose proof (weight_U P HU).
    destruct (V n_ (al P r) (ga P r) 0); [auto|]. destruct (U n_ (bB P r) 0); [auto|]. exfalso. apply N. clear - K.
    destruct (anticommutes P (Hop lay s)), (anticommutes P (Hop lay (s + 3))), (anticommutes P (Vop lay (s + 3))); cbn in K |- *; injection K as K1 _ _ K2; bools.
  Qed.

  (** ** The weights of the observables *)
  Lemma length_moved_h x : x mod 6 = 1 \/ x mod 6 = 2 \/ x mod 6 = 3 \/ x mod 6 = 4 -> Z.of_nat (length (moved (Hop lay x))) = 2 * tw.
  Proof.
    tiles. intros Hx. transitivity (Z.of_nat (length (snd (obs_h_before_sub_round lay x)))).
    - f_equal. apply Permutation_length. apply NoDup_same_perm; [apply NoDup_filter, NoDup_data | apply NoDup_obs_h; exact Hv |].
      intros q. unfold moved, Hop. rewrite filter_In, acts_pstr, cmem_In, in_obs_h, in_data by (try apply NoDup_obs_h; exact Hv). tauto.
    - rewrite obs_h_list by exact Hv. unfold obs_h_pattern.
      assert (L : forall f l, (forall i : Z, length (f i) = 2%nat) -> length (flat_map f l : list cpx) = (2 * length l)%nat).
      { intros f l Hf. induction l as [|i l IH]; [reflexivity|]. cbn [flat_map length]. rewrite app_length, IH, Hf. lia. }
      destruct Hx as [-> |[-> |[-> | ->]]]; (rewrite L by reflexivity); rewrite length_zrange; lia.
  Qed.
  Lemma length_moved_v x : Z.of_nat (length (moved (Vop lay x))) = 4 * th.
  Proof.
    tiles. transitivity (Z.of_nat (length (snd (obs_v_before_sub_round lay x)))).
    - f_equal. apply Permutation_length. apply NoDup_same_perm; [apply NoDup_filter, NoDup_data | apply NoDup_obs_v; exact Hv |].
      intros q. unfold moved, Vop. rewrite filter_In, acts_pstr, cmem_In, in_obs_v, in_data by (try apply NoDup_obs_v; exact Hv). tauto.
    - rewrite obs_v_list by exact Hv. unfold obs_v_pattern.
      assert (L : forall f l, (forall i : Z, length (f i) = 2%nat) -> length (flat_map f l : list cpx) = (2 * length l)%nat).
      { intros f l Hf. induction l as [|i l IH]; [reflexivity|]. cbn [flat_map length]. rewrite app_length, IH, Hf. lia. }
      destruct (mod6_cases x) as [-> |[-> |[-> |[-> |[-> | ->]]]]]; (rewrite L by reflexivity); rewrite length_zrange; lia.
  Qed.
End D.
