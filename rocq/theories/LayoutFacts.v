(** Arithmetic description of the positions, hexes and edges of a layout. *)
From Verif Require Import Prelude Layout.
From Coq Require Import QArith Btauto.
Open Scope Z_scope.

(** A layout with at least one tile in each direction. *)
Definition valid (lay : layout) : Prop :=
  0 < data_width lay /\ data_width lay mod 2 = 0 /\
  0 < data_height lay /\ data_height lay mod 6 = 0.

Lemma valid_tiles lay : valid lay ->
  1 <= tile_width lay /\ 1 <= tile_height lay /\
  data_width lay = 2 * tile_width lay /\ data_height lay = 6 * tile_height lay.
Proof. unfold valid, tile_width, tile_height. intros. dlia. Qed.

(** ** Small facts *)
Lemma cpx_eqb_eq a b : cpx_eqb a b = true <-> a = b.
Proof.
  unfold cpx_eqb. destruct a as [a1 a2], b as [b1 b2]. simpl.
  rewrite andb_true_iff, !Z.eqb_eq. split; [intros [-> ->]; reflexivity | intros E; inversion E; auto].
Qed.
Lemma cpx_eqb_refl a : cpx_eqb a a = true.
Proof. now apply cpx_eqb_eq. Qed.
Lemma cpx_eqb_neq a b : cpx_eqb a b = false <-> a <> b.
Proof.
  rewrite <- cpx_eqb_eq. destruct (cpx_eqb a b); split; intros; congruence.
Qed.

Lemma edge_eqb_eq a b : edge_eqb a b = true <-> a = b.
Proof.
  unfold edge_eqb. destruct a, b; simpl. rewrite !andb_true_iff, !cpx_eqb_eq.
  split; [intros [[-> ->] ->]; reflexivity | intros E; inversion E; auto].
Qed.

Lemma clex_total x y : clex_leb x y = true \/ clex_leb y x = true.
Proof.
  unfold clex_leb. rewrite !orb_true_iff, !andb_true_iff, !Z.ltb_lt, !Z.eqb_eq, !Z.leb_le. lia.
Qed.
Lemma clex_trans x y z : clex_leb x y = true -> clex_leb y z = true -> clex_leb x z = true.
Proof.
  unfold clex_leb. rewrite !orb_true_iff, !andb_true_iff, !Z.ltb_lt, !Z.eqb_eq, !Z.leb_le. lia.
Qed.
Lemma clex_antisym x y : clex_leb x y = true -> clex_leb y x = true -> x = y.
Proof.
  unfold clex_leb. rewrite !orb_true_iff, !andb_true_iff, !Z.ltb_lt, !Z.eqb_eq, !Z.leb_le.
  destruct x, y; simpl. intros. f_equal; lia.
Qed.

Lemma endpoint_gt_flip a b : a <> b -> endpoint_gt b a = negb (endpoint_gt a b).
Proof.
  intros Hne. unfold endpoint_gt.
  destruct (data_qubit_parity a), (data_qubit_parity b); simpl; try reflexivity;
  rewrite negb_involutive; destruct (clex_leb b a) eqn:E1, (clex_leb a b) eqn:E2; try reflexivity;
  try (exfalso; apply Hne; apply clex_antisym; assumption);
  destruct (clex_total a b); congruence.
Qed.

(** Building an edge from swapped end points gives the same edge. *)
Lemma Edge_swap a b c : a <> b -> Edge a b c = Edge b a c.
Proof.
  intros Hne. unfold Edge. rewrite (endpoint_gt_flip a b Hne).
  destruct (endpoint_gt a b); reflexivity.
Qed.
Lemma Edge_swap' a b c : Edge a b c = Edge b a c.
Proof.
  destruct (cpx_dec a b) as [->|Hne]; [reflexivity | now apply Edge_swap].
Qed.
Lemma Edge_center a b c : e_center (Edge a b c) = c.
Proof. unfold Edge. now destruct (endpoint_gt a b). Qed.
Lemma Edge_ends a b c :
  (e_left (Edge a b c) = a /\ e_right (Edge a b c) = b) \/
  (e_left (Edge a b c) = b /\ e_right (Edge a b c) = a).
Proof. unfold Edge. destruct (endpoint_gt a b); simpl; auto. Qed.

(** ** Wrapping *)
Lemma mod_rep m k x : 0 < k -> 0 < m -> exists t, x mod (m * k) = x + m * t /\ 0 <= x + m * t < m * k.
Proof.
  intros Hk Hm. exists (- (k * (x / (m * k)))).
  assert (0 < m * k) by (apply Z.mul_pos_pos; assumption).
  pose proof (Z.mod_pos_bound x (m * k)) as B. pose proof (Z.mod_eq x (m * k)) as E.
  replace (x + m * - (k * (x / (m * k)))) with (x mod (m * k)) by (rewrite E by lia; ring). lia.
Qed.

Lemma mod_small_cases W x : 0 < W -> - W <= x < 2 * W ->
  x mod W = if x <? 0 then x + W else if x <? W then x else x - W.
Proof.
  intros HW Hx. destruct (Z.ltb_spec x 0); [|destruct (Z.ltb_spec x W)].
  - symmetry. apply Z.mod_unique_pos with (q := -1); lia.
  - apply Z.mod_small. lia.
  - symmetry. apply Z.mod_unique_pos with (q := 1); lia.
Qed.

Lemma mod_ex m x c : x mod m = c -> exists q, x = m * q + c.
Proof.
  intros H. exists (x / m). rewrite <- H. destruct (Z.eq_dec m 0) as [->|Hm].
  - rewrite Zmod_0_r. lia.
  - apply Z.div_mod. exact Hm.
Qed.
Lemma mod_cong m x y : m <> 0 -> x mod m = y mod m -> exists q, x = y + m * q.
Proof.
  intros Hm H. exists (x / m - y / m). pose proof (Z.div_mod x m Hm). pose proof (Z.div_mod y m Hm). lia.
Qed.

Lemma mod3_split x y : exists k d, x = y + 3 * k + d /\ (d = 0 \/ d = 1 \/ d = 2).
Proof. exists ((x - y) / 3), ((x - y) mod 3). dlia. Qed.
Lemma mod2_split x y : exists k d, x = y + 2 * k + d /\ (d = 0 \/ d = 1).
Proof. exists ((x - y) / 2), ((x - y) mod 2). dlia. Qed.

(** Decide every [=?] in the goal, using arithmetic to discard impossible branches. *)
Ltac eqbs :=
  repeat match goal with
  | |- context [Z.eqb ?x ?y] => destruct (Z.eqb_spec x y); try (exfalso; dlia)
  end.

Section Lay.
  Variable lay : layout.
  Hypothesis Hv : valid lay.

  Let tw := tile_width lay.
  Let th := tile_height lay.

  Lemma tw_pos : 1 <= tw.
  Proof. apply valid_tiles in Hv. tauto. Qed.
  Lemma th_pos : 1 <= th.
  Proof. apply valid_tiles in Hv. tauto. Qed.
  Hint Resolve tw_pos th_pos : core.

  Lemma wrap_idem_add c d : wrap lay (cadd (wrap lay c) d) = wrap lay (cadd c d).
  Proof.
    unfold wrap, cadd. simpl. now rewrite !Zplus_mod_idemp_l.
  Qed.
  Lemma wrap_wrap c : wrap lay (wrap lay c) = wrap lay c.
  Proof. unfold wrap. simpl. now rewrite !Zmod_mod. Qed.

  Definition inbox (c : cpx) : Prop := 0 <= fst c < 8 * tw /\ 0 <= snd c < 12 * th.

  Lemma wrap_inbox c : inbox (wrap lay c).
  Proof.
    pose proof tw_pos. pose proof th_pos.
    unfold inbox, wrap, coord_width2, coord_height2. fold tw th. simpl.
    split; apply Z.mod_pos_bound; lia.
  Qed.
  Lemma wrap_id c : inbox c -> wrap lay c = c.
  Proof.
    unfold inbox, wrap, coord_width2, coord_height2. fold tw th.
    destruct c as [x y]; simpl. intros [Hx Hy]. f_equal; apply Z.mod_small; assumption.
  Qed.

  (** Wrapping shifts by multiples of the (doubled) width and height; what matters
      locally is that it shifts by multiples of 8 and 12. *)
  Lemma wrap_rep c : exists t u, wrap lay c = (fst c + 8 * t, snd c + 12 * u) /\ inbox (wrap lay c).
  Proof.
    pose proof tw_pos. pose proof th_pos.
    unfold wrap, coord_width2, coord_height2. fold tw th.
    destruct (mod_rep 8 tw (fst c)) as (t & Ht & _); try lia.
    destruct (mod_rep 12 th (snd c)) as (u & Hu & _); try lia.
    exists t, u. split; [congruence|].
    unfold inbox. simpl. split; apply Z.mod_pos_bound; lia.
  Qed.

  (** ** Specification of positions, in half units *)
  (** Data qubits: odd x, integer y. *)
  Definition isdata (c : cpx) : Prop := inbox c /\ fst c mod 4 = 2 /\ snd c mod 2 = 0.
  (** Hexes: even x, y of the parity of x/2. *)
  Definition ishex (c : cpx) : Prop := inbox c /\ fst c mod 4 = 0 /\ snd c mod 4 = (fst c / 2) mod 4.
  Definition hexcat (c : cpx) : Z := (snd c / 2) mod 3.
  (** Edge centres: vertical edges at odd x and half-integer y, horizontal edges at
      even x and integer y when no hex is there. *)
  Definition isvert (c : cpx) : Prop := fst c mod 4 = 2 /\ snd c mod 2 = 1.
  Definition ishoriz (c : cpx) : Prop := snd c mod 2 = 0 /\ fst c mod 8 = (2 * snd c + 4) mod 8.
  Definition iscenter (c : cpx) : Prop := inbox c /\ (isvert c \/ ishoriz c).
  Definition ecolor (c : cpx) : Z :=
    if fst c mod 4 =? 2 then ((snd c - 1) / 2 + 2) mod 3 else (snd c / 2) mod 3.

  (** The edge with a given centre. *)
  Definition edge_at (c : cpx) : edge :=
    if fst c mod 4 =? 2
    then Edge (wrap lay (cadd c (0, -1))) (wrap lay (cadd c (0, 1))) c
    else Edge (wrap lay (cadd c (-2, 0))) (wrap lay (cadd c (2, 0))) c.

  Lemma edge_at_center c : e_center (edge_at c) = c.
  Proof. unfold edge_at. destruct (_ =? 2); apply Edge_center. Qed.

End Lay.

Lemma dict_set_app' {V} (k : cpx) (v : V) d :
  ~ In k (map fst d) -> dict_set cpx_eqb k v d = d ++ [(k, v)].
Proof.
  induction d as [|[k' v'] d IH]; simpl; intros Hn; [reflexivity|].
  destruct (cpx_eqb k k') eqn:E.
  - apply cpx_eqb_eq in E. exfalso. apply Hn. left. congruence.
  - rewrite IH; [reflexivity|]. intros Hin. apply Hn. right. exact Hin.
Qed.

Lemma dict_of_nodup_aux {V} (kvs d : list (cpx * V)) :
  NoDup (map fst (d ++ kvs)) ->
  fold_left (fun d kv => dict_set cpx_eqb (fst kv) (snd kv) d) kvs d = d ++ kvs.
Proof.
  revert d. induction kvs as [|[k v] kvs IH]; intros d Hnd; simpl; [now rewrite app_nil_r|].
  rewrite dict_set_app'.
  - rewrite IH; rewrite <- app_assoc; [reflexivity|]. exact Hnd.
  - rewrite map_app in Hnd. simpl in Hnd. apply NoDup_remove_2 in Hnd.
    intros Hin. apply Hnd. apply in_or_app. left. exact Hin.
Qed.
Lemma dict_of_nodup {V} (kvs : list (cpx * V)) :
  NoDup (map fst kvs) -> dict_of cpx_eqb kvs = kvs.
Proof. intros H. unfold dict_of. now rewrite dict_of_nodup_aux. Qed.

Section Lay2.
  Variable lay : layout.
  Hypothesis Hv : valid lay.
  Notation tw := (tile_width lay).
  Notation th := (tile_height lay).

  Ltac tiles := pose proof (tw_pos lay Hv); pose proof (th_pos lay Hv).

  Lemma hex_pos_wrap row col : 0 <= row < 3 * th -> 0 <= col < 2 * tw ->
    wrap lay (pos (2 * col) (2 * row - col mod 2)) =
    (4 * col, if (2 * row - col mod 2 <? 0) then 12 * th - 2 else 4 * row - 2 * (col mod 2)).
  Proof.
    tiles. intros Hr Hc.
    assert (0 <= col mod 2 <= 1) by dlia.
    unfold wrap, pos, coord_width2, coord_height2; simpl.
    f_equal.
    - rewrite Z.mod_small; lia.
    - rewrite mod_small_cases by lia.
      destruct (Z.ltb_spec (2 * (2 * row - col mod 2)) 0);
      destruct (Z.ltb_spec (2 * row - col mod 2) 0); try lia.
      destruct (Z.ltb_spec (2 * (2 * row - col mod 2)) (12 * th)); lia.
  Qed.

  Lemma hex_entries_spec h c :
    In (h, c) (hex_entries lay) <-> ishex lay h /\ c = hexcat h.
  Proof.
    tiles. unfold hex_entries. rewrite in_flat_map. split.
    - intros (row & Hrow & Hin). apply in_map_iff in Hin. destruct Hin as (col & E & Hcol).
      apply in_zrange in Hrow, Hcol. rewrite hex_pos_wrap in E by assumption.
      injection E as <- <-. unfold ishex, inbox, hexcat. simpl.
      destruct (Z.ltb_spec (2 * row - col mod 2) 0); dlia.
    - intros [(Hb & Hx & Hy) ->]. destruct h as [X Y]. unfold inbox in Hb. simpl in *.
      exists (if Y =? 12 * th - 2 then if (X / 4) mod 2 =? 1 then 0 else Y / 4 else (Y + 2 * ((X / 4) mod 2)) / 4).
      split.
      + apply in_zrange. destruct (Z.eqb_spec Y (12 * th - 2)); [destruct (Z.eqb_spec ((X/4) mod 2) 1)|]; dlia.
      + apply in_map_iff. exists (X / 4). split; [|apply in_zrange; dlia].
        destruct (Z.eqb_spec Y (12 * th - 2)) as [->|Hne].
        * destruct (Z.eqb_spec ((X/4) mod 2) 1) as [E1|E1].
          -- rewrite hex_pos_wrap by dlia. rewrite E1. simpl. unfold hexcat. simpl.
             f_equal; [f_equal; dlia | dlia].
          -- exfalso. dlia.
        * rewrite hex_pos_wrap by dlia.
          assert (0 <= (X/4) mod 2 <= 1) by dlia.
          destruct (Z.ltb_spec (2 * ((Y + 2 * ((X / 4) mod 2)) / 4) - (X / 4) mod 2) 0); [exfalso; dlia|].
          unfold hexcat. simpl. f_equal; [f_equal; dlia | dlia].
  Qed.

  Lemma NoDup_hex_entries : NoDup (map fst (hex_entries lay)).
  Proof.
    tiles. unfold hex_entries. rewrite flat_map_concat_map, concat_map, map_map, <- flat_map_concat_map.
    apply NoDup_flat_map.
    - apply NoDup_zrange.
    - intros row Hrow. apply in_zrange in Hrow. rewrite map_map. apply NoDup_map_inj; [|apply NoDup_zrange].
      intros c1 c2 H1 H2. apply in_zrange in H1, H2. simpl. rewrite !hex_pos_wrap by assumption.
      intros E. injection E as E _. lia.
    - intros r1 r2 b Hr1 Hr2 H1 H2. apply in_zrange in Hr1, Hr2.
      rewrite map_map in H1, H2. apply in_map_iff in H1, H2.
      destruct H1 as (c1 & E1 & Hc1), H2 as (c2 & E2 & Hc2). apply in_zrange in Hc1, Hc2.
      simpl in E1, E2. rewrite hex_pos_wrap in E1, E2 by assumption. rewrite <- E2 in E1.
      injection E1 as Ec Er. assert (c1 = c2) by lia. subst c2.
      assert (0 <= c1 mod 2 <= 1) by dlia.
      destruct (Z.ltb_spec (2 * r1 - c1 mod 2) 0); destruct (Z.ltb_spec (2 * r2 - c1 mod 2) 0); lia.
  Qed.

  Lemma hex_center_categories_eq : hex_center_categories lay = hex_entries lay.
  Proof. apply dict_of_nodup, NoDup_hex_entries. Qed.

  Lemma in_hexes r h : In h (hexes lay r) <-> ishex lay h /\ hexcat h = r.
  Proof.
    unfold hexes, sorted_complex. rewrite in_isort, hex_center_categories_eq, in_map_iff. split.
    - intros ([h' c] & <- & Hin). apply filter_In in Hin. destruct Hin as [Hin Hc].
      apply hex_entries_spec in Hin. simpl in *. apply Z.eqb_eq in Hc. destruct Hin as [Hh ->]. auto.
    - intros [Hh Hc]. exists (h, hexcat h). split; [reflexivity|]. apply filter_In.
      split; [apply hex_entries_spec; auto | simpl; now apply Z.eqb_eq].
  Qed.

  Lemma NoDup_hexes r : NoDup (hexes lay r).
  Proof.
    unfold hexes, sorted_complex. apply NoDup_isort. rewrite hex_center_categories_eq.
    pose proof NoDup_hex_entries as Hnd. induction (hex_entries lay) as [|[h c] l IH]; simpl; [constructor|].
    inversion Hnd as [|? ? Hn Hnd']; subst. simpl in *.
    destruct (c =? r); simpl; [|apply IH; assumption].
    constructor; [|apply IH; assumption].
    intros Hin. apply Hn. apply in_map_iff in Hin. destruct Hin as (x & E & Hx).
    apply filter_In in Hx. apply in_map_iff. exists x. tauto.
  Qed.

  (** ** Edges *)
  (** Offset from a hex to the centre of its edge of a given type. *)
  Definition et_off (et : cpx * cpx) : cpx := (fst (fst et) / 2, snd (fst et) / 2).

  Lemma hex_to_edge_at h et : ishex lay h -> In et EDGE_TYPES ->
    hex_to_edge lay h et = edge_at lay (wrap lay (cadd h (et_off et))).
  Proof.
    tiles. intros (Hb & Hx & Hy) Het. destruct h as [X Y]. unfold inbox in Hb. cbn [fst snd] in Hb, Hx, Hy.
    destruct (wrap_rep lay Hv (cadd (X, Y) (et_off et))) as (t & u & Ew & _).
    unfold edge_at. rewrite !wrap_idem_add.
    destruct Het as [<-|[<-|[<-|[]]]]; unfold hex_to_edge, et_off, pos, cadd, csub, cmid in *;
      cbn [fst snd] in *; rewrite Ew; cbn [fst snd].
    - replace ((X + 2 * 2 / 2 + 8 * t) mod 4 =? 2) with true by (symmetry; apply Z.eqb_eq; dlia).
      rewrite <- Ew. rewrite Edge_swap'. f_equal; f_equal; f_equal; dlia.
    - replace ((X + 2 * 2 / 2 + 8 * t) mod 4 =? 2) with true by (symmetry; apply Z.eqb_eq; dlia).
      rewrite <- Ew. f_equal; f_equal; f_equal; dlia.
    - replace ((X + 2 * 4 / 2 + 8 * t) mod 4 =? 2) with false by (symmetry; apply Z.eqb_neq; dlia).
      rewrite <- Ew. f_equal; f_equal; f_equal; dlia.
  Qed.

  Lemma in_round_edges r e :
    In e (round_edges lay r) <->
    iscenter lay (e_center e) /\ ecolor (e_center e) = r mod 3 /\ e = edge_at lay (e_center e).
  Proof.
    tiles. unfold round_edges. rewrite in_isort, in_flat_map. split.
    - intros (h & Hh & Hin). apply in_map_iff in Hin. destruct Hin as (et & <- & Het).
      apply in_hexes in Hh. destruct Hh as [Hh Hc].
      rewrite (hex_to_edge_at h et Hh Het). rewrite edge_at_center.
      destruct Hh as (Hb & Hx & Hy). destruct h as [X Y]. cbn [fst snd] in Hx, Hy.
      unfold hexcat in Hc. cbn [fst snd] in Hc.
      destruct (wrap_rep lay Hv (cadd (X, Y) (et_off et))) as (t & u & Ew & Hbox).
      assert (Hoff : et_off et = (2, -3) \/ et_off et = (2, 3) \/ et_off et = (4, 0)).
      { destruct Het as [<-|[<-|[<-|[]]]]; [left|right;left|right;right]; reflexivity. }
      split; [split; [exact Hbox|]|split; [|reflexivity]]; rewrite Ew; unfold cadd;
        unfold isvert, ishoriz, ecolor;
        destruct Hoff as [->|[->| ->]]; cbn [fst snd].
      + left; split; dlia.
      + left; split; dlia.
      + right; split; dlia.
      + destruct (Z.eqb_spec ((X + 2 + 8 * t) mod 4) 2); dlia.
      + destruct (Z.eqb_spec ((X + 2 + 8 * t) mod 4) 2); dlia.
      + destruct (Z.eqb_spec ((X + 4 + 8 * t) mod 4) 2); [exfalso; dlia|]. clear - Hc. dlia.
    - intros ((Hb & Hk) & Hcol & He). destruct (e_center e) as [X Y] eqn:Ec. subst e. clear Ec.
      assert (Hex : exists h et, ishex lay h /\ hexcat h = r mod 3 /\ In et EDGE_TYPES /\
        wrap lay (cadd h (et_off et)) = (X, Y)).
      { unfold ecolor in Hcol. cbn [fst snd] in Hcol. destruct Hk as [[H1 H2]|[H1 H2]]; cbn [fst snd] in H1, H2.
        - replace (X mod 4 =? 2) with true in Hcol by (symmetry; now apply Z.eqb_eq).
          destruct (Z.eq_dec ((Y + 3) mod 4) (((X - 2) / 2) mod 4)) as [E|E].
          + exists (wrap lay (X - 2, Y + 3)), (pos 2 (-3), pos 1 (-1)).
            destruct (wrap_rep lay Hv (X - 2, Y + 3)) as (t & u & Ew & Hbox).
            split; [|split; [|split]].
            * split; [exact Hbox|]. rewrite Ew. cbn [fst snd]. split; dlia.
            * rewrite Ew. unfold hexcat. cbn [fst snd]. apply mod_ex in H2. destruct H2 as [b ->].
              clear - Hcol. dlia.
            * left; reflexivity.
            * rewrite wrap_idem_add. replace (cadd _ _) with (X, Y); [apply wrap_id, Hb|].
              change (et_off _) with (2, -3). unfold cadd; cbn [fst snd]; f_equal; lia.
          + exists (wrap lay (X - 2, Y - 3)), (pos 2 3, pos 1 1).
            destruct (wrap_rep lay Hv (X - 2, Y - 3)) as (t & u & Ew & Hbox).
            split; [|split; [|split]].
            * split; [exact Hbox|]. rewrite Ew. cbn [fst snd].
              assert (EX : exists a, X = 4 * a + 2) by (exists (X / 4); dlia).
              assert (EY : exists b, Y = 2 * b + 1) by (exists (Y / 2); dlia).
              destruct EX as [a ->], EY as [b ->]. clear - E.
              replace (4 * a + 2 - 2) with (4 * a) in E by lia.
              replace (4 * a / 2) with (2 * a) in E by dlia.
              replace (4 * a + 2 - 2 + 8 * t) with (4 * (a + 2 * t)) by lia.
              replace (4 * (a + 2 * t) / 2) with (2 * a + 4 * t) by dlia.
              split; dlia.
            * rewrite Ew. unfold hexcat. cbn [fst snd]. apply mod_ex in H2. destruct H2 as [b ->].
              clear - Hcol. dlia.
            * right; left; reflexivity.
            * rewrite wrap_idem_add. replace (cadd _ _) with (X, Y); [apply wrap_id, Hb|].
              change (et_off _) with (2, 3). unfold cadd; cbn [fst snd]; f_equal; lia.
        - replace (X mod 4 =? 2) with false in Hcol by (symmetry; apply Z.eqb_neq; dlia).
          exists (wrap lay (X - 4, Y)), (pos 4 0, pos 1 0).
          destruct (wrap_rep lay Hv (X - 4, Y)) as (t & u & Ew & Hbox).
          split; [|split; [|split]].
          * split; [exact Hbox|]. rewrite Ew. cbn [fst snd].
            apply mod_ex in H1. destruct H1 as [b ->]. apply mod_cong in H2; [|lia]. destruct H2 as [q ->].
            clear. split; dlia.
          * rewrite Ew. unfold hexcat. cbn [fst snd]. clear - Hcol. dlia.
          * right; right; left; reflexivity.
          * rewrite wrap_idem_add. replace (cadd _ _) with (X, Y); [apply wrap_id, Hb|].
            change (et_off _) with (4, 0). unfold cadd; cbn [fst snd]; f_equal; lia. }
      destruct Hex as (h & et & Hh & Hcat & Het & Ew).
      exists h. split; [apply in_hexes; auto|]. apply in_map_iff. exists et.
      split; [|exact Het]. rewrite (hex_to_edge_at h et Hh Het), Ew. reflexivity.
  Qed.
End Lay2.
