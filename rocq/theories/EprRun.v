(** One sub-round of the double EPR circuit: its instructions in closed form, and
    what running them does. *)
From Coq Require Import QArith.
From Verif Require Import Prelude Layout LayoutFacts LayoutEdges LayoutLists LayoutHex LayoutHex2 Pauli LayoutObs LayoutLogic LayoutIndex
  Tracker TrackerFacts Stim Circuit Annot Shift Ends Gen Gen2 Traj Eval Frame Exec Exec2 Noise Epr.
Open Scope Z_scope.

Lemma for_wf {A} (args : A -> list (karg (K := key))) (keyf : A -> key) xs : forall (tr tr' : mtrack), wf tr ->
  for_ xs (fun x tr => add_group key_eqb tr (args x) (K1 (keyf x))) tr = Ok tr' -> wf tr'.
Proof.
  induction xs as [|x xs IH]; intros tr tr' W H; cbn [for_] in H; [injection H as <-; exact W|].
  destruct (add_group key_eqb tr (args x) (K1 (keyf x))) as [t|] eqn:G; cbn [bind] in H; [|discriminate].
  eapply IH; [|exact H]. eapply add_group_wf; [|exact G]. exact W.
Qed.
Lemma for_silent {A S T} (f : A -> S -> res S) xs (out : T) : forall s,
  for_ xs (fun x '(m, t) => let! t := f x t in let! m := Ok m in Ok (m, t)) (out, s) = let! s := for_ xs f s in Ok (out, s).
Proof. induction xs as [|x xs IH]; intros s; cbn [for_]; [reflexivity|]. destruct (f x s); cbn [bind]; auto. Qed.
Lemma for_idle {A S} xs (s : S) : for_ xs (fun (_ : A) s => Ok s) s = Ok s.
Proof. induction xs; cbn [for_ bind]; auto. Qed.
Lemma for_ext {A S} (f h : A -> S -> res S) xs : (forall x s, In x xs -> f x s = h x s) -> forall s, for_ xs f s = for_ xs h s.
Proof.
  induction xs as [|x xs IH]; intros H s; cbn [for_]; [reflexivity|]. rewrite H by now left. destruct (h x s); cbn [bind]; [|reflexivity].
  apply IH. intros; apply H; now right.
Qed.
Lemma for_emits {A} (f : A -> circuit -> res circuit) (o : A -> list instr) xs : forall c,
  (forall x c, In x xs -> f x c = Ok (c ++ map I (o x))) -> for_ xs f c = Ok (c ++ map I (flat_map o xs)).
Proof.
  induction xs as [|x xs IH]; intros c H; cbn [for_ flat_map map]; [now rewrite app_nil_r|].
  rewrite H by now left. cbn [bind]. rewrite IH by (intros; apply H; now right). now rewrite map_app, app_assoc.
Qed.
Lemma for_app {A S} (f : A -> S -> res S) a b : forall s, for_ (a ++ b) f s = let! s := for_ a f s in for_ b f s.
Proof. induction a as [|x a IH]; intros s; cbn [for_ app]; [reflexivity|]. destruct (f x s); cbn [bind]; auto. Qed.

Section S.
  Variable lay : layout.
  Hypothesis Hv : valid lay.
  Notation E := (round_edges lay).
  Notation zk := Z.of_nat.
  Notation ix := (ix lay).
  Notation ids := [0; 1; 2; 3]%nat.
  Local Opaque data_qubit_coords measure_qubit_coords q2i_dict hex_entries hexes round_edges all_edges isort.

  (** ** Instructions *)
  Definition eo (j : nat) : list edge := if Nat.even j then obs_h_edges lay else obs_v_edges lay.
  Definition eoat (j : nat) (s : Z) : list edge := obs_edges_in (eo j) (E s).
  Definition ehalf (s : Z) (tr : mtrack) (h : cpx) : entry := comb (map (raw lay s tr) (first_edges_around_hex lay h)).
  Definition ehex (s : Z) (tr : mtrack) (h : cpx) : entry := comb (map (raw lay s tr) (second_edges_around_hex lay h) ++ [cur tr (KHalf (KC h))]).
  Definition eobs (s : Z) (tr : mtrack) (j : nat) : list instr :=
    match comb (map (raw lay s tr) (eoat j s)) with
    | Some ts => [mkI "OBSERVABLE_INCLUDE" (tg (tm tr + length (E s)) ts) [int_arg (zk j)]]
    | None => []
    end.
  Definition edets (s : Z) (tr : mtrack) : list instr :=
    if 6 <=? s then flat_map (fun h => det (tm tr + length (E s)) (comb [ehex s tr h; cur tr (KC h)]) []) (H2 lay s) else [].
  Definition mpp_e (s : Z) : instr := mkI "MPP" (mpp_targets lay s) [].
  Definition epr_i (s : Z) (tr : mtrack) : list instr :=
    mpp_e s :: flat_map (eobs s tr) ids ++ edets s tr ++ [tick_i].

  Definition eready (s : Z) (tr : mtrack) : Prop :=
    (3 <= s -> forall h, In h (H2 lay s) -> has tr (KHalf (KC h))) /\
    (6 <= s -> forall h, In h (H2 lay s) -> has tr (KC h)).

  Lemma hexcat1 s h : In h (H1 lay s) -> ishex lay h /\ s mod 3 = (hexcat h + 1) mod 3.
  Proof. intros H. unfold H1 in H. apply in_hexes in H; [|exact Hv]. destruct H as [H ->]. split; [exact H|]. dlia. Qed.
  Lemma hexcat2 s h : In h (H2 lay s) -> ishex lay h /\ s mod 3 = (hexcat h + 2) mod 3.
  Proof. intros H. unfold H2 in H. apply in_hexes in H; [|exact Hv]. destruct H as [H ->]. split; [exact H|]. dlia. Qed.
  Lemma first_in s h e : In h (H1 lay s) -> In e (first_edges_around_hex lay h) -> In e (E s).
  Proof.
    intros Hh He. destruct (hexcat1 s h Hh) as [Hx Hc]. apply first_edges_round in He; auto.
    rewrite <- round_edges_mod. rewrite <- round_edges_mod in He. now rewrite Hc.
  Qed.
  Lemma second_in s h e : In h (H2 lay s) -> In e (second_edges_around_hex lay h) -> In e (E s).
  Proof.
    intros Hh He. destruct (hexcat2 s h Hh) as [Hx Hc]. apply second_edges_round in He; auto.
    rewrite <- round_edges_mod. rewrite <- round_edges_mod in He. now rewrite Hc.
  Qed.
  Lemma H12_disjoint s h : In h (H1 lay s) -> In h (H2 lay s) -> False.
  Proof. intros I1 I2. apply hexcat1 in I1. apply hexcat2 in I2. destruct I1 as [_ I1], I2 as [_ I2]. revert I1 I2. dlia. Qed.

  Lemma mpp_ts s : mapM (fun e => let! a := q2i lay (e_left e) in let! b := q2i lay (e_right e) in
                          Ok [TP (sub_round_edge_basis lay s) a; TComb; TP (sub_round_edge_basis lay s) b]) (E s) =
    Ok (map (fun e => [TP (xyz s) (ix (e_left e)); TComb; TP (xyz s) (ix (e_right e))]) (E s)).
  Proof.
    assert (K : forall l, (forall e, In e l -> In e (E s)) -> mapM (fun e => let! a := q2i lay (e_left e) in let! b := q2i lay (e_right e) in
                          Ok [TP (sub_round_edge_basis lay s) a; TComb; TP (sub_round_edge_basis lay s) b]) l =
      Ok (map (fun e => [TP (xyz s) (ix (e_left e)); TComb; TP (xyz s) (ix (e_right e))]) l)); [|apply K; auto].
    induction l as [|e l IH]; intros H; [reflexivity|]. cbn [mapM map].
    destruct (round_edge_facts lay Hv s e (H e (or_introl eq_refl))) as (Hl & Hr & _).
    rewrite (q2i_ix lay Hv (e_left e)), (q2i_ix lay Hv (e_right e)) by now apply data_in_qubits. cbn [bind].
    rewrite IH by (intros; apply H; now right). reflexivity.
  Qed.

  Lemma comb_raw s tr l : exists ts, comb (map (raw lay s tr) l) = Some ts.
  Proof. apply fold_defined. intros v Hin. apply in_map_iff in Hin. destruct Hin as (e & <- & _). discriminate. Qed.

  Lemma epr_sub_round_spec s tr : wf tr -> eready s tr ->
    exists tr', epr_sub_round lay ids s tr = Ok (map I (epr_i s tr), tr') /\ wf tr' /\ tm tr' = (tm tr + length (E s))%nat /\
      (forall h, In h (H1 lay s) -> hist tr' (KHalf (KC h)) = ehalf s tr h :: hist tr (KHalf (KC h))) /\
      (forall h, ~ In h (H1 lay s) -> hist tr' (KHalf (KC h)) = hist tr (KHalf (KC h))) /\
      (forall h, 3 <= s -> In h (H2 lay s) -> hist tr' (KC h) = ehex s tr h :: hist tr (KC h)) /\
      (forall h, s < 3 \/ ~ In h (H2 lay s) -> hist tr' (KC h) = hist tr (KC h)).
  Proof.
    intros Hw [R1 R2]. unfold epr_sub_round. rewrite mpp_ts, bind_ok, <- flat_map_concat_map. fold (mpp_targets lay s).
    change (append_operation [] "MPP" (mpp_targets lay s) []) with (map I [mpp_e s]).
    destruct (add_measurements_spec edge_eqb edge_eqb_eq KE (E s) tr) as (tr1 & E1 & T1 & A1 & B1).
    { apply nodup_keys; [apply KE_inj | apply NoDup_round_edges, Hv]. }
    rewrite E1, bind_ok. pose proof (add_measurements_wf key_eqb _ _ _ Hw E1) as Hw1.
    assert (C1 : forall e, In e (E s) -> cur tr1 (KE e) = raw lay s tr e /\ has tr1 (KE e)).
    { intros e He. rewrite (cur_cons _ _ _ _ (A1 e He)). split; [reflexivity | eapply has_cons, A1, He]. }
    assert (G1 : forall es, (forall e, In e es -> In e (E s)) ->
      measurement_time_set tr1 (map (fun e => K1 (KE e)) es) = Ok (comb (map (raw lay s tr) es))).
    { intros es Hes. rewrite <- (map_map KE K1). rewrite time_set_cur.
      - rewrite map_map. f_equal. f_equal. apply map_ext_in. intros e He. apply C1, Hes, He.
      - intros k Hk. apply in_map_iff in Hk. destruct Hk as (e & <- & He). apply C1, Hes, He. }
    rewrite (for_emits _ (eobs s tr)).
    2:{ intros j c _. fold (eo j). fold (eoat j s).
        rewrite (targets_of tr1 _ (comb (map (raw lay s tr) (eoat j s))) Hw1).
        2:{ apply G1. intros e He. unfold eoat, obs_edges_in in He. apply filter_In in He. tauto. }
        unfold eobs. destruct (comb_raw s tr (eoat j s)) as (ts & ->). cbn [bind append_obs]. unfold append_operation.
        rewrite append_nf by reflexivity. unfold tg. rewrite map_map, T1. reflexivity. }
    rewrite bind_ok, <- map_app.
    unfold round_hex_centers at 1. replace ((0 <=? (s - 1) mod 3) && ((s - 1) mod 3 <? 3)) with true by (symmetry; apply andb_true_intro; split; [apply Z.leb_le | apply Z.ltb_lt]; dlia).
    rewrite bind_ok. fold (H1 lay s).
    destruct (for_groups (fun h => KHalf (KC h)) (fun h => map (fun e => K1 (KE e)) (first_edges_around_hex lay h)) (ehalf s tr) (H1 lay s) tr1)
      as (tr2 & E2 & T2 & A2 & B2).
    { apply nodup_keys; [|apply NoDup_hexes, Hv]. intros x y K. apply KC_inj, KHalf_inj, K. }
    { intros tr' Ht h Hh. unfold ehalf. rewrite <- (map_map KE K1), time_set_cur.
      - rewrite map_map. do 2 f_equal. apply map_ext_in. intros e He. unfold cur. rewrite Ht.
        + apply C1. now apply (first_in s h). + rewrite in_map_iff. intros (x & K & _). discriminate K.
      - intros k Hk. apply in_map_iff in Hk. destruct Hk as (e & <- & He). unfold has. rewrite Ht.
        + apply C1. now apply (first_in s h). + rewrite in_map_iff. intros (x & K & _). discriminate K. }
    rewrite E2, bind_ok. pose proof (for_wf _ _ _ _ _ Hw1 E2) as Hw2.
    unfold round_hex_centers at 1. replace ((0 <=? (s - 2) mod 3) && ((s - 2) mod 3 <? 3)) with true by (symmetry; apply andb_true_intro; split; [apply Z.leb_le | apply Z.ltb_lt]; dlia).
    rewrite bind_ok. fold (H2 lay s).
    assert (T12 : tm tr2 = (tm tr + length (E s))%nat) by congruence.
    assert (P1 : forall h, ~ In h (H1 lay s) -> hist tr2 (KHalf (KC h)) = hist tr (KHalf (KC h))).
    { intros h Hh. rewrite B2, B1; [reflexivity|..]; rewrite in_map_iff.
      - intros (x & K & _). discriminate K.
      - intros (x & K & Hx). apply KHalf_inj, KC_inj in K. subst x. contradiction. }
    assert (P1' : forall h, In h (H1 lay s) -> hist tr2 (KHalf (KC h)) = ehalf s tr h :: hist tr (KHalf (KC h))).
    { intros h Hh. rewrite A2 by exact Hh. f_equal. apply B1. rewrite in_map_iff. intros (x & K & _). discriminate K. }
    assert (P2 : forall h, hist tr2 (KC h) = hist tr (KC h)).
    { intros h. rewrite B2, B1; [reflexivity|..]; rewrite in_map_iff; intros (x & K & _); discriminate K. }
    assert (G2 : forall tr', (forall k, ~ In k (map KC (H2 lay s)) -> hist tr' k = hist tr2 k) -> 3 <= s -> forall h, In h (H2 lay s) ->
      measurement_time_set tr' (map (fun e => K1 (KE e)) (second_edges_around_hex lay h) ++ [K1 (KHalf (KC h))]) = Ok (ehex s tr h)).
    { intros tr' Ht L h Hh. unfold ehex.
      assert (Q1 : forall e, hist tr' (KE e) = hist tr1 (KE e)).
      { intros e. rewrite Ht, B2; [reflexivity|..]; rewrite in_map_iff; intros (x & K & _); discriminate K. }
      assert (Q2 : hist tr' (KHalf (KC h)) = hist tr (KHalf (KC h))).
      { rewrite Ht, P1; [reflexivity| |]. - intros K. eapply H12_disjoint; eauto. - rewrite in_map_iff; intros (x & K & _); discriminate K. }
      change [K1 (KHalf (KC h))] with (map K1 [KHalf (KC h)]). rewrite <- (map_map KE K1), <- map_app, time_set_cur.
      - rewrite map_app, map_map. cbn [map]. do 3 f_equal.
        + apply map_ext_in. intros e He. unfold cur. rewrite Q1. apply C1. now apply (second_in s h).
        + unfold cur. now rewrite Q2.
      - intros k Hk. apply in_app_iff in Hk. destruct Hk as [Hk|[<-|[]]].
        + apply in_map_iff in Hk. destruct Hk as (e & <- & He). unfold has. rewrite Q1. apply C1. now apply (second_in s h).
        + unfold has. rewrite Q2. now apply R1. }
    assert (NK : NoDup (map KC (H2 lay s))) by (apply nodup_keys; [apply KC_inj | apply NoDup_hexes, Hv]).
    assert (Last : exists tr3, for_ (H2 lay s) (fun h '(c, tr) =>
        let! tr := (if 3 <=? s then add_group key_eqb tr (map (fun e => K1 (KE e)) (second_edges_around_hex lay h) ++ [K1 (KHalf (KC h))]) (K1 (KC h)) else Ok tr) in
        let! c := (if 6 <=? s then append_detector tr [K1 (KC h); Prev (K1 (KC h)) 1] c [] else Ok c) in
        Ok (c, tr)) (map I ([mpp_e s] ++ flat_map (eobs s tr) ids), tr2) = Ok (map I (([mpp_e s] ++ flat_map (eobs s tr) ids) ++ edets s tr), tr3) /\
        wf tr3 /\ tm tr3 = tm tr2 /\
        (forall h, 3 <= s -> In h (H2 lay s) -> hist tr3 (KC h) = ehex s tr h :: hist tr2 (KC h)) /\
        (forall h, s < 3 \/ ~ In h (H2 lay s) -> hist tr3 (KC h) = hist tr2 (KC h)) /\
        (forall h, hist tr3 (KHalf (KC h)) = hist tr2 (KHalf (KC h)))).
    { unfold edets. destruct (Z.leb_spec 3 s) as [L3|L3]; [destruct (Z.leb_spec 6 s) as [L6|L6]|].
      - destruct (for_compared KC (fun h => map (fun e => K1 (KE e)) (second_edges_around_hex lay h) ++ [K1 (KHalf (KC h))]) (fun _ => []) (ehex s tr) (H2 lay s) tr2
          (map I ([mpp_e s] ++ flat_map (eobs s tr) ids)) Hw2 NK) as (tr3 & E3 & W3 & T3 & A3 & B3).
        { intros tr' Ht. now apply G2. }
        { intros h Hh. unfold has. rewrite P2. now apply R2. }
        exists tr3. split; [|split; [exact W3|split; [exact T3|split; [intros; now apply A3|split]]]].
        + etransitivity; [exact E3|]. rewrite <- (map_app I ([mpp_e s] ++ flat_map (eobs s tr) ids)). apply (f_equal (fun x => Ok (map I (([mpp_e s] ++ flat_map (eobs s tr) ids) ++ x), tr3))). apply flat_map_ext_in. intros h Hh. unfold cur. now rewrite P2, T12.
        + intros h [K|K]; [lia|]. apply B3. rewrite in_map_iff. intros (x & K' & Hx). apply KC_inj in K'. subst x. contradiction.
        + intros h. apply B3. rewrite in_map_iff; intros (x & K' & _); discriminate K'.
      - destruct (for_groups KC (fun h => map (fun e => K1 (KE e)) (second_edges_around_hex lay h) ++ [K1 (KHalf (KC h))]) (ehex s tr) (H2 lay s) tr2 NK) as (tr3 & E3 & T3 & A3 & B3).
        { intros tr' Ht. now apply G2. }
        exists tr3. split; [|split; [eapply for_wf; [exact Hw2 | exact E3]|split; [exact T3|split; [intros; now apply A3|split]]]].
        + rewrite app_nil_r. etransitivity; [apply for_silent|]. now rewrite E3.
        + intros h [K|K]; [lia|]. apply B3. rewrite in_map_iff. intros (x & K' & Hx). apply KC_inj in K'. subst x. contradiction.
        + intros h. apply B3. rewrite in_map_iff; intros (x & K' & _); discriminate K'.
      - exists tr2. replace (6 <=? s) with false by (symmetry; apply Z.leb_gt; lia).
        split; [|split; [exact Hw2|split; [reflexivity|split; [intros; lia|split; reflexivity]]]].
        rewrite app_nil_r. rewrite (for_ext _ (fun _ s => Ok s)) by (intros x [c t] _; reflexivity). apply for_idle. }
    destruct Last as (tr3 & E3 & W3 & T3 & A3 & B3 & D3).
    exists tr3. split.
    { eapply eq_trans; [apply (f_equal (fun m => bind m _)); exact E3|]. rewrite bind_ok. rewrite tick_eq.
      change [I tick_i] with (map I [tick_i]). rewrite <- map_app. apply (f_equal (fun x => Ok (map I x, tr3))).
      unfold epr_i. rewrite <- app_assoc. reflexivity. }
    split; [exact W3|]. split; [congruence|]. split; [|split; [|split]].
    - intros h Hh. rewrite D3. now apply P1'.
    - intros h Hh. rewrite D3. now apply P1.
    - intros h L Hh. rewrite A3, P2 by assumption. reflexivity.
    - intros h K. rewrite B3, P2 by assumption. reflexivity.
  Qed.
End S.
