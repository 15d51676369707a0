(** The PC3, EM3 and SI1000 generators, and the whole circuit. *)
From Coq Require Import QArith.
From Verif Require Import Prelude Layout LayoutFacts LayoutEdges LayoutLists LayoutHex LayoutHex2 Pauli LayoutObs LayoutLogic LayoutIndex
  Tracker TrackerFacts Stim Circuit Annot Shift Ends Gen.
Open Scope Z_scope.

Lemma repeat_periodic_to {A} (f : nat -> list A) it : forall k, (forall j, (k <= j)%nat -> (j + 3 < k + 3 * it)%nat -> f (j + 3)%nat = f j) ->
  concat (repeat (f k ++ f (k + 1)%nat ++ f (k + 2)%nat) it) = flat_map f (seq k (3 * it)).
Proof.
  induction it as [|it IH]; intros k H; [reflexivity|]. replace (3 * S it)%nat with (S (S (S (3 * it)))) by lia.
  cbn [repeat concat seq flat_map]. rewrite <- !app_assoc.
  replace (k + 1)%nat with (S k) by lia. replace (k + 2)%nat with (S (S k)) by lia. do 3 f_equal.
  replace (S (S (S k))) with (k + 3)%nat by lia. rewrite <- IH.
  - destruct it as [|it]; [reflexivity|]. rewrite <- (H k), <- (H (S k)), <- (H (S (S k))) by lia.
    replace (k + 3 + 1)%nat with (S k + 3)%nat by lia. replace (k + 3 + 2)%nat with (S (S k) + 3)%nat by lia. reflexivity.
  - intros j Hj1 Hj2. apply H; lia.
Qed.

Lemma fold_last3_seq (f : nat -> circuit) a it :
  fold_last3 (map f (seq 0 (a + 3))) it = map f (seq 0 a) ++ [circuit_mul (f a ++ f (a + 1)%nat ++ f (a + 2)%nat) it].
Proof.
  unfold fold_last3. rewrite map_length, seq_length. replace (a + 3 - 3)%nat with a by lia.
  rewrite seq_app, map_app, firstn_app, skipn_app, map_length, seq_length, Nat.sub_diag.
  rewrite firstn_all2 by (rewrite map_length, seq_length; lia). rewrite skipn_all2 by (rewrite map_length, seq_length; lia).
  cbn [firstn skipn app seq map concat Nat.add]. rewrite !app_nil_r.
  replace (a + 1)%nat with (S a) by lia. replace (a + 2)%nat with (S (S a)) by lia. reflexivity.
Qed.
Lemma flatten_concat (l : list circuit) : flatten (concat l) = flat_map flatten l.
Proof. induction l as [|c l IH]; [reflexivity|]. cbn [concat flat_map]. now rewrite flatten_app, IH. Qed.

Section M.
  Variable lay : layout.
  Hypothesis Hv : valid lay.
  Hypothesis Hobs : obs lay = "V"%string \/ obs lay = "H"%string.
  Notation E := (round_edges lay).
  Notation ix := (ix lay).
  Notation n := (sub_rounds lay).
  Notation trk := (trk lay (tr0 lay)).
  Notation annk := (annk lay (tr0 lay)).
  Notation mop := (mop lay).
  Notation follows := (follows lay).
  Notation zk := Z.of_nat.
  Local Opaque data_qubit_coords measure_qubit_coords q2i_dict hex_entries hexes round_edges all_edges isort.

  (** ** A loop over moments that folds three of them *)
  Section Loop.
    Variable mom : Z -> mtrack -> res (circuit * mtrack).
    Variable mi : nat -> list instr.     (* the instructions of each moment *)
    Variable F : nat -> nat.             (* sub-rounds measured before each moment *)
    Variable C : nat.
    Variable Cz N Kz : Z.
    Variable a : nat.
    Hypothesis HC : Cz = zk C.
    Hypothesis HK : Kz = zk (a + 3).
    Hypothesis Hm : forall d tr k, (k < C)%nat -> follows d tr (F k) ->
      exists tr', mom (zk k) tr = Ok (map I (mi k), tr') /\ follows d tr' (F (S k)).
    Notation it := ((N - Kz + 3) / 3).
    Hypothesis Hjump : 1 < it -> forall tr, follows 0 tr (F (a + 3)) -> exists d, follows d tr (F (a + 3 * Z.to_nat it)).
    Hypothesis Hper : forall j, (a <= j)%nat -> (j + 3 < a + 3 * Z.to_nat it)%nat -> mi (j + 3) = mi j.
    Hypothesis Ht : forall k, ends_tick (mi k).
    Hypothesis Hbound : 1 < it -> (a + 3 * Z.to_nat it <= C)%nat.

    Definition loop_body : Z * list circuit * mtrack -> res (Z * list circuit * mtrack) :=
      fun '(k, moments, tr) =>
         let! (circ, tr) := mom k tr in
         let moments := moments ++ [circ] in
         let k := k + 1 in
         if k =? Kz then
           let iterations := (N - k + 3) / 3 in
           if 1 <? iterations then Ok (k + (iterations * 3 - 3), fold_last3 moments iterations, tr)
           else Ok (k, moments, tr)
         else Ok (k, moments, tr).
    Definition loop_cond : Z * list circuit * mtrack -> bool := fun '(k, _, _) => k <? Cz.
    Definition mc (k : nat) : circuit := map I (mi k).

    Lemma plain_run d j : forall fuel k ms tr, follows d tr (F k) -> (k + j <= C)%nat -> (k + j < a + 3 \/ a + 3 <= k)%nat ->
      exists tr', while_ (j + fuel) loop_cond loop_body (zk k, ms, tr) = while_ fuel loop_cond loop_body (zk (k + j), ms ++ map mc (seq k j), tr')
        /\ follows d tr' (F (k + j)).
    Proof.
      induction j as [|j IH]; intros fuel k ms tr Hf Hk Ha.
      - exists tr. cbn [seq map Nat.add]. rewrite app_nil_r, Nat.add_0_r. auto.
      - destruct (Hm d tr k ltac:(lia) Hf) as (t1 & E1 & F1).
        destruct (IH fuel (S k) (ms ++ [mc k]) t1 F1 ltac:(lia) ltac:(lia)) as (t2 & E2 & F2).
        exists t2. split; [|replace (k + S j)%nat with (S k + j)%nat by lia; exact F2].
        cbn [Nat.add while_]. unfold loop_cond at 1. replace (zk k <? Cz) with true by (symmetry; apply Z.ltb_lt; lia).
        unfold loop_body at 1. rewrite E1, bind_ok. replace (zk k + 1 =? Kz) with false by (symmetry; apply Z.eqb_neq; lia).
        rewrite bind_ok. replace (zk k + 1) with (zk (S k)) by lia. eapply eq_trans; [exact E2|].
        replace (k + S j)%nat with (S k + j)%nat by lia. cbn [seq map]. now rewrite <- app_assoc.
    Qed.
    Lemma stop fuel ms tr : while_ fuel loop_cond loop_body (zk C, ms, tr) = Ok (zk C, ms, tr).
    Proof. destruct fuel; cbn [while_]; unfold loop_cond at 1; now replace (zk C <? Cz) with false by (symmetry; apply Z.ltb_ge; lia). Qed.

    Lemma flat_mc l : flat_map flatten (map mc l) = flat_map mi l.
    Proof. induction l as [|x l IH]; [reflexivity|]. cbn [map flat_map]. unfold mc at 1. now rewrite flatten_I, IH. Qed.

    Lemma concat_mc l : concat (map mc l) = map I (flat_map mi l).
    Proof. induction l as [|x l IH]; [reflexivity|]. cbn [map concat flat_map]. now rewrite IH, map_app. Qed.
    Lemma mi_tick k m l : ends_tick l -> ends_tick (l ++ flat_map mi (seq k m)).
    Proof.
      revert k l. induction m as [|m IH]; intros k l Hl; cbn [seq flat_map]; [now rewrite app_nil_r|]. rewrite app_assoc. apply IH. apply ends_tick_app, Ht.
    Qed.
    Lemma mi_tick0 k m : flat_map mi (seq k m) = [] \/ ends_tick (flat_map mi (seq k m)).
    Proof. destruct m as [|m]; [now left|]. right. cbn [seq flat_map]. apply mi_tick, Ht. Qed.
    Lemma loop_run tr : follows 0 tr (F 0) ->
      exists k ms tr' d, while_ (Z.to_nat Cz + 1) loop_cond loop_body (0, [], tr) = Ok (k, ms, tr') /\
        (flatten (concat ms) = flat_map mi (seq 0 C) /\ folded mi (concat ms)) /\ follows d tr' (F C).
    Proof.
      intros Hf. replace (Z.to_nat Cz) with C by lia. destruct (Nat.lt_ge_cases C (a + 3)) as [Hlt|Hge].
      - destruct (plain_run 0 C 1 0 [] tr Hf) as (t1 & E1 & F1); [lia | lia|]. change (zk 0) with 0 in E1. rewrite E1. cbn [Nat.add app] in *. rewrite stop.
        exists (zk C), (map mc (seq 0 C)), t1, 0%nat. split; [reflexivity|]. split; [|exact F1]. split; [rewrite flatten_concat; apply flat_mc | rewrite concat_mc; apply folded_I, Ht].
      - destruct (plain_run 0 (a + 2) (1 + (C - (a + 2))) 0 [] tr Hf) as (t1 & E1 & F1); [lia | lia|].
        replace (a + 2 + (1 + (C - (a + 2))))%nat with (C + 1)%nat in E1 by lia. change (zk 0) with 0 in E1. rewrite E1. clear E1. cbn [Nat.add app] in *.
        destruct (Hm 0 t1 (a + 2)%nat ltac:(lia) F1) as (t2 & E2 & F2). replace (S (a + 2)) with (a + 3)%nat in F2 by lia.
        cbn [while_]. unfold loop_cond at 1. replace (zk (a + 2) <? Cz) with true by (symmetry; apply Z.ltb_lt; lia).
        unfold loop_body at 1. rewrite E2, bind_ok. replace (zk (a + 2) + 1) with Kz by lia. rewrite Z.eqb_refl.
        fold (mc (a + 2)). replace (map mc (seq 0 (a + 2)) ++ [mc (a + 2)]) with (map mc (seq 0 (a + 3))).
        2:{ replace (a + 3)%nat with (a + 2 + 1)%nat by lia. rewrite seq_app, map_app. reflexivity. }
        destruct (Z.ltb_spec 1 it) as [Hit|Hit].
        + rewrite bind_ok. rewrite fold_last3_seq. destruct (Hjump Hit t2 F2) as (d & F3). pose proof (Hbound Hit) as HB.
          set (j := Z.to_nat it) in *. replace (Kz + (it * 3 - 3)) with (zk (a + 3 * j)) by (unfold j; lia).
          match goal with |- context [while_ _ _ _ (_, ?m, _)] => set (ms := m) end.
          destruct (plain_run d (C - (a + 3 * j)) (C - (a + 2) - (C - (a + 3 * j))) (a + 3 * j) ms t2 F3) as (t3 & E3 & F4); [lia | lia|].
          replace (C - (a + 3 * j) + (C - (a + 2) - (C - (a + 3 * j))))%nat with (C - (a + 2))%nat in E3 by lia.
          replace (a + 3 * j + (C - (a + 3 * j)))%nat with C in * by lia. rewrite E3, stop.
          do 4 eexists. split; [reflexivity|]. split; [|exact F4].
          split; [|unfold ms; rewrite !concat_app, !concat_mc; cbn [concat]; rewrite app_nil_r; apply folded_post;
                   unfold mc; rewrite <- !map_app; apply folded_loop; [lia | apply mi_tick0 | rewrite app_assoc; apply ends_tick_app, Ht]].
          rewrite flatten_concat, flat_map_app, flat_mc. unfold ms.
          rewrite flat_map_app, flat_mc. cbn [flat_map]. rewrite app_nil_r, flatten_mul by lia. rewrite !flatten_app. unfold mc. rewrite !flatten_I. fold j.
          rewrite repeat_periodic_to by (intros; apply Hper; assumption). rewrite <- !flat_map_app. f_equal.
          transitivity (seq 0 (a + 3 * j + (C - (a + 3 * j)))); [rewrite !seq_app; reflexivity | f_equal; lia].
        + rewrite bind_ok. rewrite HK.
          destruct (plain_run 0 (C - (a + 3)) 1 (a + 3) (map mc (seq 0 (a + 3))) t2 F2) as (t3 & E3 & F3); [lia | lia|].
          replace (C - (a + 3) + 1)%nat with (C - (a + 2))%nat in E3 by lia. replace (a + 3 + (C - (a + 3)))%nat with C in * by lia. rewrite E3, stop.
          do 4 eexists. split; [reflexivity|]. split; [|exact F3].
          split; [|rewrite concat_app, !concat_mc, <- map_app; apply folded_I, Ht].
          rewrite flatten_concat, flat_map_app, !flat_mc, <- flat_map_app. f_equal.
          transitivity (seq 0 (a + 3 + (C - (a + 3)))); [rewrite (seq_app (a + 3)); reflexivity | f_equal; lia].
    Qed.

    Lemma turn_for d j : forall k c tr, follows d tr (F k) -> (k + j <= C)%nat ->
      exists tr', for_ (map Z.of_nat (seq k j)) (fun k '(result, tr) => let! (c, tr) := mom k tr in Ok (result ++ c, tr)) (c, tr) =
        Ok (c ++ map I (flat_map mi (seq k j)), tr') /\ follows d tr' (F (k + j)).
    Proof using HC Hm.
      clear Hbound HK Hper Hjump Ht N Kz a.
      induction j as [|j IH]; intros k c tr Hf Hk.
      - exists tr. cbn. rewrite app_nil_r, Nat.add_0_r. auto.
      - destruct (Hm d tr k ltac:(lia) Hf) as (t1 & E1 & F1). destruct (IH (S k) (c ++ map I (mi k)) t1 F1 ltac:(lia)) as (t2 & E2 & F2).
        exists t2. split; [|replace (k + S j)%nat with (S k + j)%nat by lia; exact F2].
        cbn [seq map for_ flat_map]. rewrite E1, !bind_ok. eapply eq_trans; [exact E2|]. now rewrite map_app, app_assoc.
    Qed.
    Lemma in_turn tr : follows 0 tr (F 0) ->
      exists tr', moments_in_turn mom Cz tr = Ok (map I (flat_map mi (seq 0 C)), tr') /\ follows 0 tr' (F C).
    Proof using HC Hm.
      clear Hbound HK Hper Hjump Ht N Kz a.
      intros Hf. destruct (turn_for 0 C 0 [] tr Hf ltac:(lia)) as (t1 & E1 & F1). exists t1. split; [|exact F1].
      unfold moments_in_turn. change 0 with (zk 0) at 1. rewrite zrange_seq, Nat.sub_0_r. replace (Z.to_nat Cz) with C by lia. exact E1.
    Qed.
  End Loop.

  (** ** EM3 *)
  Definition mpp_targets (k : Z) : list target :=
    flat_map (fun e => [TP (xyz k) (ix (e_left e)); TComb; TP (xyz k) (ix (e_right e))]) (E k).
  Definition em3_i (k : nat) : list instr := [mkI "MPP" (mpp_targets (zk k)) []] ++ mop (zk k) ++ annk k ++ [tick_i].
  Lemma em3_moment_eq d tr k : follows d tr k ->
    exists tr', em3_moment lay (zk k) tr = Ok (map I (em3_i k), tr') /\ follows d tr' (S k).
  Proof.
    intros Hf. destruct (smd_follow lay Hv Hobs d tr k (zk k) Hf eq_refl eq_refl) as (t1 & E1 & F1). exists t1. split; [|exact F1].
    unfold em3_moment, sub_round_edge_basis.
    rewrite (mapM_ok _ (fun e => [TP (xyz (zk k)) (ix (e_left e)); TComb; TP (xyz (zk k)) (ix (e_right e))])).
    2:{ intros e He. destruct (ends_in lay Hv (zk k) e He) as (A & B & _). now rewrite !q2i_ix by assumption. }
    rewrite bind_ok, E1, bind_ok, tick_eq. unfold em3_i, mpp_targets. rewrite flat_map_concat_map, !map_app, <- !app_assoc. reflexivity.
  Qed.
  Lemma xyz_cong a b : a mod 3 = b mod 3 -> xyz a = xyz b.
  Proof. intros H. unfold xyz. now rewrite H. Qed.
  Lemma annk_periodic1 k : (settle lay <= k)%nat -> annk (k + 3) = annk k.
  Proof. intros H. change (k + 3)%nat with (k + 3 * 1)%nat. now apply annk_periodic. Qed.
  Lemma zk3 k : zk (k + 3) mod 3 = zk k mod 3.
  Proof. rewrite Nat2Z.inj_add. change (zk 3) with 3. dlia. Qed.
  Lemma em3_periodic k : (settle lay <= k)%nat -> em3_i (k + 3) = em3_i k.
  Proof.
    intros H. unfold em3_i, mpp_targets. rewrite annk_periodic1 by exact H. rewrite (cong3 lay _ _ (zk3 k)), (mop_cong lay _ _ (zk3 k)), (xyz_cong _ _ (zk3 k)).
    reflexivity.
  Qed.
  Lemma em3_tick k : ends_tick (em3_i k).
  Proof. unfold em3_i. do 3 apply ends_tick_app. exists []. reflexivity. Qed.
  Definition em3_body : list instr := flat_map em3_i (seq 0 (Z.to_nat n)).
  Lemma unrolled_em3_eq tr : 1 <= n -> follows 0 tr 0 ->
    exists tr', unrolled_em3 lay tr = Ok (map I em3_body, tr') /\ follows 0 tr' (Z.to_nat n).
  Proof.
    intros Hn Hf. unfold unrolled_em3. destruct (Z.eqb_spec n 0) as [?|N0]; [lia|].
    apply (in_turn (em3_moment lay) em3_i (fun k => k) (Z.to_nat n)); [lia | | exact Hf].
    intros d t k _ Ht. now apply em3_moment_eq.
  Qed.
  Lemma gen_em3_eq tr : pc3 lay = false -> 1 <= n -> follows 0 tr 0 ->
    exists c tr' d, generate_rounds_em3 lay tr = Ok (c, tr') /\ (flatten c = em3_body /\ folded em3_i c) /\ follows d tr' (Z.to_nat n).
  Proof.
    intros Hp Hn Hf. unfold generate_rounds_em3. destruct (Z.eqb_spec n 0) as [?|N0]; [lia|].
    destruct (loop_run (em3_moment lay) em3_i (fun k => k) (Z.to_nat n) n n 7 4) with (tr := tr) as (k & ms & t1 & d & E1 & Fl & F1).
    - lia.
    - reflexivity.
    - intros d t k _ Ht. now apply em3_moment_eq.
    - intros Hit t Ht. eexists. replace (4 + 3 * Z.to_nat ((n - 7 + 3) / 3))%nat with (4 + 3 + 3 * (Z.to_nat ((n - 7 + 3) / 3) - 1))%nat by lia.
      apply (follow_jump lay Hv); [exact Ht|]. unfold settle. rewrite Hp. lia.
    - intros j Hj _. apply em3_periodic. unfold settle. rewrite Hp. lia.
    - apply em3_tick.
    - intros Hit. revert Hit. dlia.
    - exact Hf.
    - step E1. eexists _, t1, d. split; [reflexivity|]. split; [exact Fl | exact F1].
  Qed.

  (** ** PC3 *)
  Definition pcx (k : Z) : string := canon (basis_cx (xyz k)).
  Definition pc3_i (k : nat) : list instr :=
    (if zk k <? n then [g (pcx (zk k)) (lpairs lay (zk k))] else []) ++
    (if (1 <=? zk k) && (zk k <=? n) then [g (pcx (zk k - 1)) (rpairs lay (zk k - 1))] else []) ++
    (if 2 <=? zk k then mop (zk (k - 2)) ++ annk (k - 2) else [g "R" (centers lay (zk k - 2))]) ++ [tick_i].
  Definition pc3_rounds (k : nat) : nat := (k - 2)%nat.
  Lemma pcx_neq a b : a mod 3 <> b mod 3 -> pcx a <> pcx b.
  Proof.
    intros H. unfold pcx. assert (xyz a <> xyz b).
    { intros K. apply H. revert K. now rewrite xyz_eq. }
    destruct (xyz a), (xyz b); cbn; congruence.
  Qed.
  Lemma pc3_moment_eq d tr k : 1 <= n -> (k < Z.to_nat (n + 2))%nat -> follows d tr (k - 2) ->
    exists tr', pc3_moment lay (zk k) tr = Ok (map I (pc3_i k), tr') /\ follows d tr' (S k - 2).
  Proof.
    intros Hn Hk Hf. unfold pc3_moment, sub_round_edge_basis.
    rewrite lpairs_eq, rpairs_eq by exact Hv. rewrite !bind_ok. rewrite resets_eq by exact Hv. rewrite ?bind_ok.
    replace (0 <=? zk k) with true by (symmetry; apply Z.leb_le; lia). cbn [andb].
    match goal with |- context [bind (if zk k <? n then ?a else ?b) ?f] =>
      replace (bind (if zk k <? n then a else b) f) with (f (map I (if zk k <? n then [g (pcx (zk k)) (lpairs lay (zk k))] else [])))
        by (destruct (zk k <? n); reflexivity) end.
    cbv beta.
    match goal with |- context [bind (if (0 <=? zk k - 1) && (zk k - 1 <? n) then ?a else ?b) ?f] =>
      assert (X : (if (0 <=? zk k - 1) && (zk k - 1 <? n) then a else b) = 
        Ok (map I ((if zk k <? n then [g (pcx (zk k)) (lpairs lay (zk k))] else []) ++
           (if (1 <=? zk k) && (zk k <=? n) then [g (pcx (zk k - 1)) (rpairs lay (zk k - 1))] else [])))) end.
    { replace (0 <=? zk k - 1) with (1 <=? zk k) by (destruct (Z.leb_spec 1 (zk k)), (Z.leb_spec 0 (zk k - 1)); lia).
      replace (zk k - 1 <? n) with (zk k <=? n) by (destruct (Z.leb_spec (zk k) n), (Z.ltb_spec (zk k - 1) n); lia).
      destruct ((1 <=? zk k) && (zk k <=? n)); [|now rewrite app_nil_r]. rewrite bind_ok. apply f_equal.
      destruct (zk k <? n); [|reflexivity]. cbn [app map].
      refine (append_new [] (g (pcx (zk k)) (lpairs lay (zk k))) (mkI (pcx (zk k - 1)) (qs (rpairs lay (zk k - 1))) []) _).
      apply pcx_neq. dlia. }
    rewrite X, bind_ok. clear X.
    cbv beta. unfold pc3_i. set (pre := (if zk k <? n then _ else _) ++ _).
    destruct (Z.leb_spec 2 (zk k)) as [H2|H2].
    - replace ((0 <=? zk k - 2) && (zk k - 2 <? n)) with true by (symmetry; apply andb_true_intro; split; [apply Z.leb_le | apply Z.ltb_lt]; lia).
      replace (zk k - 2) with (zk (k - 2)) by lia.
      destruct (smd_follow lay Hv Hobs d tr (k - 2) (zk (k - 2)) Hf eq_refl eq_refl) as (t1 & E1 & F1). rewrite E1, !bind_ok.
      exists t1. split; [|replace (S k - 2)%nat with (S (k - 2)) by lia; exact F1]. rewrite tick_eq. unfold pre. rewrite !map_app, <- !app_assoc. reflexivity.
    - replace ((0 <=? zk k - 2) && (zk k - 2 <? n)) with false by (symmetry; apply andb_false_iff; left; apply Z.leb_gt; lia).
      replace (zk k - 2 <=? 0) with true by (symmetry; apply Z.leb_le; lia). rewrite !bind_ok. exists tr.
      split; [|replace (S k - 2)%nat with (k - 2)%nat by lia; exact Hf]. rewrite tick_eq. unfold pre. rewrite !map_app, <- !app_assoc. reflexivity.
  Qed.
  Lemma pc3_periodic k : (settle lay + 2 <= k)%nat -> zk k + 3 < n -> pc3_i (k + 3) = pc3_i k.
  Proof.
    intros H Hn. assert (0 < settle lay)%nat by (unfold settle; destruct (Annot.pc3 lay); lia).
    unfold pc3_i. pose proof (Nat2Z.inj_add k 3) as K. change (zk 3) with 3 in K.
    replace (zk (k + 3) <? n) with true by (symmetry; apply Z.ltb_lt; lia). replace (zk k <? n) with true by (symmetry; apply Z.ltb_lt; lia).
    replace (1 <=? zk (k + 3)) with true by (symmetry; apply Z.leb_le; lia). replace (1 <=? zk k) with true by (symmetry; apply Z.leb_le; lia).
    replace (zk (k + 3) <=? n) with true by (symmetry; apply Z.leb_le; lia). replace (zk k <=? n) with true by (symmetry; apply Z.leb_le; lia).
    replace (2 <=? zk (k + 3)) with true by (symmetry; apply Z.leb_le; lia). replace (2 <=? zk k) with true by (symmetry; apply Z.leb_le; lia).
    cbn [andb app]. unfold pcx. replace (k + 3 - 2)%nat with (k - 2 + 3)%nat by lia. rewrite annk_periodic1 by lia.
    rewrite (xyz_cong (zk (k + 3)) (zk k)), (xyz_cong (zk (k + 3) - 1) (zk k - 1)), (lpairs_cong lay (zk (k + 3)) (zk k)), (rpairs_cong lay (zk (k + 3) - 1) (zk k - 1)),
      (mop_cong lay (zk (k - 2 + 3)) (zk (k - 2))); [reflexivity | apply zk3 | | apply zk3 | | apply zk3]; rewrite K; dlia.
  Qed.
  (** The observable includes at the end. *)
  Definition pc3_obs_i (tr : mtrack) : list instr :=
    flat_map (fun k => match comb (map (fun e => cur tr (KHalf (KE e))) (oat lay k)) with
                       | Some s => [mkI "OBSERVABLE_INCLUDE" (tg (tm tr) s) [int_arg (Z.of_nat (oidx lay))]]
                       | None => []
                       end) [0; 1; 2].
  Lemma oat_in k e : In e (oat lay k) -> In e (E k).
  Proof. unfold oat, obs_edges_in. rewrite filter_In. tauto. Qed.
  Lemma pc3_observable_eq c tr : wf tr -> ready lay tr -> pc3_observable lay c tr = Ok (c ++ map I (pc3_obs_i tr)).
  Proof.
    intros Hw [Re _]. unfold pc3_observable, pc3_obs_i. rewrite (obs_edges_eq lay Hobs), (obs_index_eq lay Hobs). generalize [0; 1; 2] as l. intros l. revert c.
    induction l as [|k l IH]; intros c; cbn [for_ flat_map]; [now rewrite app_nil_r|].
    rewrite bind_ok.
    rewrite (targets_of tr _ (comb (map (fun e => cur tr (KHalf (KE e))) (oat lay k))) Hw).
    2:{ fold (oat lay k). rewrite <- (map_map (fun e => KHalf (KE e)) K1), time_set_cur; [now rewrite map_map|].
        intros x Hx. apply in_map_iff in Hx. destruct Hx as (e & <- & He). apply Re, (in_all_of_round lay k), oat_in, He. }
    rewrite bind_ok. destruct (comb _) as [s|]; cbn [app].
    - rewrite bind_ok. unfold append_obs at 1, append_operation at 1. rewrite append_nf by reflexivity. rewrite bind_ok, IH.
      cbn [map]. rewrite <- app_assoc. unfold tg. rewrite map_map. reflexivity.
    - rewrite bind_ok. apply IH.
  Qed.
  Lemma pc3_obs_sim d tr u : simP d (univ lay) tr u -> pc3_obs_i u = pc3_obs_i tr.
  Proof.
    intros [T C]. unfold pc3_obs_i. apply flat_map_ext_in. intros k _.
    replace (map (fun e => cur u (KHalf (KE e))) (oat lay k)) with (map (shiftv d) (map (fun e => cur tr (KHalf (KE e))) (oat lay k))).
    - rewrite comb_shift. destruct (comb _) as [s|]; [|reflexivity]. cbn [shiftv option_map]. rewrite T, tg_shift. reflexivity.
    - rewrite map_map. apply map_ext_in. intros e He. symmetry. apply C. cbn [univ]. apply (in_all_of_round lay k), oat_in, He.
  Qed.
  Lemma pc3_tick k : ends_tick (pc3_i k).
  Proof. unfold pc3_i. do 3 apply ends_tick_app. exists []. reflexivity. Qed.
  Definition pc3_body : list instr := flat_map pc3_i (seq 0 (Z.to_nat (n + 2))) ++ pc3_obs_i (trk (Z.to_nat n)).
  Lemma unrolled_pc3_eq tr : 1 <= n -> follows 0 tr 0 ->
    exists tr', unrolled_pc3 lay tr = Ok (map I pc3_body, tr') /\ follows 0 tr' (Z.to_nat n).
  Proof.
    intros Hn Hf. unfold unrolled_pc3. destruct (Z.eqb_spec n 0) as [?|N0]; [lia|].
    destruct (in_turn (pc3_moment lay) pc3_i (fun k => (k - 2)%nat) (Z.to_nat (n + 2)) (n + 2)) with (tr := tr) as (t1 & E1 & F1).
    - lia.
    - intros d t k Hk Ht. now apply pc3_moment_eq.
    - exact Hf.
    - rewrite E1, bind_ok. replace (Z.to_nat (n + 2) - 2)%nat with (Z.to_nat n) in F1 by lia. pose proof F1 as (W1 & R1 & S1).
      rewrite pc3_observable_eq by assumption. rewrite bind_ok. exists t1. split; [|exact F1]. unfold pc3_body.
      rewrite (pc3_obs_sim _ _ _ S1). now rewrite map_app.
  Qed.
  Lemma gen_pc3_eq tr : 1 <= n -> follows 0 tr 0 ->
    exists c tr' d, generate_rounds_pc3 lay tr = Ok (c, tr') /\ (flatten c = pc3_body /\ folded pc3_i c) /\ follows d tr' (Z.to_nat n).
  Proof.
    intros Hn Hf. unfold generate_rounds_pc3. destruct (Z.eqb_spec n 0) as [?|N0]; [lia|].
    assert (Hs : (settle lay <= 7)%nat) by (unfold settle; destruct (Annot.pc3 lay); lia).
    destruct (loop_run (pc3_moment lay) pc3_i (fun k => (k - 2)%nat) (Z.to_nat (n + 2)) (n + 2) n 12 9) with (tr := tr) as (k & ms & t1 & d & E1 & (Fl & Lo) & F1).
    - lia.
    - reflexivity.
    - intros d t k Hk Ht. now apply pc3_moment_eq.
    - intros Hit t Ht. eexists. replace (9 + 3 * Z.to_nat ((n - 12 + 3) / 3) - 2)%nat with (9 + 3 - 2 + 3 * (Z.to_nat ((n - 12 + 3) / 3) - 1))%nat by lia.
      apply (follow_jump lay Hv); [exact Ht|]. lia.
    - intros j Hj Hj2. apply pc3_periodic; [lia|]. revert Hj2. dlia.
    - apply pc3_tick.
    - intros Hit. revert Hit. dlia.
    - exact Hf.
    - step E1. replace (Z.to_nat (n + 2) - 2)%nat with (Z.to_nat n) in F1 by lia. pose proof F1 as (W1 & R1 & S1).
      rewrite pc3_observable_eq by assumption. rewrite bind_ok. eexists _, t1, d. split; [reflexivity|]. split; [|exact F1].
      split; [|apply folded_post; exact Lo]. unfold pc3_body.
      rewrite flatten_app, flatten_I, Fl. now rewrite (pc3_obs_sim _ _ _ S1).
  Qed.

  (** ** SI1000 *)
  Notation d1 := (data1 lay). Notation d2 := (data2 lay). Notation ms := (meas_ix lay).
  Definition si_head (j : nat) : list instr := match j with O => [] | _ => [g "R" ms; tick_i] end.
  Definition si_gates : list instr :=
    [g "C_ZYX" d1; g "H" ms; tick_i;
     g "C_ZYX" d2; g "CZ" (lpairs lay 0); tick_i; g "C_ZYX" d1; g "CZ" (rpairs lay 0); tick_i;
     g "C_ZYX" d2; g "CZ" (lpairs lay 1); tick_i; g "C_ZYX" d1; g "CZ" (rpairs lay 1); tick_i;
     g "C_ZYX" d2; g "CZ" (lpairs lay 2); tick_i; g "CZ" (rpairs lay 2); tick_i;
     g "H" ms; tick_i].
  Definition si_i (j : nat) : list instr :=
    si_head j ++ si_gates ++ (mop 0 ++ annk (3 * j)) ++ (mop 1 ++ annk (3 * j + 1)) ++ (mop 2 ++ annk (3 * j + 2)) ++ [tick_i].
  Lemma si_cycle_eq d tr j s : follows d tr (3 * j) -> s = 3 * zk j ->
    exists tr', generate_cycle_SI1000 s lay tr = Ok (map I (si_i j), tr') /\ follows d tr' (3 * S j).
  Proof.
    intros Hf ->.
    destruct (smd_follow lay Hv Hobs d tr (3 * j) (3 * zk j + 0) Hf) as (t1 & E1 & F1); [f_equal; lia | f_equal; lia|].
    destruct (smd_follow lay Hv Hobs d t1 (S (3 * j)) (3 * zk j + 1) F1) as (t2 & E2 & F2); [f_equal; lia | f_equal; lia|].
    destruct (smd_follow lay Hv Hobs d t2 (S (S (3 * j))) (3 * zk j + 2) F2) as (t3 & E3 & F3); [f_equal; lia | f_equal; lia|].
    exists t3. split; [|replace (3 * S j)%nat with (S (S (S (3 * j)))) by lia; exact F3].
    unfold generate_cycle_SI1000. rewrite meas_eq, data1_eq, data2_eq by assumption. rewrite !bind_ok.
    assert (Eh : (if 0 <? 3 * zk j then tick (append_operation [] "R" (qs ms) []) else []) = map I (si_head j)).
    { destruct j; [reflexivity|]. replace (0 <? 3 * zk (S j)) with true by (symmetry; apply Z.ltb_lt; lia). rewrite tick_eq. reflexivity. }
    rewrite Eh. clear Eh.
    assert (Eg : tick (append_operation (append_operation (map I (si_head j)) "C_ZYX" (qs d1) []) "H" (qs ms) []) = map I (si_head j ++ [g "C_ZYX" d1; g "H" ms; tick_i])).
    { rewrite tick_eq. destruct j; reflexivity. }
    rewrite Eg. clear Eg. cbn [for_]. change (0 <? 2) with true. change (1 <? 2) with true. change (2 <? 2) with false. cbn iota.
    rewrite !lpairs_eq, !rpairs_eq by exact Hv. rewrite !bind_ok.
    match goal with |- context [tick (append_operation ?x "H" (qs ms) [])] => set (gates := tick (append_operation x "H" (qs ms) [])) end.
    assert (Eg : gates = map I (si_head j ++ si_gates)).
    { unfold gates. rewrite !tick_eq. destruct j; reflexivity. }
    rewrite Eg. clear gates Eg.
    rewrite E1, !bind_ok, E2, !bind_ok, E3, !bind_ok. rewrite tick_eq. unfold si_i. do 2 f_equal.
    replace (3 * j + 1)%nat with (S (3 * j)) by lia. replace (3 * j + 2)%nat with (S (S (3 * j))) by lia.
    rewrite (mop_cong lay (zk (3 * j)) 0), (mop_cong lay (zk (S (3 * j))) 1), (mop_cong lay (zk (S (S (3 * j)))) 2) by dlia.
    rewrite !map_app, <- !app_assoc. reflexivity.
  Qed.
  Lemma si_periodic j : (settle lay <= 3 * j)%nat -> si_i (S j) = si_i j.
  Proof.
    intros H. unfold si_i. replace (3 * S j)%nat with (3 * j + 3)%nat by lia.
    replace (3 * j + 3 + 1)%nat with (3 * j + 1 + 3)%nat by lia. replace (3 * j + 3 + 2)%nat with (3 * j + 2 + 3)%nat by lia.
    rewrite !annk_periodic1 by lia. destruct j; [|reflexivity]. unfold settle in H. destruct (Annot.pc3 lay); lia.
  Qed.
  Lemma si_tick k : ends_tick (si_i k).
  Proof. unfold si_i. do 5 apply ends_tick_app. exists []. reflexivity. Qed.
  Definition si_body : list instr := flat_map si_i (seq 0 (Z.to_nat (n / 3))).
  Lemma unrolled_SI1000_eq tr : 1 <= n -> n mod 3 = 0 -> follows 0 tr 0 ->
    exists tr', unrolled_SI1000 lay tr = Ok (map I si_body, tr') /\ follows 0 tr' (Z.to_nat n).
  Proof.
    intros Hn H3 Hf. unfold unrolled_SI1000. destruct (Z.eqb_spec n 0) as [?|N0]; [lia|]. rewrite H3. cbn [Z.eqb negb].
    destruct (in_turn (fun j => generate_cycle_SI1000 (3 * j) lay) si_i (fun k => (3 * k)%nat) (Z.to_nat (n / 3)) (n / 3)) with (tr := tr) as (t1 & E1 & F1).
    - dlia.
    - intros d t k Hk Ht. now apply si_cycle_eq.
    - exact Hf.
    - rewrite E1. exists t1. split; [reflexivity|]. replace (3 * Z.to_nat (n / 3))%nat with (Z.to_nat n) in F1; [exact F1|]. revert H3. dlia.
  Qed.
  Lemma gen_SI1000_eq tr : pc3 lay = false -> 1 <= n -> n mod 3 = 0 -> follows 0 tr 0 ->
    exists c tr' d, generate_rounds_SI1000 lay tr = Ok (c, tr') /\ (flatten c = si_body /\ folded si_i c) /\ follows d tr' (Z.to_nat n).
  Proof.
    intros Hp Hn H3 Hf. unfold generate_rounds_SI1000, si_body. destruct (Z.eqb_spec n 0) as [?|N0]; [lia|]. rewrite H3. cbn [Z.eqb negb].
    assert (Hs : settle lay = 4%nat) by (unfold settle; now rewrite Hp).
    destruct (si_cycle_eq 0 tr 0 0 Hf eq_refl) as (t1 & E1 & F1). step E1.
    assert (Hq : n = 3 * zk (Z.to_nat (n / 3))) by (revert H3; dlia). set (q := Z.to_nat (n / 3)) in *.
    destruct (Z.ltb_spec 3 n) as [G3|G3].
    - destruct (si_cycle_eq 0 t1 1 3 F1 eq_refl) as (t2 & E2 & F2). step E2.
      destruct (Z.ltb_spec 6 n) as [G6|G6].
      + destruct (si_cycle_eq 0 t2 2 6 F2 eq_refl) as (t3 & E3 & F3). step E3.
        replace ((n - 6) / 3) with (zk (q - 2)) by dlia.
        eexists _, t3, (0 + (q - 3) * period lay)%nat. split; [reflexivity|]. split.
        * split; [|rewrite app_assoc, <- map_app, <- (app_nil_r (si_i 2)); apply folded_loop; [lia | right; apply ends_tick_app, si_tick | rewrite app_nil_r; apply si_tick]].
          rewrite !flatten_app, !flatten_I, flatten_mul, flatten_I by lia. rewrite Nat2Z.id.
          replace q with (2 + (q - 2))%nat at 2 by lia. rewrite seq_app, flat_map_app. cbn [seq flat_map Nat.add]. rewrite app_nil_r, <- app_assoc. do 2 f_equal.
          assert (P : forall j, (2 <= j)%nat -> si_i j = si_i 2).
          { intros j Hj. induction j as [|j IH]; [lia|]. destruct (Nat.eq_dec j 1) as [->|]; [reflexivity|]. rewrite si_periodic by lia. apply IH. lia. }
          clear - P. generalize (q - 2)%nat as m. intros m. assert (G : (2 <= 2)%nat) by lia. revert G. generalize 2%nat at 2 4 as k.
          induction m as [|m IH]; intros k Hk; [reflexivity|]. cbn [repeat concat seq flat_map]. rewrite (P k Hk). f_equal. apply IH. lia.
        * replace (Z.to_nat n) with (3 * 3 + 3 * (q - 3))%nat by lia. apply (follow_jump lay Hv); [exact F3 | lia].
      + rewrite bind_ok. eexists _, t2, 0%nat. split; [reflexivity|]. replace q with 2%nat by lia. split; [split; [rewrite !flatten_app, !flatten_I; reflexivity | rewrite ?app_nil_r, <- ?map_app; apply folded_I, si_tick]|].
        replace (Z.to_nat n) with 6%nat by lia. exact F2.
    - rewrite bind_ok. replace (6 <? n) with false by (symmetry; apply Z.ltb_ge; lia). rewrite bind_ok. eexists _, t1, 0%nat. split; [reflexivity|].
      replace q with 1%nat by lia. split; [split; [rewrite !flatten_app, !flatten_I; reflexivity | rewrite ?app_nil_r, <- ?map_app; apply folded_I, si_tick]|]. replace (Z.to_nat n) with 3%nat by lia. exact F1.
  Qed.
End M.
