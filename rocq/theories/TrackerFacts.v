(** Facts about the measurement tracker. *)
From Verif Require Import Prelude Tracker.
Open Scope Z_scope.

Section T.
  Context {K : Type} (keqb : K -> K -> bool).
  Hypothesis keqb_eq : forall a b, keqb a b = true <-> a = b.
  Notation tracker := (@tracker K).
  Notation karg := (@karg K).

  Lemma keqb_refl k : keqb k k = true.
  Proof. now apply keqb_eq. Qed.

  (** Well-formed entries: sets of earlier measurement times. *)
  Definition wf_entry (t : nat) (v : entry) : Prop :=
    match v with None => True | Some s => NoDup s /\ forall x, In x s -> (x < t)%nat end.
  Definition wf (tr : tracker) : Prop := forall k v, In v (hist tr k) -> wf_entry (tm tr) v.

  Lemma wf_entry_mono t t' v : (t <= t')%nat -> wf_entry t v -> wf_entry t' v.
  Proof. destruct v as [s|]; cbn; [|auto]. intros L [H1 H2]. split; [exact H1|]. intros x Hx. specialize (H2 x Hx). lia. Qed.

  Lemma wf_push tr k v t' : wf tr -> (tm tr <= t')%nat -> wf_entry t' v -> wf (push keqb tr k v t').
  Proof.
    intros Hw L Hv k' v' Hin. unfold push in Hin. cbn [hist tm] in *.
    destruct (keqb k' k); [destruct Hin as [<-|Hin]; [exact Hv|]|]; eapply wf_entry_mono; eauto.
  Qed.

  Lemma py_neg_index_in {A} (l : list A) t x : py_neg_index l t = Ok x -> In x l.
  Proof.
    unfold py_neg_index. destruct (1 <=? t).
    - destruct (nth_error l _) eqn:E; [|discriminate]. intros H. injection H as <-. eapply nth_error_In; eauto.
    - destruct (nth_error (rev l) _) eqn:E; [|discriminate]. intros H. injection H as <-. apply in_rev. eapply nth_error_In; eauto.
  Qed.

  Lemma lookup_in tr (a : karg) v : lookup tr a = Ok v -> exists k, In v (hist tr k).
  Proof.
    unfold lookup. destruct (match a with AKey k => (k, 1) | APrev k off => (k, 1 + off) end) as [k t].
    unfold assert_. destruct (_ <=? _); cbn; [|discriminate]. intros H. apply py_neg_index_in in H.
    destruct k as [k|]; [exists k; exact H | destruct H].
  Qed.

  Lemma time_set_loop_wf tr keys : wf tr -> forall acc v, wf_entry (tm tr) (Some acc) ->
    time_set_loop tr keys acc = Ok v -> wf_entry (tm tr) v.
  Proof.
    intros Hw. induction keys as [|a keys IH]; intros acc v Ha H; cbn in H; [injection H as <-; exact Ha|].
    destruct (lookup tr a) as [[s|]|] eqn:E; cbn in H; try discriminate; [|injection H as <-; exact I].
    apply lookup_in in E. destruct E as [k E]. apply Hw in E. eapply IH; [|exact H].
    destruct Ha as [A1 A2], E as [E1 E2]. split; [now apply NoDup_symdiff|].
    intros x Hx. apply in_symdiff in Hx. destruct Hx as [[Hx _]|[Hx _]]; auto.
  Qed.
  Lemma time_set_wf tr keys v : wf tr -> measurement_time_set tr keys = Ok v -> wf_entry (tm tr) v.
  Proof. intros Hw. apply time_set_loop_wf; [exact Hw|]. split; [constructor | intros x []]. Qed.

  Lemma add_measurements_wf keys : forall tr tr', wf tr -> add_measurements keqb tr keys = Ok tr' -> wf tr'.
  Proof.
    induction keys as [|a keys IH]; intros tr tr' Hw H; cbn in H; [injection H as <-; exact Hw|].
    destruct (plain_key a) as [k|]; cbn in H; [|discriminate]. eapply IH; [|exact H].
    apply wf_push; [exact Hw | lia |]. split; [repeat constructor; intros [] | intros x [<-|[]]; lia].
  Qed.
  Lemma add_dummies_wf o keys : forall tr tr', wf tr -> add_dummies keqb tr o keys = Ok tr' -> wf tr'.
  Proof.
    induction keys as [|a keys IH]; intros tr tr' Hw H; cbn in H; [injection H as <-; exact Hw|].
    destruct (plain_key a) as [k|]; cbn in H; [|discriminate]. eapply IH; [|exact H].
    apply wf_push; [exact Hw | lia |]. destruct o; cbn; [exact I|]. split; [constructor | intros x []].
  Qed.
  Lemma add_group_wf tr keys g tr' : wf tr -> add_group keqb tr keys g = Ok tr' -> wf tr'.
  Proof.
    intros Hw H. unfold add_group in H. destruct (plain_key g) as [k|]; cbn in H; [|discriminate].
    destruct (measurement_time_set tr keys) as [v|] eqn:E; cbn in H; [|discriminate]. injection H as <-.
    apply wf_push; [exact Hw | lia | eapply time_set_wf; eauto].
  Qed.
  Lemma do_call_wf tr c tr' : wf tr -> do_call keqb tr c = Ok tr' -> wf tr'.
  Proof. destruct c; cbn; intros; eauto using add_measurements_wf, add_dummies_wf, add_group_wf. Qed.
  Lemma do_calls_wf cs : forall tr tr', wf tr -> do_calls keqb tr cs = Ok tr' -> wf tr'.
  Proof.
    induction cs as [|c cs IH]; intros tr tr' Hw H; cbn in H; [injection H as <-; exact Hw|].
    destruct (do_call keqb tr c) as [tr1|] eqn:E; cbn in H; [|discriminate]. eauto using do_call_wf.
  Qed.
  Lemma wf_init : wf (tr_init (K := K)).
  Proof. intros k v []. Qed.

  (** Values of entries under an assignment of outcomes. *)
  Definition ev (m : nat -> bool) (v : entry) : option bool :=
    match v with None => None | Some s => Some (xsum m s) end.

  Lemma sort_nat_perm s : Permutation s (isort Nat.leb s).
  Proof. apply isort_perm. Qed.
End T.

Section T2.
  Context {K : Type} (keqb : K -> K -> bool).
  Hypothesis keqb_eq : forall a b, keqb a b = true <-> a = b.
  Notation tracker := (@tracker K).
  Notation karg := (@karg K).

  Lemma mapM_target_rec t0 l : (forall x, In x l -> Z.of_nat x < t0) ->
    mapM (fun t => target_rec (Z.of_nat t - t0)) l = Ok (map (fun t => Z.of_nat t - t0) l).
  Proof.
    intros H. apply mapM_ok. intros x Hx. unfold target_rec. specialize (H x Hx).
    replace (_ <? 0) with true by (symmetry; apply Z.ltb_lt; lia). reflexivity.
  Qed.

  Lemma mapM_target_rec_inv t0 l ts : mapM (fun t => target_rec (Z.of_nat t - t0)) l = Ok ts ->
    ts = map (fun t => Z.of_nat t - t0) l /\ forall x, In x l -> Z.of_nat x < t0.
  Proof.
    revert ts. induction l as [|x l IH]; intros ts H; cbn in H; [injection H as <-; split; [reflexivity | intros x []]|].
    unfold target_rec at 1 in H. destruct (Z.of_nat x - t0 <? 0) eqn:E; cbn in H; [|discriminate].
    destruct (mapM _ l) as [ys|] eqn:E2; cbn in H; [|discriminate]. injection H as <-.
    destruct (IH ys eq_refl) as [-> H2]. apply Z.ltb_lt in E. split; [reflexivity|].
    intros y [<-|Hy]; [lia | auto].
  Qed.

  (** Record targets of a well-formed tracker, when no reference time is given. *)
  Lemma targets_plain (tr : tracker) keys : wf tr ->
    get_record_targets tr keys None =
    match measurement_time_set tr keys with
    | Ok (Some s) => Ok (Some (map (fun t => Z.of_nat t - Z.of_nat (tm tr)) (isort Nat.leb s)))
    | Ok None => Ok None
    | Err e => Err e
    end.
  Proof.
    intros Hw. unfold get_record_targets. cbn [after_time bind].
    destruct (measurement_time_set tr keys) as [[s|]|e] eqn:E; cbn [bind]; [|reflexivity|reflexivity].
    apply time_set_wf in E; [|exact Hw]. destruct E as [_ E].
    rewrite mapM_target_rec; [reflexivity|]. intros x Hx. apply in_isort in Hx. specialize (E x Hx). lia.
  Qed.

  (** ** Keys in any order *)
  Fixpoint lookups (tr : tracker) (keys : list karg) : res (list entry) :=
    match keys with
    | [] => Ok []
    | a :: r => let! v := lookup tr a in let! vs := lookups tr r in Ok (v :: vs)
    end.

  Definition combine_entry (acc v : entry) : entry :=
    match acc, v with Some a, Some s => Some (symdiff a s) | _, _ => None end.

  Lemma loop_lookups tr keys : forall vs acc, lookups tr keys = Ok vs ->
    time_set_loop tr keys acc = Ok (fold_left combine_entry vs (Some acc)).
  Proof.
    induction keys as [|a keys IH]; intros vs acc H; cbn in *; [injection H as <-; reflexivity|].
    destruct (lookup tr a) as [v|]; cbn in *; [|discriminate].
    destruct (lookups tr keys) as [vs'|] eqn:E; cbn in *; [|discriminate]. injection H as <-.
    destruct v as [s|]; cbn [fold_left combine_entry].
    - apply IH. reflexivity.
    - clear. induction vs' as [|v vs IH]; [reflexivity | exact IH].
  Qed.

  Lemma fold_none vs : fold_left combine_entry vs None = None.
  Proof. induction vs as [|v vs IH]; [reflexivity | exact IH]. Qed.

  Lemma fold_some vs : forall acc s, fold_left combine_entry vs (Some acc) = Some s ->
    forall v, In v vs -> v <> None.
  Proof.
    induction vs as [|v vs IH]; intros acc s H v' Hin; [destruct Hin|]. cbn [fold_left] in H.
    destruct v as [s'|]; cbn [combine_entry] in H; [|rewrite fold_none in H; discriminate].
    destruct Hin as [<-|Hin]; [discriminate | eapply IH; eauto].
  Qed.

  Lemma loop_some_lookups tr keys : forall acc s, time_set_loop tr keys acc = Ok (Some s) ->
    exists vs, lookups tr keys = Ok vs /\ fold_left combine_entry vs (Some acc) = Some s.
  Proof.
    induction keys as [|a keys IH]; intros acc s H; cbn in *; [injection H as <-; exists []; split; reflexivity|].
    destruct (lookup tr a) as [[s'|]|]; cbn in *; try discriminate.
    apply IH in H. destruct H as (vs & H1 & H2). rewrite H1. cbn. exists (Some s' :: vs). split; [reflexivity | exact H2].
  Qed.

  Definition parity (x : nat) (vs : list entry) : bool :=
    xsum (fun v => match v with Some s => memb x s | None => false end) vs.

  Lemma memb_symdiff x a b : memb x (symdiff a b) = xorb (memb x a) (memb x b).
  Proof.
    destruct (memb x (symdiff a b)) eqn:E.
    - apply memb_In, in_symdiff in E. rewrite <- !memb_In in E. destruct (memb x a), (memb x b); cbn; intuition congruence.
    - apply memb_false in E. rewrite in_symdiff, <- !memb_In in E. destruct (memb x a), (memb x b); cbn; intuition congruence.
  Qed.

  Lemma fold_memb vs : forall acc s x, fold_left combine_entry vs (Some acc) = Some s ->
    memb x s = xorb (memb x acc) (parity x vs).
  Proof.
    induction vs as [|v vs IH]; intros acc s x H; cbn [fold_left] in H.
    - injection H as <-. unfold parity; cbn. now rewrite xorb_false_r.
    - destruct v as [s'|]; cbn [combine_entry] in H; [|rewrite fold_none in H; discriminate].
      rewrite (IH _ _ _ H), memb_symdiff. unfold parity; cbn [xsum fold_right]. now rewrite xorb_assoc.
  Qed.

  Lemma fold_defined vs acc : (forall v, In v vs -> v <> None) ->
    exists s, fold_left combine_entry vs (Some acc) = Some s.
  Proof.
    revert acc. induction vs as [|v vs IH]; intros acc H; cbn [fold_left]; [eexists; reflexivity|].
    destruct v as [s|]; [|exfalso; apply (H None); [left; reflexivity | reflexivity]].
    cbn [combine_entry]. apply IH. intros v' Hv. apply H. now right.
  Qed.

  Lemma fold_undefined vs acc : In None vs -> fold_left combine_entry vs (Some acc) = None.
  Proof.
    revert acc. induction vs as [|v vs IH]; intros acc H; [destruct H|]. cbn [fold_left].
    destruct v as [s|]; cbn [combine_entry]; [|apply fold_none]. destruct H as [H|H]; [discriminate | apply IH, H].
  Qed.

  Lemma lookups_perm tr keys keys' : Permutation keys keys' ->
    forall vs, lookups tr keys = Ok vs -> exists vs', lookups tr keys' = Ok vs' /\ Permutation vs vs'.
  Proof.
    induction 1 as [|a l l' Hp IH|a b l|l1 l2 l3 _ IH1 _ IH2]; intros vs H.
    - exists vs. split; [exact H | reflexivity].
    - cbn in *. destruct (lookup tr a) as [v|]; cbn in *; [|discriminate].
      destruct (lookups tr l) as [us|]; cbn in *; [|discriminate]. injection H as <-.
      destruct (IH us eq_refl) as (us' & -> & Hp'). cbn. exists (v :: us'). split; [reflexivity | now constructor].
    - cbn in *. destruct (lookup tr b) as [v|], (lookup tr a) as [w|]; cbn in *; try discriminate.
      destruct (lookups tr l) as [us|]; cbn in *; [|discriminate]. injection H as <-.
      exists (w :: v :: us). split; [reflexivity | constructor].
    - destruct (IH1 vs H) as (v2 & H2 & P2). destruct (IH2 v2 H2) as (v3 & H3 & P3).
      exists v3. split; [exact H3 | now transitivity v2].
  Qed.

  (** Two time sets of a well-formed tracker with the same members give the same
      targets. *)
  Lemma sorted_targets s s' : NoDup s -> NoDup s' -> (forall x, memb x s = memb x s') ->
    isort Nat.leb s = isort Nat.leb s'.
  Proof.
    intros H1 H2 H. apply isort_ext.
    - intros x y. rewrite !Nat.leb_le. lia.
    - intros x y z. rewrite !Nat.leb_le. lia.
    - intros x y _ _. rewrite !Nat.leb_le. lia.
    - apply NoDup_Permutation; [exact H1 | exact H2 |]. intros x. rewrite <- !memb_In, H. reflexivity.
  Qed.

  Lemma targets_of_fold (tr : tracker) keys vs after : wf tr -> lookups tr keys = Ok vs ->
    get_record_targets tr keys after =
    let! t0 := after_time tr after in
    match fold_left combine_entry vs (Some []) with
    | None => Ok None
    | Some s => let! ts := mapM (fun t => target_rec (Z.of_nat t - t0)) (isort Nat.leb s) in Ok (Some ts)
    end.
  Proof.
    intros Hw H. unfold get_record_targets, measurement_time_set. rewrite (loop_lookups _ _ _ _ H). reflexivity.
  Qed.

  Lemma targets_same (tr : tracker) keys keys' vs vs' after : wf tr ->
    lookups tr keys = Ok vs -> lookups tr keys' = Ok vs' ->
    (In None vs <-> In None vs') -> (forall x, parity x vs = parity x vs') ->
    get_record_targets tr keys after = get_record_targets tr keys' after.
  Proof.
    intros Hw H H' Hn Hp. rewrite (targets_of_fold _ _ _ _ Hw H), (targets_of_fold _ _ _ _ Hw H').
    destruct (after_time tr after) as [t0|]; cbn [bind]; [|reflexivity].
    assert (L := loop_lookups tr keys vs [] H). assert (L' := loop_lookups tr keys' vs' [] H').
    destruct (fold_left combine_entry vs (Some [])) as [s|] eqn:E;
    destruct (fold_left combine_entry vs' (Some [])) as [s'|] eqn:E'; [| | |reflexivity].
    - rewrite (sorted_targets s s'); [reflexivity | | |].
      + apply (time_set_wf tr keys (Some s) Hw L).
      + apply (time_set_wf tr keys' (Some s') Hw L').
      + intros x. rewrite (fold_memb _ _ _ x E), (fold_memb _ _ _ x E'). now rewrite Hp.
    - exfalso. assert (D := fold_some _ _ _ E). assert (~ In None vs) as N by (intros N; now apply D in N).
      rewrite Hn in N. destruct (fold_defined vs' []) as [s' C]; [intros v Hv ->; contradiction | congruence].
    - exfalso. assert (D := fold_some _ _ _ E'). assert (~ In None vs') as N by (intros N; now apply D in N).
      rewrite <- Hn in N. destruct (fold_defined vs []) as [s0 C]; [intros v Hv ->; contradiction | congruence].
  Qed.

  Lemma lookups_singletons tr keys :
    (forall a, In a keys -> exists v, measurement_time_set tr [a] = Ok v) -> exists vs, lookups tr keys = Ok vs.
  Proof.
    induction keys as [|a keys IH]; intros H; [exists []; reflexivity|].
    destruct (H a) as [v Hv]; [now left|]. destruct IH as [vs Hvs]; [intros; apply H; now right|].
    cbn in Hv |- *. destruct (lookup tr a) as [w|]; cbn in *; [|discriminate]. rewrite Hvs. cbn. eexists; reflexivity.
  Qed.

  (** ** Recorded entries *)
  Definition adds_arg (k : K) (a : karg) : nat :=
    match a with AKey (Some k') => if keqb k k' then 1 else 0 | _ => 0 end.
  Definition adds (k : K) (c : call) : nat :=
    match c with
    | CMeasure ks | CDummies _ ks => list_sum (map (adds_arg k) ks)
    | CGroup _ g => adds_arg k g
    end.

  Lemma push_hist tr k v t' k' :
    hist (push keqb tr k v t') k' = if keqb k' k then v :: hist tr k' else hist tr k'.
  Proof. reflexivity. Qed.

  Lemma plain_key_inv (a : karg) k : plain_key a = Ok k -> a = AKey (Some k).
  Proof. destruct a as [[k'|]|]; cbn; try discriminate. intros H. now injection H as ->. Qed.

  Lemma add_measurements_hist keys k : forall tr tr', add_measurements keqb tr keys = Ok tr' ->
    exists new, hist tr' k = new ++ hist tr k /\ length new = list_sum (map (adds_arg k) keys).
  Proof.
    induction keys as [|a keys IH]; intros tr tr' H; cbn in H; [injection H as <-; exists []; split; reflexivity|].
    destruct (plain_key a) as [k0|] eqn:E; cbn in H; [|discriminate]. apply plain_key_inv in E. subst a.
    apply IH in H. destruct H as (new & H & L). rewrite push_hist in H. cbn [map adds_arg list_sum fold_right].
    unfold list_sum in L. destruct (keqb k k0).
    - exists (new ++ [Some [tm tr]]). rewrite <- app_assoc. split; [exact H|]. rewrite app_length; cbn. lia.
    - exists new. split; [exact H | exact L].
  Qed.
  Lemma add_dummies_hist o keys k : forall tr tr', add_dummies keqb tr o keys = Ok tr' ->
    exists new, hist tr' k = new ++ hist tr k /\ length new = list_sum (map (adds_arg k) keys).
  Proof.
    induction keys as [|a keys IH]; intros tr tr' H; cbn in H; [injection H as <-; exists []; split; reflexivity|].
    destruct (plain_key a) as [k0|] eqn:E; cbn in H; [|discriminate]. apply plain_key_inv in E. subst a.
    apply IH in H. destruct H as (new & H & L). rewrite push_hist in H. cbn [map adds_arg list_sum fold_right].
    unfold list_sum in L. destruct (keqb k k0).
    - exists (new ++ [if o then None else Some []]). rewrite <- app_assoc. split; [exact H|]. rewrite app_length; cbn. lia.
    - exists new. split; [exact H | exact L].
  Qed.
  Lemma do_call_hist tr c tr' k : do_call keqb tr c = Ok tr' ->
    exists new, hist tr' k = new ++ hist tr k /\ length new = adds k c.
  Proof.
    destruct c as [ks|o ks|ks g]; cbn [do_call adds]; [apply add_measurements_hist | apply add_dummies_hist|].
    unfold add_group. intros H. destruct (plain_key g) as [k0|] eqn:E; cbn in H; [|discriminate]. apply plain_key_inv in E. subst g.
    destruct (measurement_time_set tr ks) as [v|]; cbn in H; [|discriminate]. injection H as <-. rewrite push_hist. cbn [adds_arg].
    destruct (keqb k k0); [exists [v] | exists []]; split; reflexivity.
  Qed.
  Lemma do_calls_hist cs k : forall tr tr', do_calls keqb tr cs = Ok tr' ->
    exists new, hist tr' k = new ++ hist tr k /\ length new = list_sum (map (adds k) cs).
  Proof.
    induction cs as [|c cs IH]; intros tr tr' H; cbn in H; [injection H as <-; exists []; split; reflexivity|].
    destruct (do_call keqb tr c) as [tr1|] eqn:E; cbn in H; [|discriminate].
    apply IH in H. apply (do_call_hist _ _ _ k) in E. destruct H as (n1 & H1 & L1), E as (n2 & H2 & L2).
    exists (n1 ++ n2). rewrite H1, H2, app_assoc, app_length. split; [reflexivity|].
    cbn [map list_sum fold_right]. unfold list_sum in L1. lia.
  Qed.

  Lemma loop_single (tr : tracker) a acc : time_set_loop tr [a] acc =
    match lookup tr a with Ok (Some s) => Ok (Some (symdiff acc s)) | Ok None => Ok None | Err e => Err e end.
  Proof. cbn. destruct (lookup tr a) as [[s|]|]; reflexivity. Qed.

  Lemma lookup_key (tr : tracker) k : lookup tr (AKey (Some k)) =
    match hist tr k with [] => Err AssertionError | v :: _ => Ok v end.
  Proof.
    unfold lookup. cbn [hist_of]. destruct (hist tr k) as [|v l].
    - cbn. reflexivity.
    - replace (1 <=? Z.of_nat (length (v :: l))) with true by (symmetry; apply Z.leb_le; cbn [length]; lia).
      cbn. reflexivity.
  Qed.
  Lemma lookup_prev (tr : tracker) k j : 0 <= j -> lookup tr (APrev (Some k) j) =
    match nth_error (hist tr k) (Z.to_nat j) with None => Err AssertionError | Some v => Ok v end.
  Proof.
    intros Hj. unfold lookup. cbn [hist_of]. unfold assert_. destruct (1 + j <=? Z.of_nat (length (hist tr k))) eqn:E; cbn [bind].
    - unfold py_neg_index. replace (1 <=? 1 + j) with true by (symmetry; apply Z.leb_le; lia).
      replace (1 + j - 1) with j by lia. apply Z.leb_le in E.
      destruct (nth_error (hist tr k) (Z.to_nat j)) eqn:E2; [reflexivity|]. apply nth_error_None in E2. lia.
    - apply Z.leb_gt in E. destruct (nth_error (hist tr k) (Z.to_nat j)) eqn:E2; [|reflexivity].
      assert (nth_error (hist tr k) (Z.to_nat j) <> None) as N by congruence. apply nth_error_Some in N. lia.
  Qed.
End T2.
