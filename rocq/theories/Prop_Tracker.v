(** C12-C15: the measurement tracker, for every history of calls. *)
From Verif Require Import Prelude Tracker TrackerFacts.
Open Scope Z_scope.

(** ** Specification: what keys stand for
    A key stands for the chronological sequence of values recorded under it; a
    value is a bit, or None for an obstacle.  Nothing here mentions measurement
    indices. *)
Section Spec.
  Context {K : Type} (keqb : K -> K -> bool).

  Record vstate := mkV { vals : K -> list (option bool); count : nat }.
  Definition v0 : vstate := mkV (fun _ => []) 0.

  Definition record1 (s : vstate) (k : K) (v : option bool) (n : nat) : vstate :=
    mkV (fun k' => if keqb k' k then vals s k' ++ [v] else vals s k') n.

  (** Python's list indexing from a chronological list of n entries. *)
  Definition position (n offset : Z) : res Z :=
    if n <? 1 + offset then Err AssertionError
    else if 0 <=? offset then Ok (n - 1 - offset)
    else if - 1 - offset <? n then Ok (- 1 - offset) else Err IndexError.

  Definition value_of (s : vstate) (a : karg (K := K)) : res (option bool) :=
    let (k, off) := match a with AKey k => (k, 0) | APrev k off => (k, off) end in
    let l := match k with Some k => vals s k | None => [] end in
    let! i := position (Z.of_nat (length l)) off in
    Ok (nth (Z.to_nat i) l None).

  Fixpoint parity_of (s : vstate) (keys : list (karg (K := K))) (acc : bool) : res (option bool) :=
    match keys with
    | [] => Ok (Some acc)
    | a :: r => let! v := value_of s a in
                match v with None => Ok None | Some b => parity_of s r (xorb acc b) end
    end.

  Definition key_only (a : karg (K := K)) : res K :=
    match a with AKey (Some k) => Ok k | _ => Err AssertionError end.

  (** Outcome m i is the result of the i-th measurement ever added. *)
  Fixpoint v_measure (m : nat -> bool) (s : vstate) (keys : list (karg (K := K))) : res vstate :=
    match keys with
    | [] => Ok s
    | a :: r => let! k := key_only a in v_measure m (record1 s k (Some (m (count s))) (S (count s))) r
    end.
  Fixpoint v_dummies (s : vstate) (v : option bool) (keys : list (karg (K := K))) : res vstate :=
    match keys with
    | [] => Ok s
    | a :: r => let! k := key_only a in v_dummies (record1 s k v (count s)) v r
    end.
  Definition v_call (m : nat -> bool) (s : vstate) (c : call (K := K)) : res vstate :=
    match c with
    | CMeasure ks => v_measure m s ks
    | CDummies o ks => v_dummies s (if o then None else Some false) ks
    | CGroup ks g => let! k := key_only g in let! v := parity_of s ks false in Ok (record1 s k v (count s))
    end.
  Fixpoint v_calls (m : nat -> bool) (s : vstate) (cs : list (call (K := K))) : res vstate :=
    match cs with
    | [] => Ok s
    | c :: r => let! s' := v_call m s c in v_calls m s' r
    end.

  (** The parity picked out by record targets k1, k2, ... (negative look-backs)
      after n measurements. *)
  Definition parity_at (m : nat -> bool) (n : nat) (ts : list Z) : bool :=
    xsum (fun k => m (Z.to_nat (Z.of_nat n + k))) ts.
End Spec.

Section C12.
  Context {K : Type} (keqb : K -> K -> bool).
  Hypothesis keqb_eq : forall a b, keqb a b = true <-> a = b.
  Variable m : nat -> bool.

  Definition agree (tr : tracker (K := K)) (s : vstate (K := K)) : Prop :=
    wf tr /\ tm tr = count s /\ forall k, map (ev m) (rev (hist tr k)) = vals s k.

  Lemma agree_len tr s k : agree tr s -> length (hist tr k) = length (vals s k).
  Proof. intros (_ & _ & H). now rewrite <- (H k), map_length, rev_length. Qed.

  Lemma agree_lookup tr s a : agree tr s ->
    value_of s a = match lookup tr a with Ok v => Ok (ev m v) | Err e => Err e end.
  Proof.
    intros Ha. unfold value_of, lookup.
    assert (G : forall k off, 
      let l := match k with Some k => vals s k | None => [] end in
      let h := hist_of tr k in
      l = map (ev m) (rev h) ->
      (let! i := position (Z.of_nat (length l)) off in Ok (nth (Z.to_nat i) l None)) =
      match (let! _ := assert_ (1 + off <=? Z.of_nat (length h)) in py_neg_index h (1 + off)) with
      | Ok v => Ok (ev m v) | Err e => Err e end).
    { clear. intros k off l h E. rewrite E. clear E l. rewrite map_length, rev_length. unfold position, assert_.
      destruct (Z.ltb_spec (Z.of_nat (length h)) (1 + off)).
      - replace (1 + off <=? Z.of_nat (length h)) with false by (symmetry; apply Z.leb_gt; lia). reflexivity.
      - replace (1 + off <=? Z.of_nat (length h)) with true by (symmetry; apply Z.leb_le; lia). cbn [bind]. unfold py_neg_index.
        destruct (Z.leb_spec 0 off).
        + replace (1 <=? 1 + off) with true by (symmetry; apply Z.leb_le; lia).
          replace (1 + off - 1) with off by lia. cbn [bind].
          destruct (nth_error h (Z.to_nat off)) as [x|] eqn:E; [|apply nth_error_None in E; lia].
          f_equal. rewrite <- (map_nth (ev m)) with (d := None) at 1 || idtac.
          change None with (ev m None) at 1. rewrite map_nth. f_equal.
          rewrite rev_nth by lia. replace (length h - S (Z.to_nat (Z.of_nat (length h) - 1 - off)))%nat with (Z.to_nat off) by lia.
          now apply nth_error_nth.
        + replace (1 <=? 1 + off) with false by (symmetry; apply Z.leb_gt; lia).
          replace (- (1 + off)) with (- 1 - off) by lia.
          destruct (Z.ltb_spec (- 1 - off) (Z.of_nat (length h))); cbn [bind].
          * destruct (nth_error (rev h) (Z.to_nat (-1 - off))) as [x|] eqn:E; [|apply nth_error_None in E; rewrite rev_length in E; lia].
            f_equal. change None with (ev m None) at 1. rewrite map_nth. f_equal. now apply nth_error_nth.
          * destruct (nth_error (rev h) (Z.to_nat (-1 - off))) as [x|] eqn:E; [|reflexivity].
            assert (N : nth_error (rev h) (Z.to_nat (-1 - off)) <> None) by congruence. apply nth_error_Some in N. rewrite rev_length in N. lia. }
    destruct Ha as (_ & _ & Ha).
    destruct a as [[k|]|[k|] off].
    - apply (G (Some k) 0). symmetry. apply Ha.
    - apply (G None 0). reflexivity.
    - apply (G (Some k) off). symmetry. apply Ha.
    - apply (G None off). reflexivity.
  Qed.

  Lemma agree_parity tr s keys : agree tr s -> forall acc, NoDup acc ->
    parity_of s keys (xsum m acc) =
    match time_set_loop tr keys acc with Ok v => Ok (ev m v) | Err e => Err e end.
  Proof.
    intros Ha. induction keys as [|a keys IH]; intros acc Hacc; cbn [parity_of time_set_loop]; [reflexivity|].
    rewrite (agree_lookup _ _ a Ha). destruct (lookup tr a) as [[x|]|e] eqn:E; cbn [bind ev]; [|reflexivity|reflexivity].
    apply lookup_in in E. destruct E as [k E]. apply (proj1 Ha) in E. destruct E as [E _].
    rewrite <- xsum_symdiff by assumption. apply IH. now apply NoDup_symdiff.
  Qed.

  Lemma agree_push tr s k v n : agree tr s -> (tm tr <= n)%nat -> wf_entry n v ->
    agree (push keqb tr k v n) (record1 keqb s k (ev m v) n).
  Proof.
    intros (Hw & Ht & Hv) L He. split; [|split].
    - now apply wf_push.
    - reflexivity.
    - intros k'. cbn [push record1 hist vals]. destruct (keqb k' k); [|apply Hv].
      cbn [rev]. rewrite map_app. cbn [map]. now rewrite Hv.
  Qed.

  Definition agree_res (r : res (tracker (K := K))) (r' : res (vstate (K := K))) : Prop :=
    match r, r' with Ok tr, Ok s => agree tr s | Err e, Err e' => e = e' | _, _ => False end.

  Lemma agree_call tr s c : agree tr s -> agree_res (do_call keqb tr c) (v_call keqb m s c).
  Proof.
    intros Ha. destruct c as [ks|o ks|ks g]; cbn [do_call v_call].
    - revert tr s Ha. induction ks as [|a ks IH]; intros tr s Ha; cbn; [exact Ha|].
      unfold plain_key, key_only. destruct a as [[k|]|[k|] off]; cbn; try reflexivity.
      apply IH. replace (Some (m (count s))) with (ev m (Some [tm tr])).
      2:{ cbn. rewrite xorb_false_r. now rewrite (proj1 (proj2 Ha)). }
      rewrite <- (proj1 (proj2 Ha)). apply agree_push; [exact Ha | lia |].
      split; [repeat constructor; intros [] | intros x [<-|[]]; lia].
    - revert tr s Ha. induction ks as [|a ks IH]; intros tr s Ha; cbn; [exact Ha|].
      unfold plain_key, key_only. destruct a as [[k|]|[k|] off]; cbn; try reflexivity.
      apply IH. replace (if o then None else Some false) with (ev m (if o then None else Some [])) by (destruct o; reflexivity).
      rewrite <- (proj1 (proj2 Ha)). apply agree_push; [exact Ha | lia |]. destruct o; cbn; [exact I|]. split; [constructor | intros x []].
    - unfold add_group, plain_key, key_only. destruct g as [[k|]|[k|] off]; cbn; try reflexivity.
      change false with (xsum m []). rewrite (agree_parity tr s ks Ha [] (NoDup_nil _)). unfold measurement_time_set.
      destruct (time_set_loop tr ks []) as [v|] eqn:E; cbn; [|reflexivity].
      rewrite <- (proj1 (proj2 Ha)). apply agree_push; [exact Ha | lia |]. eapply time_set_wf; [apply Ha | exact E].
  Qed.

  Lemma agree_calls cs : forall tr s, agree tr s -> agree_res (do_calls keqb tr cs) (v_calls keqb m s cs).
  Proof.
    induction cs as [|c cs IH]; intros tr s Ha; cbn [do_calls v_calls]; [exact Ha|].
    assert (A := agree_call tr s c Ha). destruct (do_call keqb tr c), (v_call keqb m s c); cbn in A |- *; try contradiction; [|exact A].
    now apply IH.
  Qed.
  Lemma agree_init : agree tr_init v0.
  Proof. split; [apply wf_init|]. split; reflexivity. Qed.
End C12.

(** C12.  For every history of calls, the tracker raises exactly when the reference
    does, and otherwise the record targets it returns for any keys pick out the
    parity of the values those keys stand for. *)
Theorem C12_tracker_computes_parities :
  forall (K : Type) (keqb : K -> K -> bool), (forall a b, keqb a b = true <-> a = b) ->
  forall (m : nat -> bool) (cs : list (call (K := K))) (keys : list (karg (K := K))),
  match do_calls keqb tr_init cs, v_calls keqb m v0 cs with
  | Err e, Err e' => e = e'
  | Ok tr, Ok s =>
      match get_record_targets tr keys None, parity_of s keys false with
      | Ok (Some ts), Ok (Some b) => parity_at m (count s) ts = b
      | Ok None, Ok None => True
      | Err e, Err e' => e = e'
      | _, _ => False
      end
  | _, _ => False
  end.
Proof.
  intros K keqb Heq m cs keys.
  assert (A := agree_calls keqb m cs _ _ (agree_init m)).
  destruct (do_calls keqb tr_init cs) as [tr|e], (v_calls keqb m v0 cs) as [s|e']; cbn in A; try contradiction; [|exact A].
  change false with (xsum m []). rewrite (agree_parity m tr s keys A [] (NoDup_nil _)).
  rewrite (targets_plain tr keys (proj1 A)). unfold measurement_time_set.
  destruct (time_set_loop tr keys []) as [[x|]|e] eqn:E; cbn [ev]; [|exact I | reflexivity].
  unfold parity_at. rewrite xsum_map. rewrite (xsum_perm m x _ (isort_perm Nat.leb x)). apply xsum_ext.
  intros t Ht. apply in_isort in Ht. apply (time_set_wf tr keys (Some x) (proj1 A)) in E. destruct E as [_ E]. specialize (E t Ht).
  rewrite <- (proj1 (proj2 A)). f_equal. lia.
Qed.
Print Assumptions C12_tracker_computes_parities.

(** A history with a measurement, a dummy, an obstacle, a group and a re-measured key. *)
Definition demo : list (call (K := nat)) :=
  [CDummies false [AKey (Some 7%nat)]; CDummies true [AKey (Some 8%nat)];
   CMeasure [AKey (Some 1%nat); AKey (Some 2%nat)];
   CGroup [AKey (Some 1%nat); AKey (Some 2%nat); AKey (Some 7%nat)] (AKey (Some 3%nat));
   CMeasure [AKey (Some 1%nat)];
   CGroup [AKey (Some 3%nat); AKey (Some 8%nat)] (AKey (Some 4%nat))].
Example C12_example :
  match do_calls Nat.eqb tr_init demo with
  | Ok tr => get_record_targets tr [AKey (Some 1%nat); AKey (Some 3%nat)] None = Ok (Some [-3; -2; -1])
             /\ get_record_targets tr [AKey (Some 1%nat); Prev (AKey (Some 1%nat)) 1; AKey (Some 3%nat)] None = Ok (Some [-2; -1])
             /\ get_record_targets tr [AKey (Some 4%nat)] None = Ok None
             /\ get_record_targets tr [AKey (Some 9%nat)] None = Err AssertionError
  | Err _ => False
  end.
Proof. vm_compute. repeat split; reflexivity. Qed.

(** C13.  Targets are strictly increasing look-backs within the record; with a
    reference measurement they are the same targets counted from just after it. *)
Theorem C13_record_targets_valid :
  forall (K : Type) (keqb : K -> K -> bool), (forall a b, keqb a b = true <-> a = b) ->
  forall (cs : list (call (K := K))) tr keys ts,
  do_calls keqb tr_init cs = Ok tr -> get_record_targets tr keys None = Ok (Some ts) ->
  StronglySorted Z.lt ts /\ forall k, In k ts -> - Z.of_nat (tm tr) <= k <= -1.
Proof.
  intros K keqb Heq cs tr keys ts Hcs H.
  assert (Hw : wf tr) by (eapply do_calls_wf; [apply wf_init | exact Hcs]).
  rewrite (targets_plain tr keys Hw) in H.
  destruct (measurement_time_set tr keys) as [[s|]|] eqn:E; try discriminate. injection H as <-.
  apply (time_set_wf tr keys _ Hw) in E. destruct E as [Hnd Hlt]. split.
  - assert (S := isort_sorted Nat.leb ltac:(intros x y; rewrite !Nat.leb_le; lia)
                  ltac:(intros x y z; rewrite !Nat.leb_le; lia) s).
    assert (N := NoDup_isort Nat.leb s Hnd). revert S N. generalize (isort Nat.leb s) as l. clear.
    induction l as [|a l IH]; cbn [map]; intros S N; [constructor|].
    inversion S as [|? ? S1 S2]; inversion N as [|? ? N1 N2]; subst. constructor; [now apply IH|].
    apply Forall_forall. intros z Hz. apply in_map_iff in Hz. destruct Hz as (b & <- & Hb).
    rewrite Forall_forall in S2. specialize (S2 b Hb). unfold le_ in S2. apply Nat.leb_le in S2.
    assert (a <> b) by (intros ->; contradiction). lia.
  - intros k Hk. apply in_map_iff in Hk. destruct Hk as (x & <- & Hx). apply in_isort in Hx. specialize (Hlt x Hx). lia.
Qed.
Print Assumptions C13_record_targets_valid.

(** The number of measurements a history adds. *)
Definition measured {K} (cs : list (call (K := K))) : nat :=
  list_sum (map (fun c => match c with CMeasure ks => length ks | _ => 0%nat end) cs).
Theorem C13_time_counts_measurements :
  forall (K : Type) (keqb : K -> K -> bool) (cs : list (call (K := K))) tr,
  do_calls keqb tr_init cs = Ok tr -> tm tr = measured cs.
Proof.
  intros K keqb cs tr H. change (measured cs) with (tm (tr_init (K := K)) + measured cs)%nat.
  revert H. generalize (tr_init (K := K)) as t0. induction cs as [|c cs IH]; intros t0 H; cbn in H.
  - injection H as <-. unfold measured; cbn. lia.
  - destruct (do_call keqb t0 c) as [t1|] eqn:E; cbn in H; [|discriminate]. apply IH in H. rewrite H.
    assert (G : tm t1 = (tm t0 + match c with CMeasure ks => length ks | _ => 0 end)%nat).
    { clear H IH. destruct c as [ks|o ks|ks g]; cbn [do_call] in E.
      - revert t0 E. induction ks as [|a ks IH]; intros t0 E; cbn in E; [injection E as <-; cbn; lia|].
        destruct (plain_key a); cbn in E; [|discriminate]. apply IH in E. rewrite E. cbn. lia.
      - revert t0 E. induction ks as [|a ks IH]; intros t0 E; cbn in E; [injection E as <-; lia|].
        destruct (plain_key a); cbn in E; [|discriminate]. apply IH in E. rewrite E. cbn. lia.
      - unfold add_group in E. destruct (plain_key g); cbn in E; [|discriminate].
        destruct (measurement_time_set t0 ks); cbn in E; [|discriminate]. injection E as <-. cbn. lia. }
    rewrite G. unfold measured. cbn [map list_sum fold_right]. unfold list_sum. lia.
Qed.
Print Assumptions C13_time_counts_measurements.

(** With a reference key, that key's latest entry must be a single measurement t0;
    the targets are then the plain ones moved by the number of measurements made
    since. *)
Theorem C13_relative_to_earlier_time :
  forall (K : Type) (keqb : K -> K -> bool), (forall a b, keqb a b = true <-> a = b) ->
  forall (cs : list (call (K := K))) tr keys k ts,
  do_calls keqb tr_init cs = Ok tr -> get_record_targets tr keys (Some k) = Ok (Some ts) ->
  exists t0 plain, measurement_time_set tr [AKey (Some k)] = Ok (Some [t0]) /\ (t0 < tm tr)%nat
    /\ get_record_targets tr keys None = Ok (Some plain)
    /\ ts = map (fun x => x + Z.of_nat (tm tr - (t0 + 1))) plain
    /\ forall x, In x ts -> - Z.of_nat (t0 + 1) <= x <= -1.
Proof.
  intros K keqb Heq cs tr keys k ts Hcs H.
  assert (Hw : wf tr) by (eapply do_calls_wf; [apply wf_init | exact Hcs]).
  unfold get_record_targets in H. cbn [after_time] in H. rewrite (targets_plain tr keys Hw).
  unfold measurement_time_set at 1. rewrite loop_single, lookup_key.
  destruct (hist tr k) as [|[[|t0 [|? ?]]|] ?] eqn:E; cbn [bind] in H; try discriminate.
  destruct (measurement_time_set tr keys) as [[s|]|] eqn:E2; cbn [bind] in H; try discriminate.
  destruct (mapM _ _) as [ts'|] eqn:E3; cbn [bind] in H; [|discriminate]. injection H as <-.
  apply mapM_target_rec_inv in E3. destruct E3 as [-> Hlt].
  assert (Ht0 : (t0 < tm tr)%nat).
  { assert (W := Hw k (Some [t0])). rewrite E in W. specialize (W (or_introl eq_refl)). apply W. now left. }
  exists t0. eexists. split; [reflexivity|]. split; [exact Ht0|]. split; [reflexivity|]. split.
  - rewrite map_map. apply map_ext. intros x. lia.
  - intros x Hx. apply in_map_iff in Hx. destruct Hx as (y & <- & Hy). specialize (Hlt y Hy). lia.
Qed.
Print Assumptions C13_relative_to_earlier_time.

Example C13_example :
  match do_calls Nat.eqb tr_init demo with
  | Ok tr => tm tr = 3%nat
             /\ get_record_targets tr [Prev (AKey (Some 1%nat)) 1] (Some 2%nat) = Ok (Some [-2])
             /\ get_record_targets tr [AKey (Some 1%nat)] (Some 2%nat) = Err IndexError
             /\ get_record_targets tr [AKey (Some 1%nat)] (Some 3%nat) = Err ValueError
  | Err _ => False
  end.
Proof. vm_compute. repeat split; reflexivity. Qed.

(** C14.  When every key can be looked up, the order of the keys is irrelevant
    (including for obstacles), and a key given twice cancels. *)
Theorem C14_key_order_irrelevant :
  forall (K : Type) (keqb : K -> K -> bool), (forall a b, keqb a b = true <-> a = b) ->
  forall (cs : list (call (K := K))) tr keys keys' after,
  do_calls keqb tr_init cs = Ok tr ->
  (forall a, In a keys -> exists v, measurement_time_set tr [a] = Ok v) ->
  Permutation keys keys' ->
  get_record_targets tr keys after = get_record_targets tr keys' after.
Proof.
  intros K keqb Heq cs tr keys keys' after Hcs Hok Hp.
  assert (Hw : wf tr) by (eapply do_calls_wf; [apply wf_init | exact Hcs]).
  destruct (lookups_singletons tr keys Hok) as [vs Hvs].
  destruct (lookups_perm tr keys keys' Hp vs Hvs) as (vs' & Hvs' & Hpv).
  apply (targets_same tr keys keys' vs vs' after Hw Hvs Hvs').
  - split; apply Permutation_in; [exact Hpv | now symmetry].
  - intros x. unfold parity. now apply xsum_perm.
Qed.
Print Assumptions C14_key_order_irrelevant.

Theorem C14_success_in_any_order :
  forall (K : Type) (keqb : K -> K -> bool), (forall a b, keqb a b = true <-> a = b) ->
  forall (cs : list (call (K := K))) tr keys keys' after ts,
  do_calls keqb tr_init cs = Ok tr ->
  get_record_targets tr keys after = Ok (Some ts) -> Permutation keys keys' ->
  get_record_targets tr keys' after = Ok (Some ts).
Proof.
  intros K keqb Heq cs tr keys keys' after ts Hcs H Hp. rewrite <- H. symmetry.
  apply (C14_key_order_irrelevant K keqb Heq cs tr keys keys' after Hcs); [|exact Hp].
  unfold get_record_targets in H. destruct (after_time tr after) as [t0|]; cbn in H; [|discriminate].
  destruct (measurement_time_set tr keys) as [[s|]|] eqn:E; cbn in H; try discriminate.
  apply loop_some_lookups in E. destruct E as (vs & E & _). clear H Hp. revert vs E.
  induction keys as [|b keys IH]; intros vs E k Hk; [destruct Hk|]. cbn in E.
  destruct (lookup tr b) as [v|] eqn:Eb; cbn in E; [|discriminate].
  destruct (lookups tr keys) as [us|] eqn:Eu; cbn in E; [|discriminate].
  destruct Hk as [<-|Hk]; [|eapply IH; eauto]. unfold measurement_time_set. rewrite loop_single, Eb. destruct v; eexists; reflexivity.
Qed.
Print Assumptions C14_success_in_any_order.

Theorem C14_repeated_key_cancels :
  forall (K : Type) (keqb : K -> K -> bool), (forall a b, keqb a b = true <-> a = b) ->
  forall (cs : list (call (K := K))) tr a keys after s,
  do_calls keqb tr_init cs = Ok tr ->
  (forall b, In b keys -> exists v, measurement_time_set tr [b] = Ok v) ->
  measurement_time_set tr [a] = Ok (Some s) ->
  get_record_targets tr (a :: a :: keys) after = get_record_targets tr keys after.
Proof.
  intros K keqb Heq cs tr a keys after s Hcs Hok Ha.
  assert (Hw : wf tr) by (eapply do_calls_wf; [apply wf_init | exact Hcs]).
  destruct (lookups_singletons tr keys Hok) as [vs Hvs].
  unfold measurement_time_set in Ha. rewrite loop_single in Ha. destruct (lookup tr a) as [[s'|]|] eqn:E; try discriminate.
  apply (targets_same tr (a :: a :: keys) keys (Some s' :: Some s' :: vs) vs after Hw).
  - cbn. rewrite E, Hvs. reflexivity.
  - exact Hvs.
  - split; [intros [H|[H|H]]; [discriminate | discriminate | exact H] | intros H; right; right; exact H].
  - intros x. unfold parity. rewrite !xsum_cons, <- xorb_assoc, xorb_nilpotent. apply xorb_false_l.
Qed.
Print Assumptions C14_repeated_key_cancels.

(** When some key cannot be looked up, the order does matter: an obstacle met first
    hides the failure. *)
Theorem C14_failures_depend_on_order :
  exists (cs : list (call (K := nat))) tr a b,
  do_calls Nat.eqb tr_init cs = Ok tr
  /\ get_record_targets tr [a; b] None = Ok None /\ get_record_targets tr [b; a] None = Err AssertionError.
Proof.
  exists demo. eexists. exists (AKey (Some 8%nat)), (AKey (Some 9%nat)). split; [reflexivity|]. split; vm_compute; reflexivity.
Qed.
Print Assumptions C14_failures_depend_on_order.

Example C14_example :
  match do_calls Nat.eqb tr_init demo with
  | Ok tr =>
      let keys := [AKey (Some 1%nat); AKey (Some 3%nat); Prev (AKey (Some 1%nat)) 1] in
      (forall a, In a keys -> exists v, measurement_time_set tr [a] = Ok v)
      /\ get_record_targets tr keys None = Ok (Some [-2; -1])
      /\ get_record_targets tr (rev keys) None = Ok (Some [-2; -1])
  | Err _ => False
  end.
Proof.
  vm_compute. split; [|split; reflexivity].
  intros a [<-|[<-|[<-|[]]]]; eexists; reflexivity.
Qed.

(** C15.  If k's latest entry at some point stands for a set of measurements, then
    after any further calls recording exactly j more entries for k, Prev(k, j)
    still refers to it: nothing recorded changes. *)
Theorem C15_prev_is_j_entries_back :
  forall (K : Type) (keqb : K -> K -> bool), (forall a b, keqb a b = true <-> a = b) ->
  forall (cs cs' : list (call (K := K))) tr tr' k j v,
  do_calls keqb tr_init cs = Ok tr -> do_calls keqb tr cs' = Ok tr' ->
  measurement_time_set tr [AKey (Some k)] = Ok v ->
  list_sum (map (adds keqb k) cs') = j ->
  measurement_time_set tr' [Prev (AKey (Some k)) (Z.of_nat j)] = Ok v.
Proof.
  intros K keqb Heq cs cs' tr tr' k j v Hcs Hcs' Hv Hj. cbn [Prev]. unfold measurement_time_set in *.
  rewrite loop_single in *. rewrite lookup_key in Hv. rewrite lookup_prev by lia.
  destruct (do_calls_hist keqb cs' k tr tr' Hcs') as (new & H & L). rewrite H, Nat2Z.id, nth_error_app2 by lia.
  replace (j - length new)%nat with 0%nat by lia. destruct (hist tr k) as [|w l]; [discriminate|]. exact Hv.
Qed.
Print Assumptions C15_prev_is_j_entries_back.

(** Looking further back than what was recorded raises AssertionError, also when
    several keys are looked up and the earlier ones are fine. *)
Theorem C15_too_far_back_raises :
  forall (K : Type) (keqb : K -> K -> bool), (forall a b, keqb a b = true <-> a = b) ->
  forall (cs : list (call (K := K))) tr k j after,
  do_calls keqb tr_init cs = Ok tr ->
  (list_sum (map (adds keqb k) cs) <= j)%nat ->
  forall s keys keys', measurement_time_set tr keys = Ok (Some s) -> is_ok (after_time tr after) = true ->
  get_record_targets tr (keys ++ Prev (AKey (Some k)) (Z.of_nat j) :: keys') after = Err AssertionError.
Proof.
  intros K keqb Heq cs tr k j after Hcs Hj s keys keys' Hs Hafter.
  unfold get_record_targets. destruct (after_time tr after); [|discriminate]. cbn [bind].
  replace (measurement_time_set tr (keys ++ Prev (AKey (Some k)) (Z.of_nat j) :: keys')) with (@Err entry AssertionError); [reflexivity|].
  unfold measurement_time_set in *. revert Hs. generalize (@nil nat) as acc.
  induction keys as [|b keys IH]; intros acc Hs; cbn [app time_set_loop] in *.
  - cbn [Prev]. rewrite lookup_prev by lia. rewrite Nat2Z.id.
    destruct (do_calls_hist keqb cs k _ tr Hcs) as (new & H & L). cbn [tr_init hist] in H. rewrite app_nil_r in H. rewrite H.
    replace (nth_error new j) with (@None entry); [reflexivity|]. symmetry. apply nth_error_None. lia.
  - destruct (lookup tr b) as [[x|]|]; cbn [bind] in *; try discriminate. now apply IH.
Qed.
Print Assumptions C15_too_far_back_raises.

Theorem C15_nested_prev_adds :
  forall (K : Type) (a : karg (K := K)) i j, Prev (Prev a i) j = Prev a (i + j).
Proof. intros K [k|k off] i j; cbn; f_equal; lia. Qed.
Print Assumptions C15_nested_prev_adds.

(** A plain key is the same as Prev with offset 0. *)
Theorem C15_prev_zero_is_latest :
  forall (K : Type) (tr : tracker (K := K)) k, measurement_time_set tr [Prev (AKey k) 0] = measurement_time_set tr [AKey k].
Proof. intros K tr k. reflexivity. Qed.
Print Assumptions C15_prev_zero_is_latest.

Example C15_example :
  match do_calls Nat.eqb tr_init demo with
  | Ok tr => measurement_time_set tr [Prev (AKey (Some 1%nat)) 1] = Ok (Some [0%nat])
             /\ measurement_time_set tr [AKey (Some 1%nat)] = Ok (Some [2%nat])
             /\ measurement_time_set tr [Prev (AKey (Some 1%nat)) 2] = Err AssertionError
             /\ list_sum (map (adds Nat.eqb 1%nat) demo) = 2%nat
  | Err _ => False
  end.
Proof. vm_compute. repeat split; reflexivity. Qed.
