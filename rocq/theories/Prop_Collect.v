(** Properties of src/collect_data.py: C39, C40 the sampling loop; C41, C42 the CSV file;
    C43 grouping; C44 remaining work; C45 changing descriptions; C58 detection fractions. *)
From Coq Require Import QArith.
From Coq Require Import DecimalString DecimalZ Ascii.
From Verif Require Import Prelude Text Collect.
Open Scope Z_scope.

(** ** C39, C40 *)
Definition zsum (l : list Z) : Z := fold_right Z.add 0 l.
Definition shots_of {F} (l : list (batch F)) : Z := zsum (map b_shots l).
Definition errors_of {F} (l : list (batch F)) : Z := zsum (map (fun b => b_shots b - b_correct b) l).
(** Specification: when to stop after [n] shots with [e] errors.  The sample standard
    deviation sqrt(p(1-p)/n) is at most s exactly when s >= 0 and p(1-p)/n <= s^2. *)
Definition std_dev_at_most (e n : Z) (s : Q) : Prop :=
  (0 <= s)%Q /\ let p := (inject_Z e / inject_Z n)%Q in (p * (1 - p) / inject_Z n <= s * s)%Q.
Definition stop_rule (P : params) (n e : Z) : Prop :=
  max_shots P <= n \/
  (min_seen_logical_errors P <= e /\ std_dev_at_most e n (max_sample_std_dev P)) \/
  (48 * n <= 100 * e /\ 10 <= e).
(** no batch exceeds max_batch, when given *)
Definition batch_limit (P : params) (n : Z) : Prop := match max_batch P with None => n <= max_shots P | Some b => n <= b end.
(** the sampler raises no exception outside Python *)
Definition pythonic {F} (sample : nat -> desc F -> Z -> res (Z * F)) : Prop := forall t d n, sample t d n <> Err OutOfFuel.
(** the sampler counts *)
Definition counts {F} (sample : nat -> desc F -> Z -> res (Z * F)) : Prop := forall t d n, exists c x, sample t d n = Ok (c, x) /\ (0 <= n -> 0 <= c <= n).

Lemma zsum_app a b : zsum (a ++ b) = zsum a + zsum b.
Proof. induction a as [|x a IH]; simpl; [reflexivity|]. rewrite IH. lia. Qed.

Lemma rate_48 e n : Qle_bool (inject_Z n * (12 # 25)) (inject_Z e) = true <-> 48 * n <= 100 * e.
Proof.
  rewrite Qle_bool_iff. unfold Qle, Qmult, inject_Z. simpl. lia.
Qed.
Lemma sqrt_le_spec e n s : sqrt_le (inject_Z e / inject_Z n * (1 - inject_Z e / inject_Z n) / inject_Z n) s = true <-> std_dev_at_most e n s.
Proof. unfold sqrt_le, std_dev_at_most. rewrite andb_true_iff, !Qle_bool_iff. reflexivity. Qed.

Lemma next_bounds P next total : 1 <= next -> next <= the_max_batch P -> total < max_shots P ->
  1 <= Z.min (the_max_batch P) (Z.min (2 * next) (max_shots P - total)) <= the_max_batch P /\
  total + Z.min (the_max_batch P) (Z.min (2 * next) (max_shots P - total)) <= max_shots P.
Proof. lia. Qed.

Lemma first_le P : first_shots P <= the_max_batch P.
Proof. unfold first_shots. destruct (Z.ltb_spec (the_max_batch P) (min_shots P)); lia. Qed.

Lemma snd_wrote {F} (b : batch F) o : snd (wrote b o) = snd o.
Proof. destruct o as [[l t] r]. reflexivity. Qed.

Section Loop.
  Context {F : Type} (P : params) (sample : nat -> desc F -> Z -> res (Z * F)).

  Lemma loop_terminates d fuel : pythonic sample -> forall t errors total next,
    0 <= total < max_shots P \/ total = 0 -> next <= the_max_batch P -> (Z.to_nat (max_shots P - total) < fuel)%nat ->
    (1 <= next \/ total = 0) ->
    snd (loop P sample fuel d t errors total next) <> Err OutOfFuel.
  Proof.
    intros Hpy. induction fuel as [|fuel IH]; intros t errors total next Ht Hb Hf Hn; [lia|].
    cbn [loop]. unfold do_sample. destruct (Z.ltb_spec next 0) as [Hneg|Hpos]; [simpl; discriminate|].
    destruct (sample t d next) as [[c x]|e] eqn:E; [|simpl; intros [= ->]; now apply (Hpy t d next)].
    rewrite snd_wrote. cbv zeta.
    destruct (Z.eqb_spec (total + next) 0) as [E0|E0]; [simpl; discriminate|].
    destruct (negb _); [simpl; discriminate|].
    destruct (Z.leb_spec (max_shots P) (total + next)); [simpl; discriminate|].
    destruct (_ && _); [simpl; discriminate|]. destruct (_ && _); [simpl; discriminate|].
    destruct (next_bounds P next (total + next)) as [B1 B2]; try lia. apply IH; lia.
  Qed.

  Lemma loop_budget d fuel : forall t errors total next l t' o,
    next <= the_max_batch P -> total + Z.max 0 next <= max_shots P -> 0 <= total -> (1 <= next \/ total = 0) ->
    loop P sample fuel d t errors total next = (l, t', o) ->
    total + shots_of l <= max_shots P /\ Forall (fun b => 0 <= b_shots b <= the_max_batch P) l /\ Forall (fun b => b_desc b = d) l /\
    (forall i b, nth_error l i = Some b -> sample (t + i)%nat d (b_shots b) = Ok (b_correct b, b_secs b)) /\
    (o = Ok tt -> t' = (t + length l)%nat) /\ (t' = (t + length l)%nat \/ t' = S (t + length l) /\ exists n e, do_sample sample (t + length l)%nat d n = Err e /\ o = Err e).
  Proof.
    induction fuel as [|fuel IH]; intros t errors total next l t' o Hb Hs Ht Hn; cbn [loop].
    - intros [= <- <- <-]. split; [cbn; lia|]. split; [constructor|]. split; [constructor|]. split; [intros i b; destruct i; discriminate|].
      split; [discriminate|]. left. cbn. lia.
    - destruct (do_sample sample t d next) as [[c x]|e] eqn:E.
      2:{ intros [= <- <- <-]. split; [cbn; lia|]. split; [constructor|]. split; [constructor|]. split; [intros i b; destruct i; discriminate|].
          split; [discriminate|]. right. cbn [length]. split; [lia|]. exists next, e. rewrite Nat.add_0_r. auto. }
      unfold do_sample in E. destruct (Z.ltb_spec next 0) as [Hneg|Hpos]; [discriminate|].
      assert (G : forall (o0 : outcome) , (let '(l1, t1, r1) := o0 in
          total + next + shots_of l1 <= max_shots P /\ Forall (fun b => 0 <= b_shots b <= the_max_batch P) l1 /\ Forall (fun b => b_desc b = d) l1 /\
          (forall i b, nth_error l1 i = Some b -> sample (S t + i)%nat d (b_shots b) = Ok (b_correct b, b_secs b)) /\
          (r1 = Ok tt -> t1 = (S t + length l1)%nat) /\ (t1 = (S t + length l1)%nat \/ t1 = S (S t + length l1) /\ exists n e, do_sample sample (S t + length l1)%nat d n = Err e /\ r1 = Err e)) ->
        wrote (mkBatch d next c x) o0 = (l, t', o) ->
        total + shots_of l <= max_shots P /\ Forall (fun b => 0 <= b_shots b <= the_max_batch P) l /\ Forall (fun b => b_desc b = d) l /\
    (forall i b, nth_error l i = Some b -> sample (t + i)%nat d (b_shots b) = Ok (b_correct b, b_secs b)) /\
    (o = Ok tt -> t' = (t + length l)%nat) /\ (t' = (t + length l)%nat \/ t' = S (t + length l) /\ exists n e, do_sample sample (t + length l)%nat d n = Err e /\ o = Err e)).
      { intros [[l1 t1] r1] (G1 & G2 & G3 & G4 & G5 & G6). cbn [wrote]. intros [= <- <- <-].
        split; [unfold shots_of in *; simpl; lia|]. split; [constructor; [simpl; lia|exact G2]|].
        split; [constructor; [reflexivity|exact G3]|]. split.
        - intros [|i] b; simpl; [intros [= <-]; rewrite Nat.add_0_r; exact E|]. intros H. apply G4 in H. now rewrite Nat.add_succ_r.
        - replace (t + length (mkBatch d next c x :: l1))%nat with (S t + length l1)%nat by (simpl; lia). split; [exact G5|exact G6]. }
      apply G. clear G. cbv zeta.
      assert (Done : forall r1 : res unit, total + next + shots_of (@nil (batch F)) <= max_shots P /\ Forall (fun b : batch F => 0 <= b_shots b <= the_max_batch P) [] /\ Forall (fun b => b_desc b = d) [] /\
          (forall i b, nth_error [] i = Some b -> sample (S t + i)%nat d (b_shots b) = Ok (b_correct b, b_secs b)) /\
          (r1 = Ok tt -> S t = (S t + length (@nil (batch F)))%nat) /\ (S t = (S t + length (@nil (batch F)))%nat \/ S t = S (S t + length (@nil (batch F))) /\ exists n e, do_sample sample (S t + length (@nil (batch F)))%nat d n = Err e /\ r1 = Err e)).
      { intros r1. split; [cbn; lia|]. split; [constructor|]. split; [constructor|]. split; [intros i b; destruct i; discriminate|].
        split; [intros _; cbn; lia|]. left. cbn. lia. }
      destruct (Z.eqb_spec (total + next) 0) as [E0|E0]; [apply Done|].
      destruct (negb _); [apply Done|].
      destruct (Z.leb_spec (max_shots P) (total + next)); [apply Done|].
      destruct (_ && _); [apply Done|]. destruct (_ && _); [apply Done|].
      destruct (next_bounds P next (total + next)) as [B1 B2]; try lia.
      match goal with |- context [loop ?a1 ?a2 ?a3 ?a4 ?a5 ?a6 ?a7 ?a8] => destruct (loop a1 a2 a3 a4 a5 a6 a7 a8) as [[l1 t1] r1] eqn:El end.
      eapply IH in El; [exact El|lia..].
  Qed.

  Lemma loop_stops d fuel : forall t errors total next l t' o,
    loop P sample fuel d t errors total next = (l, t', o) ->
    (o = Ok tt -> l <> [] /\ stop_rule P (total + shots_of l) (errors + errors_of l)) /\
    (forall l1 l2, l1 <> [] -> l2 <> [] -> l = l1 ++ l2 -> ~ stop_rule P (total + shots_of l1) (errors + errors_of l1)).
  Proof.
    induction fuel as [|fuel IH]; intros t errors total next l t' o; cbn [loop].
    - intros [= <- <- <-]. split; [discriminate|]. intros [|] [|]; try congruence; discriminate.
    - destruct (do_sample sample t d next) as [[c x]|e] eqn:E.
      2:{ intros [= <- <- <-]. split; [discriminate|]. intros [|] [|]; try congruence; discriminate. }
      set (b := mkBatch d next c x). cbv zeta.
      set (tot := total + next). set (err := errors + (next - c)).
      assert (Done : forall r t0, (r = Ok tt -> stop_rule P tot err) -> wrote b ([], t0, r) = (l, t', o) ->
        (o = Ok tt -> l <> [] /\ stop_rule P (total + shots_of l) (errors + errors_of l)) /\
        (forall l1 l2, l1 <> [] -> l2 <> [] -> l = l1 ++ l2 -> ~ stop_rule P (total + shots_of l1) (errors + errors_of l1))).
      { intros r t0 Hr. cbn [wrote]. intros [= <- <- <-]. split.
        - intros Ho. split; [discriminate|]. unfold shots_of, errors_of. simpl. rewrite !Z.add_0_r. apply Hr, Ho.
        - intros [|y l1] [|z l2]; try congruence. intros _ _ [= _ H]. destruct l1; discriminate. }
      destruct (tot =? 0); [apply Done; discriminate|].
      destruct (negb _); [apply Done; discriminate|].
      destruct (Z.leb_spec (max_shots P) tot) as [H1|H1]; [apply Done; intros _; now left|].
      destruct (_ && sqrt_le _ _) eqn:E2.
      { apply Done. intros _. right. left. apply andb_true_iff in E2 as [E2 E3]. split; [now apply Z.leb_le in E2|]. apply sqrt_le_spec, E3. }
      destruct (Qle_bool _ _ && _) eqn:E3.
      { apply Done. intros _. right. right. apply andb_true_iff in E3 as [E3 E4]. split; [apply rate_48, E3|now apply Z.leb_le in E4]. }
      destruct (loop P sample fuel d (S t) err tot _) as [[l1 t1] r1] eqn:El. cbn [wrote]. intros [= <- <- <-].
      apply IH in El as [G1 G2].
      assert (Hno : ~ stop_rule P tot err).
      { intros [H|[[Ha Hb]|[Ha Hb]]]; [lia| |].
        - apply andb_false_iff in E2 as [E2|E2]; [apply Z.leb_gt in E2; lia|]. apply sqrt_le_spec in Hb. unfold err, tot in *. congruence.
        - apply andb_false_iff in E3 as [E3|E3]; [|apply Z.leb_gt in E3; lia]. apply rate_48 in Ha. unfold err, tot in *. congruence. }
      assert (Hs : forall k : list (batch F), total + shots_of (b :: k) = tot + shots_of k) by (intros k; unfold shots_of, tot; simpl; lia).
      assert (He : forall k : list (batch F), errors + errors_of (b :: k) = err + errors_of k) by (intros k; unfold errors_of, err; simpl; lia).
      split.
      + intros Ho. split; [discriminate|]. rewrite Hs, He. apply G1, Ho.
      + intros [|y k1] k2 Hk1 Hk2; [congruence|]. cbn [app]. intros [= <- Hl]. rewrite Hs, He.
        destruct k1 as [|z k1].
        * unfold shots_of, errors_of. simpl. rewrite !Z.add_0_r. exact Hno.
        * apply (G2 (z :: k1) k2); [discriminate|exact Hk2|exact Hl].
  Qed.
End Loop.

(** Whatever the sampler answers, one problem never takes more than max_shots shots in
    total nor more than max_batch at once. *)
Theorem C39_budget : forall {F} (P : params) (sample : nat -> desc F -> Z -> res (Z * F)) t d l t' o,
  0 <= max_shots P ->
  (min_shots P <= max_shots P \/ match max_batch P with None => True | Some b => b <= max_shots P end) ->
  collect_problem P sample t d = (l, t', o) ->
  shots_of l <= max_shots P /\ Forall (fun b => 0 <= b_shots b /\ batch_limit P (b_shots b)) l.
Proof.
  intros F P sample t d l t' o H0 H1 H. unfold collect_problem in H.
  assert (Hf : first_shots P <= max_shots P).
  { unfold first_shots, the_max_batch. destruct (max_batch P); destruct (Z.ltb_spec z (min_shots P)) || destruct (Z.ltb_spec (max_shots P) (min_shots P)); lia. }
  eapply loop_budget in H; [|apply first_le|lia|lia|lia]. destruct H as (G1 & G2 & _). split; [lia|].
  eapply Forall_impl; [|exact G2]. intros b [B1 B2]. split; [exact B1|]. unfold batch_limit, the_max_batch in *. destruct (max_batch P); exact B2.
Qed.
Print Assumptions C39_budget.

(** The while loop always ends, for every parameter setting. *)
Theorem C39_terminates : forall {F} (P : params) (sample : nat -> desc F -> Z -> res (Z * F)) t ds, pythonic sample ->
  snd (collect_problems P sample t ds) <> Err OutOfFuel.
Proof.
  intros F P sample t ds Hpy. revert t. induction ds as [|d ds IH]; intros t; simpl; [discriminate|].
  assert (G : snd (collect_problem P sample t d) <> Err OutOfFuel).
  { unfold collect_problem. apply loop_terminates; auto; [apply first_le|lia]. }
  destruct (collect_problem P sample t d) as [[l t1] [[]|e]]; simpl in *; [|exact G].
  specialize (IH t1). destruct (collect_problems P sample t1 ds) as [[l' t2] o]. exact IH.
Qed.
Print Assumptions C39_terminates.

(** With a counting sampler and positive parameters nothing is raised. *)
Lemma loop_ok {F} (P : params) (sample : nat -> desc F -> Z -> res (Z * F)) d fuel : counts sample -> forall t errors total next,
  0 <= total < max_shots P \/ total = 0 -> 1 <= next <= the_max_batch P -> (Z.to_nat (max_shots P - total) < fuel)%nat -> 0 <= errors <= total ->
  snd (loop P sample fuel d t errors total next) = Ok tt.
Proof.
  intros Hc. induction fuel as [|fuel IH]; intros t errors total next Ht Hn Hf He; [lia|].
  cbn [loop]. unfold do_sample. destruct (Z.ltb_spec next 0) as [Hneg|Hpos]; [lia|].
  destruct (Hc t d next) as (c & x & -> & Hcn). specialize (Hcn Hpos). rewrite snd_wrote. cbv zeta. destruct (Z.eqb_spec (total + next) 0) as [E0|E0]; [lia|].
  assert (V : Qle_bool 0 (inject_Z (errors + (next - c)) / inject_Z (total + next) * (1 - inject_Z (errors + (next - c)) / inject_Z (total + next)) / inject_Z (total + next)) = true).
  { apply Qle_bool_iff. set (e := errors + (next - c)). set (n := total + next).
    assert (Hn0 : (0 < inject_Z n)%Q) by (unfold Qlt, inject_Z; simpl; unfold n; lia).
    assert (P0 : (0 <= inject_Z e / inject_Z n)%Q). { apply Qle_shift_div_l; [exact Hn0|]. unfold Qle, Qmult, inject_Z. simpl. unfold e. lia. }
    assert (P1 : (inject_Z e / inject_Z n <= 1)%Q). { apply Qle_shift_div_r; [exact Hn0|]. unfold Qle, Qmult, inject_Z. simpl. unfold e, n. lia. }
    apply Qle_shift_div_l; [exact Hn0|]. rewrite Qmult_0_l. apply Qmult_le_0_compat; [exact P0|]. 
    apply (Qplus_le_l _ _ (inject_Z e / inject_Z n)). ring_simplify. exact P1. }
  rewrite V. cbn [negb].
  destruct (Z.leb_spec (max_shots P) (total + next)); [reflexivity|].
  destruct (_ && _); [reflexivity|]. destruct (_ && _); [reflexivity|].
  destruct (next_bounds P next (total + next)) as [B1 B2]; try lia. apply IH; lia.
Qed.

Theorem C39_completes : forall {F} (P : params) (sample : nat -> desc F -> Z -> res (Z * F)) t ds,
  1 <= min_shots P -> 1 <= max_shots P -> match max_batch P with None => True | Some b => 1 <= b end -> counts sample ->
  snd (collect_problems P sample t ds) = Ok tt.
Proof.
  intros F P sample t ds H1 H2 H3 Hc. revert t. induction ds as [|d ds IH]; intros t; simpl; [reflexivity|].
  assert (G : snd (collect_problem P sample t d) = Ok tt).
  { unfold collect_problem. apply loop_ok; auto; try lia. split; [|apply first_le].
    unfold first_shots, the_max_batch. destruct (max_batch P); destruct (Z.ltb_spec z (min_shots P)) || destruct (Z.ltb_spec (max_shots P) (min_shots P)); lia. }
  destruct (collect_problem P sample t d) as [[l t1] o]; simpl in G; subst o.
  specialize (IH t1). destruct (collect_problems P sample t1 ds) as [[l' t2] o]. exact IH.
Qed.
Print Assumptions C39_completes.

(** A problem is finished when a stopping rule holds for the totals, and sampling never
    goes on once one holds. *)
Theorem C39_stopping : forall {F} (P : params) (sample : nat -> desc F -> Z -> res (Z * F)) t d l t' o,
  collect_problem P sample t d = (l, t', o) ->
  (o = Ok tt -> stop_rule P (shots_of l) (errors_of l)) /\
  (forall l1 l2, l1 <> [] -> l2 <> [] -> l = l1 ++ l2 -> ~ stop_rule P (shots_of l1) (errors_of l1)).
Proof.
  intros F P sample t d l t' o H. unfold collect_problem in H. apply loop_stops in H as [G1 G2]. split.
  - intros Ho. apply (G1 Ho).
  - intros l1 l2 H1 H2 Hl. apply (G2 l1 l2 H1 H2 Hl).
Qed.
Print Assumptions C39_stopping.

Definition ex_params : params := mkParams 10 100 (Some 30) (1#2) 20.
Definition ex_desc : desc Z := mkDesc 4 6 2 60 30 1 "EM3" "V" "internal".
Definition ex_sample (t : nat) (d : desc Z) (n : Z) : res (Z * Z) := Ok (n - n / 10, 7).
Example C39_example :
  collect_problem ex_params ex_sample 0 ex_desc =
    ([mkBatch ex_desc 10 9 7; mkBatch ex_desc 20 18 7; mkBatch ex_desc 30 27 7; mkBatch ex_desc 30 27 7; mkBatch ex_desc 10 9 7], 5%nat, Ok tt) /\
  counts ex_sample /\ min_shots ex_params <= max_shots ex_params /\
  ~ stop_rule ex_params 60 6 /\ stop_rule ex_params 100 10.
Proof.
  split; [vm_compute; reflexivity|]. split.
  - intros t d n. exists (n - n / 10), 7. split; [reflexivity|]. intros H. dlia.
  - split; [vm_compute; discriminate|]. split; [|left; vm_compute; discriminate].
    unfold stop_rule, ex_params. simpl. lia.
Qed.

(** Explicit limits out of order overshoot max_shots; a zero minimum divides by zero. *)
Example C39_limits_out_of_order :
  shots_of (fst (fst (collect_problem (mkParams 50 20 (Some 60) 1 5) ex_sample 0 ex_desc))) = 50 /\
  snd (collect_problem (mkParams 0 20 None 1 5) ex_sample 0 ex_desc) = Err ZeroDivisionError.
Proof. split; vm_compute; reflexivity. Qed.

(** At least min_shots (or max_shots) samples are taken when the batch limit allows a
    first batch of that size. *)
Theorem C40_min_shots : forall {F} (P : params) (sample : nat -> desc F -> Z -> res (Z * F)) t d l t',
  match max_batch P with None => True | Some b => min_shots P <= b end -> 0 <= max_shots P ->
  collect_problem P sample t d = (l, t', Ok tt) -> Z.min (min_shots P) (max_shots P) <= shots_of l.
Proof.
  intros F P sample t d l t' Hb H0 H. unfold collect_problem in H.
  assert (Hf : Z.min (min_shots P) (max_shots P) <= first_shots P).
  { unfold first_shots, the_max_batch. destruct (max_batch P); destruct (Z.ltb_spec z (min_shots P)) || destruct (Z.ltb_spec (max_shots P) (min_shots P)); lia. }
  assert (G : exists b r, l = b :: r /\ b_shots b = first_shots P /\ Forall (fun b => 0 <= b_shots b) r).
  { revert H. cbn [loop]. destruct (do_sample sample t d (first_shots P)) as [[c x]|e] eqn:E; [|discriminate].
    unfold do_sample in E. destruct (Z.ltb_spec (first_shots P) 0); [discriminate|]. cbv zeta.
    assert (Done : forall t0 (r : res unit), wrote (mkBatch d (first_shots P) c x) ([], t0, r) = (l, t', Ok tt) ->
       exists b r, l = b :: r /\ b_shots b = first_shots P /\ Forall (fun b => 0 <= b_shots b) r).
    { intros t0 r. cbn [wrote]. intros [= <- _ _]. eexists _, []. split; [reflexivity|]. split; [reflexivity|constructor]. }
    destruct (_ =? 0) eqn:E0; [apply Done|]. destruct (negb _); [apply Done|].
    destruct (Z.leb_spec (max_shots P) (0 + first_shots P)) as [H1|H1]; [apply Done|].
    destruct (_ && _); [apply Done|]. destruct (_ && _); [apply Done|].
    destruct (loop P sample (Z.to_nat (max_shots P)) d (S t) _ _ _) as [[l1 t1] r1] eqn:El. cbn [wrote]. intros [= <- <- ->].
    apply Z.eqb_neq in E0. pose proof (first_le P).
    destruct (next_bounds P (first_shots P) (0 + first_shots P)) as [B1 B2]; try lia.
    apply loop_budget in El; [|lia|lia|lia|lia]. destruct El as (_ & G2 & _). eexists _, l1. split; [reflexivity|]. split; [reflexivity|].
    eapply Forall_impl; [|exact G2]. intros b0 [B _]. exact B. }
  destruct G as (b & r & -> & Eb & Hr). unfold shots_of. simpl. rewrite Eb.
  enough (0 <= zsum (map b_shots r)) by lia. clear - Hr. induction Hr; simpl; lia.
Qed.
Print Assumptions C40_min_shots.

(** The documented minimum is not honoured when max_batch is smaller. *)
Theorem C40_min_shots_refuted : exists (P : params) (sample : nat -> desc Z -> Z -> res (Z * Z)) d l t,
  counts sample /\ min_shots P <= max_shots P /\ collect_problem P sample 0 d = (l, t, Ok tt) /\ shots_of l < min_shots P.
Proof.
  exists (mkParams 100 1000 (Some 20) 1 10), (fun _ _ n => Ok (n / 2, 0)), ex_desc.
  eexists _, _. split; [|split; [vm_compute; discriminate|]].
  - intros t d n. exists (n / 2), 0. split; [reflexivity|]. intros H. dlia.
  - split; [vm_compute; reflexivity|]. vm_compute. reflexivity.
Qed.
Print Assumptions C40_min_shots_refuted.

(** ** C41, C42: the CSV file *)
(** Texts that need no quoting. *)
Definition plain (s : string) : Prop := free "," s /\ free (ascii_of_nat 10) s /\ free (ascii_of_nat 13) s /\ free (ascii_of_nat 34) s.
Definition plain_desc {F} (d : desc F) : Prop := plain (d_style d) /\ plain (d_obs d) /\ plain (d_decoder d).
(** Floats are printed so that they read back (Python's repr), and compare as values. *)
Definition float_io {F} (fmt : F -> string) (parse : string -> option F) (feqb : F -> F -> bool) : Prop :=
  (forall x, parse (fmt x) = Some x) /\ (forall x, plain (fmt x)) /\ (forall a b, feqb a b = true <-> a = b).

(** Every recorded batch is the answer to one sampler call, in order, and no answer is
    lost. *)
Lemma loop_calls {F} (P : params) (sample : nat -> desc F -> Z -> res (Z * F)) d fuel : forall t errors total next l t' o,
    loop P sample fuel d t errors total next = (l, t', o) ->
    (forall i b, nth_error l i = Some b -> b_desc b = d /\ sample (t + i)%nat d (b_shots b) = Ok (b_correct b, b_secs b)) /\
    (t' = (t + length l)%nat \/ t' = S (t + length l) /\ exists n e, do_sample sample (t + length l)%nat d n = Err e /\ o = Err e).
Proof.
  induction fuel as [|fuel IH]; intros t errors total next l t' o; cbn [loop].
  - intros [= <- <- <-]. split; [intros i b; destruct i; discriminate|]. left. simpl. lia.
  - destruct (do_sample sample t d next) as [[c x]|e] eqn:E.
    2:{ intros [= <- <- <-]. split; [intros i b; destruct i; discriminate|]. right. cbn [length]. split; [lia|]. exists next, e. rewrite Nat.add_0_r. auto. }
    assert (E1 : sample t d next = Ok (c, x)) by (unfold do_sample in E; destruct (next <? 0); [discriminate|exact E]).
    assert (G : forall o0 : outcome, (let '(l1, t1, r1) := o0 in
        (forall i b, nth_error l1 i = Some b -> b_desc b = d /\ sample (S t + i)%nat d (b_shots b) = Ok (b_correct b, b_secs b)) /\
        (t1 = (S t + length l1)%nat \/ t1 = S (S t + length l1) /\ exists n e, do_sample sample (S t + length l1)%nat d n = Err e /\ r1 = Err e)) ->
      wrote (mkBatch d next c x) o0 = (l, t', o) ->
      (forall i b, nth_error l i = Some b -> b_desc b = d /\ sample (t + i)%nat d (b_shots b) = Ok (b_correct b, b_secs b)) /\
      (t' = (t + length l)%nat \/ t' = S (t + length l) /\ exists n e, do_sample sample (t + length l)%nat d n = Err e /\ o = Err e)).
    { intros [[l1 t1] r1] (G1 & G2). cbn [wrote]. intros [= <- <- <-]. split.
      - intros [|i] b; simpl; [intros [= <-]; rewrite Nat.add_0_r; split; [reflexivity|exact E1]|]. intros H. apply G1 in H. now rewrite Nat.add_succ_r.
      - replace (t + length (mkBatch d next c x :: l1))%nat with (S t + length l1)%nat by (simpl; lia). exact G2. }
    apply G. clear G. cbv zeta.
    assert (Done : forall r1 : res unit, (forall i (b : batch F), nth_error [] i = Some b -> b_desc b = d /\ sample (S t + i)%nat d (b_shots b) = Ok (b_correct b, b_secs b)) /\
        (S t = (S t + length (@nil (batch F)))%nat \/ S t = S (S t + length (@nil (batch F))) /\ exists n e, do_sample sample (S t + length (@nil (batch F)))%nat d n = Err e /\ r1 = Err e)).
    { intros r1. split; [intros i b; destruct i; discriminate|]. left. cbn. lia. }
    destruct (_ =? 0); [apply Done|]. destruct (negb _); [apply Done|]. destruct (_ <=? _); [apply Done|].
    destruct (_ && _); [apply Done|]. destruct (_ && _); [apply Done|].
    match goal with |- context [loop ?a1 ?a2 ?a3 ?a4 ?a5 ?a6 ?a7 ?a8] => destruct (loop a1 a2 a3 a4 a5 a6 a7 a8) as [[l1 t1] r1] eqn:El end.
    eapply IH in El. exact El.
Qed.

Lemma problems_calls {F} (P : params) (sample : nat -> desc F -> Z -> res (Z * F)) ds : forall t l t' o,
    collect_problems P sample t ds = (l, t', o) ->
    (forall i b, nth_error l i = Some b -> In (b_desc b) ds /\ sample (t + i)%nat (b_desc b) (b_shots b) = Ok (b_correct b, b_secs b)) /\
    (t' = (t + length l)%nat \/ t' = S (t + length l) /\ exists d n e, In d ds /\ do_sample sample (t + length l)%nat d n = Err e /\ o = Err e).
Proof.
  induction ds as [|d ds IH]; intros t l t' o; simpl.
  - intros [= <- <- <-]. split; [intros i b; destruct i; discriminate|]. left. simpl. lia.
  - destruct (collect_problem P sample t d) as [[l1 t1] o1] eqn:E1. unfold collect_problem in E1. apply loop_calls in E1 as [A1 A2].
    destruct o1 as [[]|e1].
    + assert (Ht1 : t1 = (t + length l1)%nat) by (destruct A2 as [A2|(A2 & n & e & _ & A3)]; [exact A2|discriminate]).
      destruct (collect_problems P sample t1 ds) as [[l2 t2] o2] eqn:E2. intros [= <- <- <-]. apply IH in E2 as [B1 B2]. split.
      * intros i b Hi. destruct (Nat.lt_ge_cases i (length l1)) as [Hl|Hl].
        -- rewrite nth_error_app1 in Hi by assumption. apply A1 in Hi as [-> Hi]. auto.
        -- rewrite nth_error_app2 in Hi by assumption. apply B1 in Hi as [Hd Hi]. split; [now right|].
           replace (t + i)%nat with (t1 + (i - length l1))%nat by lia. exact Hi.
      * rewrite app_length. destruct B2 as [B2|(B2 & d' & n & e & Hd & Hs & Ho)]; [left; lia|right].
        split; [lia|]. exists d', n, e. split; [now right|]. split; [|exact Ho].
        replace (t + (length l1 + length l2))%nat with (t1 + length l2)%nat by lia. exact Hs.
    + intros [= <- <- <-]. split.
      * intros i b Hi. apply A1 in Hi as [-> Hi]. auto.
      * destruct A2 as [A2|(A2 & n & e & Hs & Ho)]; [left; exact A2|right]. split; [exact A2|]. exists d, n, e. auto.
Qed.

(** *** Text *)
Lemma split_concat c l : l <> [] -> Forall (free c) l -> split c (String.concat (String c "") l) = l.
Proof.
  induction l as [|x l IH]; intros Hne Hf; [congruence|]. inversion Hf as [|? ? H1 H2]; subst.
  destruct l as [|y l]; [simpl; now apply split_free|].
  change (String.concat (String c "") (x :: y :: l)) with (x ++ String c "" ++ String.concat (String c "") (y :: l))%string.
  change (String c "" ++ ?r)%string with (String c r). 
  rewrite split_join by assumption. f_equal. apply IH; [discriminate|assumption].
Qed.
Lemma free_concat c sep l : free c sep -> Forall (free c) l -> free c (String.concat sep l).
Proof.
  intros Hs. induction l as [|x l IH]; intros H; [exact Logic.I|]. inversion H as [|? ? H1 H2]; subst.
  destruct l as [|y l]; [exact H1|].
  change (String.concat sep (x :: y :: l)) with (x ++ sep ++ String.concat sep (y :: l))%string.
  apply free_app; [exact H1|]. apply free_app; [exact Hs|]. apply IH, H2.
Qed.
Definition text_of (ls : list string) : string := String.concat "" (map (fun l => (l ++ newline)%string) ls).
Lemma text_app a b : text_of (a ++ b) = (text_of a ++ text_of b)%string.
Proof.
  unfold text_of. induction a as [|x a IH]; [reflexivity|]. cbn [map app]. rewrite !concat_cons, IH, !sapp_assoc. reflexivity.
Qed.
Lemma split_text ls : Forall (free (ascii_of_nat 10)) ls -> split (ascii_of_nat 10) (text_of ls) = ls ++ [""%string].
Proof.
  unfold text_of. induction ls as [|l ls IH]; intros H; [reflexivity|]. inversion H as [|? ? H1 H2]; subst.
  cbn [map]. rewrite concat_cons, sapp_assoc, newline_app, split_join by assumption. rewrite IH by assumption. reflexivity.
Qed.
Lemma lines_text ls : Forall (free (ascii_of_nat 10)) ls -> lines (text_of ls) = ls.
Proof. intros H. unfold lines. rewrite split_text by assumption. rewrite last_last, removelast_last. reflexivity. Qed.

Lemma nondigit_of c : Forall (fun d => Ascii.eqb d c = false) ["0"; "1"; "2"; "3"; "4"; "5"; "6"; "7"; "8"; "9"]%char -> nondigit c.
Proof. intros H d Hd. rewrite Forall_forall in H. apply H, Hd. Qed.
Lemma int_free c z : nondigit c -> Ascii.eqb "-" c = false -> free c (str_int z).
Proof.
  intros H Hm. unfold str_int, NilZero.string_of_int. destruct (Z.to_int z) as [d|d].
  - unfold NilZero.string_of_uint. destruct d; try (apply uint_free; assumption). split; [apply H; cbn [In]; tauto|exact Logic.I].
  - cbn [free]. split; [exact Hm|]. unfold NilZero.string_of_uint. destruct d; try (apply uint_free; assumption). split; [apply H; cbn [In]; tauto|exact Logic.I].
Qed.
Lemma int_plain z : plain (str_int z).
Proof. repeat split; (apply int_free; [apply nondigit_of; repeat constructor|reflexivity]). Qed.
Lemma int_read z : int_str (str_int z) = Ok z.
Proof.
  unfold int_str, str_int. rewrite NilZero.isi.
  - f_equal. apply DecimalZ.of_to.
  - pose proof (DecimalZ.to_of (Z.to_int z)) as T. rewrite DecimalZ.of_to in T.
    intros E. rewrite E in T. discriminate.
  - pose proof (DecimalZ.to_of (Z.to_int z)) as T. rewrite DecimalZ.of_to in T.
    intros E. rewrite E in T. discriminate.
Qed.

Section File.
  Context {F : Type} (fmt : F -> string) (parse : string -> option F) (fadd : F -> F -> F) (fzero : F) (feqb : F -> F -> bool).

  Definition of_desc (d : desc F) (bs : list (batch F)) : list (batch F) := filter (fun b => desc_eqb feqb d (b_desc b)) bs.
  (** Specification: [data] holds, for each description that occurs, the sums over its
      batches, and nothing else. *)
  Definition totals (bs : list (batch F)) (data : problem_data F) : Prop :=
    NoDup (map fst data) /\
    forall d, dget (desc_eqb feqb) d data =
      match of_desc d bs with
      | [] => None
      | l => Some (mkShots (zsum (map b_shots l)) (zsum (map b_correct l)) (fold_left fadd (map b_secs l) fzero))
      end.

  Hypothesis IO : float_io fmt parse feqb.

  Lemma desc_eqb_spec a b : desc_eqb feqb a b = true <-> a = b.
  Proof.
    destruct IO as (_ & _ & Hf). destruct a, b. unfold desc_eqb. simpl.
    rewrite !andb_true_iff, !Z.eqb_eq, !String.eqb_eq, Hf. split.
    - intros H. decompose [and] H. subst. reflexivity.
    - intros [= -> -> -> -> -> -> -> -> ->]. tauto.
  Qed.

  Lemma dget_dupd {K V} (eqb : K -> K -> bool) (H : forall a b, eqb a b = true <-> a = b) k (def : V) f l k' :
    dget eqb k' (dupd eqb k def f l) = if eqb k' k then Some (f match dget eqb k l with Some v => v | None => def end) else dget eqb k' l.
  Proof.
    induction l as [|[k0 v0] l IH]; simpl; [reflexivity|].
    destruct (eqb k k0) eqn:E; simpl.
    - apply H in E. subst k0. destruct (eqb k' k); reflexivity.
    - rewrite IH. destruct (eqb k' k0) eqn:E0; [|reflexivity]. apply H in E0. subst k0.
      destruct (eqb k' k) eqn:E1; [|reflexivity]. apply H in E1. subst. rewrite (proj2 (H k k) eq_refl) in E. discriminate.
  Qed.
  Lemma dupd_keys {K V} (eqb : K -> K -> bool) (H : forall a b, eqb a b = true <-> a = b) k (def : V) f l :
    map fst (dupd eqb k def f l) = if existsb (fun k' => eqb k k') (map fst l) then map fst l else map fst l ++ [k].
  Proof.
    induction l as [|[k0 v0] l IH]; simpl; [reflexivity|]. destruct (eqb k k0) eqn:E; simpl; [reflexivity|].
    rewrite IH. destruct (existsb _ _); reflexivity.
  Qed.
  Lemma dupd_NoDup {K V} (eqb : K -> K -> bool) (H : forall a b, eqb a b = true <-> a = b) k (def : V) f l :
    NoDup (map fst l) -> NoDup (map fst (dupd eqb k def f l)).
  Proof.
    intros Hn. rewrite dupd_keys by assumption. destruct (existsb _ _) eqn:E; [exact Hn|].
    apply NoDup_app_intro; [exact Hn|repeat constructor; intros []|]. intros x Hx [<-|[]].
    assert (existsb (fun k' => eqb k k') (map fst l) = true) by (apply existsb_exists; exists k; split; [exact Hx|now apply H]). congruence.
  Qed.

  Definition add_batch (data : problem_data F) (b : batch F) : problem_data F :=
    dupd (desc_eqb feqb) (b_desc b) (no_shots fzero) (fun s => add_shots fadd s (b_shots b) (b_correct b) (b_secs b)) data.

  Lemma totals_fold bs0 bs : forall data, totals bs0 data -> totals (bs0 ++ bs) (fold_left add_batch bs data).
  Proof.
    revert bs0. induction bs as [|b bs IH]; intros bs0 data H; simpl; [now rewrite app_nil_r|].
    change (b :: bs) with ([b] ++ bs). rewrite app_assoc. apply IH. clear IH. destruct H as [Hn Hg]. split.
    - apply dupd_NoDup; [apply desc_eqb_spec|exact Hn].
    - intros d. unfold add_batch. rewrite dget_dupd by apply desc_eqb_spec. rewrite !Hg. unfold of_desc. rewrite filter_app. cbn [filter].
      destruct (desc_eqb feqb d (b_desc b)) eqn:E.
      + apply desc_eqb_spec in E. subst d. set (l := filter _ bs0). unfold add_shots.
        destruct l as [|y l]; [simpl; f_equal; f_equal; lia|]. cbn [app].
        cbn [num_shots num_correct total_processing_seconds]. f_equal. f_equal.
        * change (y :: l ++ [b]) with ((y :: l) ++ [b]). rewrite map_app, zsum_app. simpl. lia.
        * change (y :: l ++ [b]) with ((y :: l) ++ [b]). rewrite map_app, zsum_app. simpl. lia.
        * change (y :: l ++ [b]) with ((y :: l) ++ [b]). rewrite map_app, fold_left_app. reflexivity.
      + rewrite app_nil_r. reflexivity.
  Qed.

  Definition plain_batch (b : batch F) : Prop := plain_desc (b_desc b).
  Lemma fields_plain b : plain_batch b -> Forall plain (record_fields fmt b).
  Proof.
    intros (H1 & H2 & H3). destruct IO as (_ & Hp & _). unfold record_fields.
    repeat (constructor; [first [apply int_plain|apply Hp|assumption]|]). constructor.
  Qed.
  Lemma line_fields b : plain_batch b -> split "," (record_line fmt b) = record_fields fmt b.
  Proof.
    intros H. unfold record_line. apply (split_concat ","); [discriminate|].
    eapply Forall_impl; [|apply fields_plain, H]. intros s Hs. apply Hs.
  Qed.
  Lemma line_free b : plain_batch b -> free (ascii_of_nat 10) (record_line fmt b).
  Proof.
    intros H. unfold record_line. apply free_concat; [repeat split; reflexivity|].
    eapply Forall_impl; [|apply fields_plain, H]. intros s Hs. apply Hs.
  Qed.
  Lemma read_row_record data b : read_row parse fadd fzero feqb header_fields data (record_fields fmt b) = Ok (add_batch data b).
  Proof.
    destruct IO as (Hr & _ & _). unfold read_row.
    repeat match goal with |- context [row_get ?h ?r ?k] => let v := eval cbv [row_get record_fields header_fields combine rev app find String.eqb Ascii.eqb Bool.eqb] in (row_get h r k) in change (row_get h r k) with v end.
    cbn [bind]. rewrite !int_read. cbn [bind]. unfold float_str. rewrite !Hr. cbn [bind].
    unfold add_batch. destruct b as [[w h ds q r n st ob de] s c x]. reflexivity.
  Qed.
  Lemma line_nonempty b : (record_line fmt b =? "")%string = false.
  Proof.
    unfold record_line, record_fields.
    match goal with |- (String.concat "," (?x :: ?y :: ?l) =? _)%string = _ => change (String.concat "," (x :: y :: l)) with (x ++ String "," (String.concat "," (y :: l)))%string; destruct x; reflexivity end.
  Qed.
  Lemma read_records bs : Forall plain_batch bs -> forall data,
    read_rows parse fadd fzero feqb header_fields data (map (record_line fmt) bs) = Ok (fold_left add_batch bs data).
  Proof.
    induction 1 as [|b bs Hb H IH]; intros data; [reflexivity|]. cbn [map read_rows].
    rewrite line_nonempty, line_fields by assumption. rewrite read_row_record. cbn [bind fold_left]. apply IH.
  Qed.

  (** the file holds the header and the records of [bs] *)
  Definition holds (f : file) (bs : list (batch F)) : Prop := f = Some (text_of (CSV_HEADER :: map (record_line fmt) bs)) /\ Forall plain_batch bs.
  Lemma header_split : split "," CSV_HEADER = header_fields.
  Proof. reflexivity. Qed.
  Lemma holds_read f bs data : holds f bs -> read_files parse fadd fzero feqb data [f] = Ok (fold_left add_batch bs data).
  Proof.
    intros [-> Hb]. cbn [read_files]. unfold read_file. rewrite lines_text.
    - change (CSV_HEADER =? "")%string with false. cbv iota. rewrite header_split, read_records by assumption. reflexivity.
    - constructor; [repeat split; reflexivity|]. apply Forall_forall. intros s (b & <- & Hin)%in_map_iff. apply line_free. rewrite Forall_forall in Hb. auto.
  Qed.
  Lemma holds_append f bs bs' : holds f bs -> Forall plain_batch bs' -> holds (fold_left append_line (map (record_line fmt) bs') f) (bs ++ bs').
  Proof.
    revert f bs. induction bs' as [|b bs' IH]; intros f bs Hf Hb; cbn [map fold_left]; [now rewrite app_nil_r|].
    inversion Hb as [|? ? Hb1 Hb2]; subst. change (b :: bs') with ([b] ++ bs'). rewrite app_assoc. apply IH; [|exact Hb2].
    destruct Hf as [-> Hp]. split.
    - unfold append_line. f_equal. rewrite map_app. change (CSV_HEADER :: ?a ++ ?c) with ((CSV_HEADER :: a) ++ c). rewrite text_app. f_equal.
    - apply Forall_app. split; [exact Hp|]. constructor; [exact Hb1|constructor].
  Qed.
  Lemma holds_new : holds (append_line None CSV_HEADER) [].
  Proof. split; [reflexivity|constructor]. Qed.
  Lemma totals_nil : totals [] [].
  Proof. split; [constructor|reflexivity]. Qed.
End File.

Lemma collected_plain {F} (P : params) (sample : nat -> desc F -> Z -> res (Z * F)) ds t l t' o :
  Forall plain_desc ds -> collect_problems P sample t ds = (l, t', o) -> Forall plain_batch l.
Proof.
  intros Hd H. apply problems_calls in H as [H _]. apply Forall_forall. intros b Hb.
  apply In_nth_error in Hb as [i Hi]. destruct (H i b Hi) as [Hin _]. rewrite Forall_forall in Hd. apply Hd, Hin.
Qed.

(** Reading the file written by a run gives the totals of the batches: the i-th batch is
    what the i-th call of the sampler returned for its problem and number of shots. *)
Theorem C41_read_back : forall {F} (fmt : F -> string) parse fadd fzero feqb P sample ds f l t o,
  float_io fmt parse feqb -> Forall plain_desc ds ->
  collect_problems P sample 0 ds = (l, t, o) ->
  exists data, read_recorded_data parse fadd fzero feqb [fst (collect_simulated_experiment_data fmt P sample ds true f)] = Ok data /\
    totals fadd fzero feqb l data /\
    (forall i b, nth_error l i = Some b -> In (b_desc b) ds /\ sample i (b_desc b) (b_shots b) = Ok (b_correct b, b_secs b)) /\
    (o = Ok tt -> t = length l /\ forall d, In d ds -> exists b, In b l /\ b_desc b = d).
Proof.
  intros F fmt parse fadd fzero feqb P sample ds f l t o IO Hd E.
  unfold collect_simulated_experiment_data. rewrite E. cbn [fst].
  exists (fold_left (add_batch fadd fzero feqb) l []). split; [|split; [|split]].
  - unfold read_recorded_data. apply (holds_read fmt); [exact IO|].
    change l with ([] ++ l) at 2. apply holds_append; [apply holds_new|]. eapply collected_plain; eauto.
  - change l with ([] ++ l) at 1. eapply totals_fold; [exact IO|apply totals_nil].
  - apply problems_calls in E as [E _]. exact E.
  - intros ->. pose proof E as E'. apply problems_calls in E' as [_ [E1|(_ & d & n & e & _ & _ & E2)]]; [|discriminate]. split; [exact E1|].
    clear E1 Hd IO f. revert E. generalize 0%nat. revert l t. induction ds as [|d0 ds IH]; intros l t t0; simpl; [intros _ d []|].
    destruct (collect_problem P sample t0 d0) as [[l1 t1] o1] eqn:E1. destruct o1 as [[]|]; [|discriminate].
    destruct (collect_problems P sample t1 ds) as [[l2 t2] o2] eqn:E2. intros [= <- <- ->] d [<-|Hin].
    + unfold collect_problem in E1. pose proof (proj1 (loop_calls _ _ _ _ _ _ _ _ _ _ _ E1)) as Hc. apply loop_stops in E1 as [E1 _].
      destruct (E1 eq_refl) as [Hne _]. destruct l1 as [|b l1]; [congruence|]. exists b. split; [now left|]. apply (Hc O b eq_refl).
    + destruct (IH _ _ _ E2 d Hin) as (b & Hb & <-). exists b. split; [apply in_or_app; now right|reflexivity].
Qed.
Print Assumptions C41_read_back.

(** Histories of a file: it is created by a first run, and extended or replaced by later
    runs; a run may end by an exception at any sampler call (a crash), and may also add
    detection fractions. *)
Inductive history {F} (fmt : F -> string) : file -> list (batch F) -> Prop :=
| h_absent : history fmt None []
| h_run f bs P sample ds discard l t o : history fmt f bs -> Forall plain_desc ds -> collect_problems P sample 0 ds = (l, t, o) ->
    history fmt (fst (collect_simulated_experiment_data fmt P sample ds discard f)) ((if discard then [] else bs) ++ l)
| h_detections f bs samples ds discard k sm : history fmt f bs -> Forall plain_desc ds ->
    (forall i d, (i < k)%nat -> nth_error ds i = Some d -> exists rows cols x, samples i d = Ok (rows, cols, x) /\ nth_error sm i = Some (detection_batch d rows cols x)) ->
    (forall d, nth_error ds k = Some d -> exists e, samples k d = Err e) -> (k <= length ds)%nat -> length sm = k ->
    history fmt (fst (collect_detection_fraction_data fmt samples ds discard f)) ((if discard then [] else bs) ++ sm).

Lemma detections_fold {F} (fmt : F -> string) samples ds : forall t f k sm,
  (forall i d, (i < k)%nat -> nth_error ds i = Some d -> exists rows cols x, samples (t + i)%nat d = Ok (rows, cols, x) /\ nth_error sm i = Some (detection_batch d rows cols x)) ->
  (forall d, nth_error ds k = Some d -> exists e, samples (t + k)%nat d = Err e) -> (k <= length ds)%nat -> length sm = k ->
  fst (collect_detections fmt samples t ds f) = fold_left append_line (map (record_line fmt) sm) f.
Proof.
  induction ds as [|d ds IH]; intros t f k sm H1 H2 Hk Hl.
  - simpl in Hk. destruct sm; [reflexivity|simpl in Hl; lia].
  - destruct k as [|k].
    + destruct sm; [|discriminate]. destruct (H2 d eq_refl) as [e E]. simpl. rewrite Nat.add_0_r in E. now rewrite E.
    + destruct sm as [|b sm]; [discriminate|]. destruct (H1 O d ltac:(lia) eq_refl) as (rows & cols & x & E & Eb).
      rewrite Nat.add_0_r in E. injection Eb as ->. simpl. rewrite E. cbn [map fold_left].
      apply (IH (S t) _ k sm).
      * intros i d' Hi Hd. destruct (H1 (S i) d' ltac:(lia) Hd) as (r & c & y & E1 & E2). exists r, c, y.
        rewrite Nat.add_succ_r in E1. auto.
      * intros d' Hd. destruct (H2 d' Hd) as [e E']. exists e. now rewrite Nat.add_succ_r in E'.
      * simpl in Hk. lia.
      * simpl in Hl. lia.
Qed.

Lemma plain_dash : plain "-". Proof. repeat split; reflexivity. Qed.
Lemma plain_detection : plain "detection_fraction". Proof. repeat split; reflexivity. Qed.

Lemma open_holds {F} (fmt : F -> string) discard f bs : holds fmt f bs \/ f = None /\ bs = [] -> holds fmt (open_out discard f) (if discard then [] else bs).
Proof.
  intros [H|[-> ->]]; unfold open_out.
  - destruct discard; [apply holds_new|]. destruct H as [-> H]. simpl. split; [reflexivity|exact H].
  - rewrite orb_true_r. destruct discard; apply holds_new.
Qed.

Lemma history_holds {F} (fmt : F -> string) f bs : history fmt f bs -> holds fmt f bs \/ f = None /\ bs = [].
Proof.
  induction 1 as [|f bs P sample ds discard l t o H IH Hp E|f bs samples ds discard k sm H IH Hp H1 H2 Hk Hl].
  - right. auto.
  - left. unfold collect_simulated_experiment_data. rewrite E. cbn [fst]. apply holds_append; [apply open_holds, IH|]. eapply collected_plain; eauto.
  - left. unfold collect_detection_fraction_data. rewrite (detections_fold fmt samples ds 0 _ k sm) by assumption.
    apply holds_append; [apply open_holds, IH|]. apply Forall_forall. intros b Hb. apply In_nth_error in Hb as [i Hi].
    assert (Hik : (i < k)%nat) by (rewrite <- Hl; apply nth_error_Some; congruence).
    destruct (nth_error ds i) as [d|] eqn:Ed; [|apply nth_error_None in Ed; lia].
    destruct (H1 i d Hik Ed) as (rows & cols & x & _ & Eb). rewrite Hi in Eb. injection Eb as ->.
    apply nth_error_In in Ed. rewrite Forall_forall in Hp. destruct (Hp d Ed) as (P1 & _ & _).
    split; [exact P1|]. split; [apply plain_dash|apply plain_detection].
Qed.

(** After any history the existing file reads back as the totals of the batches completed
    since the last discard: nothing lost, nothing counted twice. *)
Theorem C42_resume : forall {F} (fmt : F -> string) parse fadd fzero feqb f bs,
  float_io fmt parse feqb -> history fmt f bs -> f <> None ->
  exists data, read_recorded_data parse fadd fzero feqb [f] = Ok data /\ totals fadd fzero feqb bs data.
Proof.
  intros F fmt parse fadd fzero feqb f bs IO H Hf. apply history_holds in H as [H|[-> _]]; [|congruence].
  exists (fold_left (add_batch fadd fzero feqb) bs []). split; [apply (holds_read fmt); assumption|].
  change bs with ([] ++ bs) at 1. eapply totals_fold; [exact IO|apply totals_nil].
Qed.
Print Assumptions C42_resume.

(** Several files add up. *)
Theorem C42_files : forall {F} (fmt : F -> string) parse fadd fzero feqb (fs : list (file * list (batch F))),
  float_io fmt parse feqb -> (forall f bs, In (f, bs) fs -> history fmt f bs /\ f <> None) ->
  exists data, read_recorded_data parse fadd fzero feqb (map fst fs) = Ok data /\ totals fadd fzero feqb (concat (map snd fs)) data.
Proof.
  intros F fmt parse fadd fzero feqb fs IO H. unfold read_recorded_data.
  enough (G : forall bs0 data0, totals fadd fzero feqb bs0 data0 ->
     exists data, read_files parse fadd fzero feqb data0 (map fst fs) = Ok data /\ totals fadd fzero feqb (bs0 ++ concat (map snd fs)) data).
  { apply (G [] []). apply totals_nil. }
  induction fs as [|[f bs] fs IH]; intros bs0 data0 H0; simpl.
  - exists data0. rewrite app_nil_r. auto.
  - destruct (H f bs (or_introl eq_refl)) as [Hh Hn]. apply history_holds in Hh as [Hh|[-> _]]; [|congruence].
    pose proof (holds_read fmt parse fadd fzero feqb IO f bs data0 Hh) as R. destruct f as [tx|]; [|congruence].
    cbn [read_files] in R. destruct (read_file parse fadd fzero feqb data0 tx) as [d1|]; [|discriminate]. cbn [bind] in *. injection R as ->.
    rewrite app_assoc. apply IH; [intros; apply H; now right|]. eapply totals_fold; eauto.
Qed.
Print Assumptions C42_files.

(** Every point between two batches is a crash point: a sampler that raises at call k
    leaves exactly the first k batches. *)
Definition crash_at {F} (k : nat) (sample : nat -> desc F -> Z -> res (Z * F)) : nat -> desc F -> Z -> res (Z * F) :=
  fun t d n => if (t <? k)%nat then sample t d n else Err RuntimeError.
Lemma loop_crash {F} (P : params) (sample : nat -> desc F -> Z -> res (Z * F)) k d fuel : forall t errors total next l t' o,
  loop P sample fuel d t errors total next = (l, t', o) ->
  exists t1 o1, loop P (crash_at k sample) fuel d t errors total next = (firstn (k - t) l, t1, o1) /\
   ((t + length l <= k)%nat -> (o = Ok tt -> o1 = Ok tt /\ t1 = t')) /\ ((k < t + length l)%nat -> exists e, o1 = Err e) /\ (o1 = Ok tt -> o = Ok tt).
Proof.
  induction fuel as [|fuel IH]; intros t errors total next l t' o; cbn [loop].
  - intros [= <- <- <-]. exists t, (Err OutOfFuel). rewrite firstn_nil. split; [reflexivity|]. split; [discriminate|]. split; [simpl; eauto|discriminate].
  - unfold do_sample at 1 2, crash_at at 1. destruct (next <? 0).
    { intros [= <- <- <-]. eexists _, _. rewrite firstn_nil. split; [reflexivity|]. split; [discriminate|]. split; [eauto|discriminate]. }
    destruct (Nat.ltb_spec t k) as [Hlt|Hge].
    2:{ intros E. exists (S t), (Err RuntimeError). replace (k - t)%nat with O by lia. split; [reflexivity|].
        split; [|split; [eauto|discriminate]]. intros Hle Ho. exfalso.
        assert (Hl : l = []) by (destruct l; [reflexivity|simpl in Hle; lia]). subst l o.
        destruct (sample t d next) as [[c x]|]; [|discriminate].
        match type of E with wrote _ ?o = _ => destruct o as [[? ?] ?] end. discriminate. }
    destruct (sample t d next) as [[c x]|e].
    2:{ intros [= <- <- <-]. eexists _, _. rewrite firstn_nil. split; [reflexivity|]. split; [discriminate|]. split; [eauto|discriminate]. }
    cbv zeta. replace (k - t)%nat with (S (k - S t)) by lia.
    assert (Done : forall (o0 : res unit) t0, (forall e, o0 = Err e -> True) -> wrote (mkBatch d next c x) ([], t0, o0) = (l, t', o) ->
      exists t1 o1, wrote (mkBatch d next c x) ([], t0, o0) = (firstn (S (k - S t)) l, t1, o1) /\
       ((t + length l <= k)%nat -> (o = Ok tt -> o1 = Ok tt /\ t1 = t')) /\ ((k < t + length l)%nat -> exists e, o1 = Err e) /\ (o1 = Ok tt -> o = Ok tt)).
    { intros o0 t0 _. cbn [wrote]. intros [= <- <- <-]. exists t0, o0. cbn [firstn]. rewrite firstn_nil. split; [reflexivity|]. split; [auto|]. split; [simpl; lia|auto]. }
    destruct (_ =? 0); [apply Done; auto|]. destruct (negb _); [apply Done; auto|]. destruct (_ <=? _); [apply Done; auto|].
    destruct (_ && _); [apply Done; auto|]. destruct (_ && _); [apply Done; auto|].
    match goal with |- wrote _ (loop ?a1 ?a2 ?a3 ?a4 ?a5 ?a6 ?a7 ?a8) = _ -> _ => destruct (loop a1 a2 a3 a4 a5 a6 a7 a8) as [[l1 t1] r1] eqn:El end.
    cbn [wrote]. intros [= <- <- <-]. apply IH in El as (t2 & o2 & -> & G1 & G2 & G3). exists t2, o2. cbn [wrote firstn]. split; [reflexivity|].
    cbn [length]. split; [intros; apply G1; [lia|assumption]|]. split; [intros; apply G2; lia|exact G3].
Qed.
Theorem C42_crash_points : forall {F} (P : params) (sample : nat -> desc F -> Z -> res (Z * F)) ds k l t o,
  collect_problems P sample 0 ds = (l, t, o) ->
  exists t1 o1, collect_problems P (crash_at k sample) 0 ds = (firstn k l, t1, o1) /\ ((k < length l)%nat -> exists e, o1 = Err e).
Proof.
  intros F P sample ds k l t o.
  enough (G : forall t0 l t o, (t0 <= k)%nat -> collect_problems P sample t0 ds = (l, t, o) ->
    exists t1 o1, collect_problems P (crash_at k sample) t0 ds = (firstn (k - t0) l, t1, o1) /\ ((k < t0 + length l)%nat -> exists e, o1 = Err e)).
  { intros H. destruct (G O l t o ltac:(lia) H) as (t1 & o1 & H1 & H2). exists t1, o1. rewrite Nat.sub_0_r in H1. auto. }
  clear. induction ds as [|d ds IH]; intros t0 l t o Hk; simpl.
  - intros [= <- <- <-]. exists t0, (Ok tt). rewrite firstn_nil. split; [reflexivity|]. simpl. lia.
  - destruct (collect_problem P sample t0 d) as [[l1 t1] o1] eqn:E1. unfold collect_problem in E1 |- *.
    destruct (loop_crash P sample k d _ _ _ _ _ _ _ _ E1) as (t2 & o2 & -> & G1 & G2 & G3).
    destruct o1 as [[]|e1].
    + assert (Ht1 : t1 = (t0 + length l1)%nat).
      { apply loop_calls in E1 as [_ [E1|(_ & n & e & _ & E2)]]; [exact E1|discriminate]. }
      destruct (collect_problems P sample t1 ds) as [[l2 t3] o3] eqn:E2. intros [= <- <- <-].
      rewrite firstn_app, app_length. destruct (Nat.le_gt_cases (t0 + length l1) k) as [Hle|Hgt].
      * destruct (G1 Hle eq_refl) as [-> ->]. destruct (IH t1 l2 t3 o3 ltac:(lia) E2) as (t4 & o4 & -> & G4).
        exists t4, o4. replace (k - t1)%nat with (k - t0 - length l1)%nat by lia. split; [reflexivity|]. intros. apply G4. lia.
      * destruct (G2 Hgt) as [e ->]. exists t2, (Err e). replace (k - t0 - length l1)%nat with O by lia. rewrite firstn_O, app_nil_r. eauto.
    + intros [= <- <- <-]. destruct o2 as [[]|e2]; [specialize (G3 eq_refl); discriminate|]. exists t2, (Err e2). eauto.
Qed.
Print Assumptions C42_crash_points.

(** A crash between creating the file and writing the header leaves an empty file; the
    next appending run does not repair it, and the data cannot be read. *)
Theorem C42_empty_file_refuted : exists (ds : list (desc Z)) P sample,
  snd (collect_simulated_experiment_data str_int P sample ds false (Some ""%string)) = Ok tt /\ Forall plain_desc ds /\
  read_recorded_data (fun s => match int_str s with Ok z => Some z | Err _ => None end) Z.add 0 Z.eqb
    [fst (collect_simulated_experiment_data str_int P sample ds false (Some ""%string))] = Err KeyError.
Proof.
  exists [ex_desc], ex_params, ex_sample. split; [vm_compute; reflexivity|]. split; [|vm_compute; reflexivity].
  constructor; [repeat split; reflexivity|constructor].
Qed.
Print Assumptions C42_empty_file_refuted.

Definition parse_int (s : string) : option Z := match int_str s with Ok z => Some z | Err _ => None end.
Lemma int_io : float_io str_int parse_int Z.eqb.
Proof. split; [intros x; unfold parse_int; now rewrite int_read|]. split; [apply int_plain|apply Z.eqb_eq]. Qed.

Definition ex_desc2 : desc Z := mkDesc 4 6 2 60 30 1 "SD6" "H" "internal".
(** two runs, the second one crashing at its third call *)
Definition ex_file1 : file := fst (collect_simulated_experiment_data str_int ex_params ex_sample [ex_desc; ex_desc2] true None).
Definition ex_file2 : file := fst (collect_simulated_experiment_data str_int ex_params (crash_at 2 ex_sample) [ex_desc2] false ex_file1).
Example C41_example :
  read_recorded_data parse_int Z.add 0 Z.eqb [ex_file1] = Ok [(ex_desc, mkShots 100 90 35); (ex_desc2, mkShots 100 90 35)] /\
  Forall plain_desc [ex_desc; ex_desc2] /\ float_io str_int parse_int Z.eqb.
Proof. split; [vm_compute; reflexivity|]. split; [repeat constructor|apply int_io]. Qed.
Example C42_example :
  (exists bs, history str_int ex_file2 bs /\ length bs = 12%nat) /\
  read_recorded_data parse_int Z.add 0 Z.eqb [ex_file2] = Ok [(ex_desc, mkShots 100 90 35); (ex_desc2, mkShots 130 117 49)] /\
  read_recorded_data parse_int Z.add 0 Z.eqb [ex_file2; ex_file1] = Ok [(ex_desc, mkShots 200 180 70); (ex_desc2, mkShots 230 207 84)].
Proof.
  split; [|split; vm_compute; reflexivity].
  eexists. split.
  - unfold ex_file2. eapply (h_run str_int ex_file1 _ ex_params (crash_at 2 ex_sample) [ex_desc2] false).
    + unfold ex_file1. eapply (h_run str_int None [] ex_params ex_sample [ex_desc; ex_desc2] true); [constructor|repeat constructor|vm_compute; reflexivity].
    + repeat constructor.
    + vm_compute. reflexivity.
  - reflexivity.
Qed.

(** ** C58: detection fractions *)
(** The rows of collect_detection_fraction_data read back with, as number of errors, the
    number of detection events, out of all the detectors of all the shots. *)
Theorem C58_detection_fraction : forall {F} (d : desc F) rows cols x, (forall r, In r rows -> Z.of_nat (length r) = cols) ->
  let b := detection_batch d rows cols x in
  b_shots b = Z.of_nat (length (concat rows)) /\
  b_shots b - b_correct b = Z.of_nat (count_occ Bool.bool_dec (concat rows) true) /\
  0 <= b_correct b <= b_shots b /\
  d_decoder (b_desc b) = "detection_fraction"%string /\
  with_changes (b_desc b) None None None None None None None (Some (d_obs d)) (Some (d_decoder d)) = d.
Proof.
  intros F d rows cols x H b.
  assert (E1 : b_shots b = Z.of_nat (length (concat rows))).
  { unfold b, detection_batch. cbn [b_shots]. clear b. induction rows as [|r rows IH]; [reflexivity|]. simpl concat. rewrite app_length, Nat2Z.inj_add.
    rewrite <- IH by (intros; apply H; now right). rewrite (H r (or_introl eq_refl)). simpl length. lia. }
  assert (E2 : length (filter (fun b => b) (concat rows)) = count_occ Bool.bool_dec (concat rows) true).
  { clear. induction (concat rows) as [|[] l IH]; simpl; [reflexivity| |]; now rewrite ?IH. }
  assert (E3 : (count_occ Bool.bool_dec (concat rows) true <= length (concat rows))%nat) by apply count_occ_bound.
  split; [exact E1|]. unfold b, detection_batch in *. cbn [b_shots b_correct b_desc] in *. rewrite E2. split; [lia|]. split; [lia|].
  split; [reflexivity|]. destruct d. reflexivity.
Qed.
Print Assumptions C58_detection_fraction.
Example C58_example :
  read_recorded_data parse_int Z.add 0 Z.eqb
    [fst (collect_detection_fraction_data str_int (fun t d => Ok ([[true; false; true]; [false; false; true]], 3, 5)) [ex_desc; ex_desc2] false None)] =
  Ok [(with_changes ex_desc None None None None None None None (Some "-") (Some "detection_fraction"), mkShots 6 3 5);
      (with_changes ex_desc2 None None None None None None None (Some "-") (Some "detection_fraction"), mkShots 6 3 5)]%string.
Proof. vm_compute. reflexivity. Qed.
