(** C60, continued: the warnings about missing data. *)
From Coq Require Import QArith Qreals.
From Coq Require Import Reals Lra.
From Coq Require Import Sorted Permutation.
From Verif Require Import Prelude Layout Collect Prob Paper PaperFit Warnings Prop_PaperFit.
Open Scope R_scope.

Lemma combo_app {F} (g : lambda_group F) d r : combo g (d :: r) = let! one := combo g [d] in let! rest := combo g r in Ok (one ++ rest).
Proof.
  cbn [combo]. destruct (match option_map rate (dget Z.eqb d (pairs_h g)) with Some _ => _ | None => _ end) as [p1|].
  2:{ cbn [bind app]. now destruct (combo g r). }
  destruct (match option_map rate (dget Z.eqb d (pairs_v g)) with Some _ => _ | None => _ end) as [p2|]; [|cbn [bind app]; now destruct (combo g r)].
  destruct (Req_EM_T p1 0); [cbn [bind app]; now destruct (combo g r)|]. destruct (Req_EM_T p2 0); [cbn [bind app]; now destruct (combo g r)|].
  destruct (d_distance (g_rep g) =? 0)%Z; [reflexivity|].
  destruct (total_error_to_per_piece_error p1 _) as [q1|e1]; [|reflexivity]. cbn [bind]. destruct (total_error_to_per_piece_error p2 _) as [q2|e2]; [|reflexivity]. cbn [bind].
  now destruct (combo g r).
Qed.
Lemma combo_said_value {F} (g : lambda_group F) ds : snd (combo_said g ds) = combo g ds.
Proof.
  induction ds as [|d r IH]; [reflexivity|]. rewrite combo_app. cbn [combo_said]. destruct (combo g [d]) as [one|e]; [|reflexivity]. cbn [bind].
  destruct (combo_said g r) as [said rest]. cbn [snd] in *. now rewrite IH.
Qed.
Lemma combo_said_all {F} (g : lambda_group F) ds l : combo g ds = Ok l -> fst (combo_said g ds) = flat_map (warns g) ds.
Proof.
  revert l. induction ds as [|d r IH]; intros l H; [reflexivity|]. rewrite combo_app in H. cbn [combo_said flat_map]. destruct (combo g [d]) as [one|e]; [|discriminate]. cbn [bind] in H.
  destruct (combo g r) as [rest|e] eqn:E; [|discriminate]. specialize (IH rest eq_refl). destruct (combo_said g r) as [said rest']. cbn [fst] in *. now rewrite IH.
Qed.
Lemma combo_said_some {F} (g : lambda_group F) ds : exists k, fst (combo_said g ds) = flat_map (warns g) (firstn k ds).
Proof.
  induction ds as [|d r (k & IH)]; [exists 0%nat; reflexivity|]. cbn [combo_said]. destruct (combo g [d]) as [one|e].
  - exists (S k). destruct (combo_said g r) as [said rest]. cbn [fst firstn flat_map] in *. now rewrite IH.
  - exists 1%nat. cbn [fst firstn flat_map]. now rewrite app_nil_r.
Qed.
Lemma dget_none {V} k (l : list (Z * V)) : dget Z.eqb k l = None <-> ~ In k (map fst l).
Proof.
  induction l as [|[k' v] l IH]; cbn [dget map fst In]; [tauto|]. destruct (Z.eqb_spec k k') as [->|N]; [split; [discriminate | intros K; elim K; now left]|].
  rewrite IH. split; [intros K [E|K']; [now apply N | now apply K] | tauto].
Qed.
(** Specification: distance d was recorded for one observable only, o is the other one. *)
Definition only_other {F} (g : lambda_group F) (o : string) (d : Z) : Prop :=
  o = "V"%string /\ In d (map fst (pairs_h g)) /\ ~ In d (map fst (pairs_v g)) \/ o = "H"%string /\ In d (map fst (pairs_v g)) /\ ~ In d (map fst (pairs_h g)).
Lemma in_distances {F} (g : lambda_group F) d : In d (distances g) <-> In d (map fst (pairs_h g)) \/ In d (map fst (pairs_v g)).
Proof.
  unfold distances. rewrite <- (in_app_iff (map fst (pairs_h g))), <- (nodup_In Z.eq_dec (map fst (pairs_h g) ++ map fst (pairs_v g)) d).
  split; apply Permutation_in; [apply Permutation_sym|]; apply isort_perm.
Qed.
Lemma warns_spec {F} (g : lambda_group F) o d d' : In d (distances g) -> In (o, d') (warns g d) <-> d' = d /\ only_other g o d.
Proof.
  intros Hd. apply in_distances in Hd. unfold warns, only_other. rewrite in_app_iff.
  assert (V : In (o, d') (match dget Z.eqb d (pairs_v g) with None => [("V"%string, d)] | Some _ => [] end) <-> (o = "V"%string /\ d' = d /\ ~ In d (map fst (pairs_v g)))).
  { rewrite <- dget_none. destruct (dget Z.eqb d (pairs_v g)); cbn [In]; [split; [tauto | intros (_ & _ & K); discriminate] | split; [intros [K|[]]; injection K as <- <-; auto | intros (-> & -> & _); now left]]. }
  assert (H : In (o, d') (match dget Z.eqb d (pairs_h g) with None => [("H"%string, d)] | Some _ => [] end) <-> (o = "H"%string /\ d' = d /\ ~ In d (map fst (pairs_h g)))).
  { rewrite <- dget_none. destruct (dget Z.eqb d (pairs_h g)); cbn [In]; [split; [tauto | intros (_ & _ & K); discriminate] | split; [intros [K|[]]; injection K as <- <-; auto | intros (-> & -> & _); now left]]. }
  rewrite V, H. tauto.
Qed.

(** Printing does not change the result; a warning names an observable and a distance
    that was recorded for the other observable only, and unless an exception ends the
    call there is one for each such case. *)
Theorem C60_warnings : forall {F} (g : lambda_group F), snd (combo_data_said g) = combo_data g /\
  (forall o d, In (o, d) (fst (combo_data_said g)) -> only_other g o d) /\
  (forall l, combo_data g = Ok l -> forall o d, only_other g o d -> In (o, d) (fst (combo_data_said g))) /\
  NoDup (fst (combo_data_said g)).
Proof.
  intros F g. unfold combo_data_said, combo_data. split; [apply combo_said_value|]. split; [|split].
  - intros o d H. destruct (combo_said_some g (distances g)) as (k & E). rewrite E in H. apply in_flat_map in H. destruct H as (d0 & H0 & H).
    assert (Hd : In d0 (distances g)) by (rewrite <- (firstn_skipn k (distances g)); apply in_or_app; now left). apply (warns_spec g o d0 d Hd) in H. destruct H as [-> H]. exact H.
  - intros l E o d H. rewrite (combo_said_all g _ l E). apply in_flat_map. exists d.
    assert (Hd : In d (distances g)) by (apply in_distances; destruct H as [(_ & H & _)|(_ & H & _)]; auto). split; [exact Hd|]. now apply (warns_spec g o d d Hd).
  - destruct (combo_said_some g (distances g)) as (k & ->).
    assert (ND : NoDup (firstn k (distances g))).
    { assert (N : NoDup (distances g)) by (unfold distances; eapply Permutation_NoDup; [apply isort_perm | apply NoDup_nodup]).
      rewrite <- (firstn_skipn k (distances g)) in N. apply NoDup_app_inv in N; apply N. }
    assert (Sub : forall d, In d (firstn k (distances g)) -> In d (distances g)) by (intros d Hd; rewrite <- (firstn_skipn k (distances g)); apply in_or_app; now left).
    revert ND Sub. generalize (firstn k (distances g)). clear k. induction l as [|d l IH]; intros ND Sub; [constructor|]. inversion ND as [|? ? N1 N2]; subst. cbn [flat_map].
    apply NoDup_app_intro; [| apply IH; [exact N2 | intros d' Hd; apply Sub; now right] |].
    + unfold warns. destruct (dget Z.eqb d (pairs_v g)), (dget Z.eqb d (pairs_h g)); cbn [app]; repeat constructor; cbn [In]; try tauto. intros [K|[]]; discriminate.
    + intros [o d'] K1 K2. apply (warns_spec g o d d' (Sub d (or_introl eq_refl))) in K1. destruct K1 as [-> _]. apply in_flat_map in K2. destruct K2 as (d2 & K2 & K3).
      apply (warns_spec g o d2 d (Sub d2 (or_intror K2))) in K3. destruct K3 as [-> _]. now apply N1.
Qed.
Print Assumptions C60_warnings.
(** The group of C60_example has no vertical data at distance 4. *)
Example C60_warnings_example : In ("V"%string, 4%Z) (fst (combo_data_said ex_group)) /\ forall o d, In (o, d) (fst (combo_data_said ex_group)) -> d = 4%Z.
Proof.
  destruct (C60_warnings ex_group) as (_ & W1 & W2 & _). split.
  - apply (W2 _ ex_group_combo). left. cbn [ex_group pairs_h pairs_v map fst In]. split; [reflexivity|]. split; [now left | intros [K|[]]; discriminate].
  - intros o d H. apply W1 in H. unfold only_other in H. cbn [ex_group pairs_h pairs_v map fst In] in H. intuition congruence.
Qed.
