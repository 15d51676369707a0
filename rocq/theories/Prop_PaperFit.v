(** C54, C60, C61, C62: line fits and projections of LambdaGroup. *)
From Coq Require Import QArith Qreals Qround.
From Coq Require Import Reals Lra.
From Verif Require Import Prelude Layout LayoutFacts Collect Prob Prop_Prob Prop_Prob3 Paper Prop_Paper Prop_Paper2 PaperFit.
Open Scope R_scope.

(** ** C54: the two projections are inverse to each other *)
Theorem C54_inverse : forall F (g : lambda_group F) slope intercept,
  linear_fit_d_to_log_err g = Ok (slope, intercept) -> slope <> 0 ->
  (forall d, exists e, projected_error g d = Ok e /\ 0 < e /\ projected_distance g e = Ok d) /\
  (forall e, 0 < e -> exists d, projected_distance g e = Ok d /\ projected_error g d = Ok e).
Proof.
  intros F g s i E Hs. unfold projected_error, projected_distance, log. rewrite E. cbn [bind]. split.
  - intros d. exists (exp (s * d + i)). pose proof (exp_pos (s * d + i)) as P. split; [reflexivity|]. split; [exact P|].
    destruct (Rle_dec (exp (s * d + i)) 0); [lra|]. cbn [bind]. destruct (Req_EM_T s 0); [contradiction|]. rewrite ln_exp. f_equal. field. exact Hs.
  - intros e He. destruct (Rle_dec e 0); [lra|]. cbn [bind]. destruct (Req_EM_T s 0); [contradiction|]. eexists. split; [reflexivity|].
    f_equal. replace (s * ((ln e - i) / s) + i) with (ln e) by (field; exact Hs). now apply exp_ln.
Qed.
Print Assumptions C54_inverse.
(** Refused: an error that is not positive, and a horizontal fit. *)
Theorem C54_refused : forall F (g : lambda_group F) slope intercept e, linear_fit_d_to_log_err g = Ok (slope, intercept) ->
  (e <= 0 -> projected_distance g e = Err ValueError) /\ (0 < e -> slope = 0 -> projected_distance g e = Err ZeroDivisionError).
Proof.
  intros F g s i e E. unfold projected_distance, log. rewrite E. cbn [bind]. split; intros H; destruct (Rle_dec e 0); try lra; [reflexivity|].
  intros Hs. cbn [bind]. destruct (Req_EM_T s 0); [reflexivity|contradiction].
Qed.
Print Assumptions C54_refused.

(** ** C60: the points of the fit *)
Definition counted {F} (s : shot_data F) : Prop := (0 <= num_correct s <= num_shots s)%Z.
Record good_group {F} (g : lambda_group F) : Prop := {
  gg_rounds : (1 <= d_rounds (g_rep g))%Z;
  gg_dist : (1 <= d_distance (g_rep g))%Z;
  gg_h : NoDup (map fst (pairs_h g)); gg_v : NoDup (map fst (pairs_v g));
  gg_counts : forall d s, In (d, s) (pairs_h g) \/ In (d, s) (pairs_v g) -> counted s }.

(** The error rate of recorded shots; no shots at all counts as always wrong. *)
Definition is_rate {F} (s : shot_data F) (r : R) : Prop :=
  (num_shots s = 0%Z /\ r = 1) \/ (num_shots s <> 0%Z /\ r * IZR (num_shots s) = IZR (num_shots s - num_correct s)).
(** The rates of the two sides at distance d; a side without data there is taken to have
    the rate of the other side. *)
Definition side_rates {F} (g : lambda_group F) (d : Z) (r1 r2 : R) : Prop :=
  (exists s1 s2, In (d, s1) (pairs_h g) /\ In (d, s2) (pairs_v g) /\ is_rate s1 r1 /\ is_rate s2 r2) \/
  (exists s1, In (d, s1) (pairs_h g) /\ ~ In d (map fst (pairs_v g)) /\ is_rate s1 r1 /\ r2 = r1) \/
  (exists s2, ~ In d (map fst (pairs_h g)) /\ In (d, s2) (pairs_v g) /\ is_rate s2 r2 /\ r1 = r2).
(** [q] is the error rate of one of [n] independent pieces that together flip with
    probability r.  Above one half the code answers for the complement. *)
Definition cell_rate (n : nat) (r q : R) : Prop :=
  (r <= 1 / 2 -> 0 <= q <= 1 / 2 /\ compose n q = r) /\
  (1 / 2 < r -> 1 / 2 <= q <= 1 /\ compose n q = if Nat.odd n then r else 1 - r).
(** the least number of code cells (of as many rounds as the distance) that cover the
    rounds *)
Definition is_cells (rounds dist : Z) (n : nat) : Prop := (Z.of_nat n * dist - dist < rounds <= Z.of_nat n * dist)%Z.

Lemma rate_is {F} (s : shot_data F) r : is_rate s r <-> r = rate s.
Proof.
  unfold is_rate, rate. destruct (Z.eqb_spec (num_shots s) 0) as [E|E]; [tauto|].
  assert (N : IZR (num_shots s) <> 0) by (now apply not_0_IZR). split.
  - intros [[K _]|[_ K]]; [contradiction|]. rewrite <- K. field. exact N.
  - intros ->. right. split; [exact E|]. field. exact N.
Qed.
Lemma rate_bounds {F} (s : shot_data F) : counted s -> 0 <= rate s <= 1.
Proof.
  intros [H1 H2]. unfold rate. destruct (Z.eqb_spec (num_shots s) 0) as [E|E]; [lra|].
  assert (N : 0 < IZR (num_shots s)) by (apply IZR_lt; lia).
  assert (A : 0 <= IZR (num_shots s - num_correct s)) by (apply IZR_le; lia).
  assert (B : IZR (num_shots s - num_correct s) <= IZR (num_shots s)) by (apply IZR_le; lia).
  split; [apply Rle_mult_inv_pos; assumption|]. apply (Rmult_le_reg_r (IZR (num_shots s))); [exact N|]. unfold Rdiv. rewrite Rmult_assoc, Rinv_l, Rmult_1_r; lra.
Qed.

Lemma dget_some {V} (l : list (Z * V)) d v : NoDup (map fst l) -> (dget Z.eqb d l = Some v <-> In (d, v) l).
Proof.
  induction l as [|[a w] l IH]; simpl; intros N; [split; [discriminate|tauto]|]. inversion N as [|? ? N1 N2]; subst.
  destruct (Z.eqb_spec d a) as [->|Hne].
  - split; [intros [= ->]; now left|]. intros [[= ->]|H]; [reflexivity|]. exfalso. apply N1. apply (in_map fst) in H. exact H.
  - rewrite IH by exact N2. split; [tauto|]. intros [[= -> ->]|H]; [contradiction|exact H].
Qed.

Lemma cells_spec r d : (1 <= r)%Z -> (1 <= d)%Z -> (1 <= ceil_div r d)%Z /\ is_cells r d (Z.to_nat (ceil_div r d)).
Proof. intros Hr Hd. pose proof (ceil_div_spec r d ltac:(lia)) as H. assert (1 <= ceil_div r d)%Z by nia. split; [assumption|]. unfold is_cells. rewrite Z2Nat.id by lia. lia. Qed.
Lemma cell_rate_ok r n : 0 <= r <= 1 -> (1 <= n)%Z -> exists q, total_error_to_per_piece_error r n = Ok q /\ cell_rate (Z.to_nat n) r q /\ 0 <= q <= 1 /\ (0 < r -> 0 < q).
Proof.
  intros Hr Hn. destruct (Rle_dec r (1 / 2)) as [L|L].
  - destruct (C48_inverse r n) as (q & E & Hq & Hc); [lra|exact Hn|]. exists q. split; [exact E|]. split; [|split; [lra|]].
    + split; [auto|lra].
    + intros Hp. destruct (Req_dec q 0) as [->|]; [|lra]. exfalso. rewrite compose_closed in Hc. replace (1 - 2 * 0) with 1 in Hc by ring. rewrite pow1 in Hc. lra.
  - destruct (C48_above_half r n) as (q & E & Hq & Hc); [lra|exact Hn|]. exists q. split; [exact E|]. split; [|split; [lra|lra]].
    split; [lra|]. intros _. split; [exact Hq|]. rewrite Hc. 
    assert (O : Nat.odd (Z.to_nat n) = Z.odd n); [|now rewrite O].
    rewrite <- (Z2Nat.id n) at 2 by lia. generalize (Z.to_nat n). intros m. induction m as [|m IH]; [reflexivity|].
    rewrite Nat2Z.inj_succ, Z.odd_succ, Nat.odd_succ, <- Z.negb_odd, <- Nat.negb_odd, IH. reflexivity.
Qed.

Definition is_point {F} (g : lambda_group F) (d : Z) (y : R) : Prop :=
  exists r1 r2 q1 q2 n, side_rates g d r1 r2 /\ 0 < r1 <= 1 /\ 0 < r2 <= 1 /\
    is_cells (d_rounds (g_rep g)) (d_distance (g_rep g)) n /\ cell_rate n r1 q1 /\ cell_rate n r2 q2 /\
    y = 1 - (1 - q1) * (1 - q2) /\ 0 < y <= 1.

Lemma side_rates_lookup {F} (g : lambda_group F) d r1 r2 : good_group g ->
  (side_rates g d r1 r2 <->
   let p1 := option_map rate (dget Z.eqb d (pairs_h g)) in
   let p2 := option_map rate (dget Z.eqb d (pairs_v g)) in
   let p2' := match p2 with None => p1 | Some _ => p2 end in
   let p1' := match p1 with None => p2' | Some _ => p1 end in
   p1' = Some r1 /\ p2' = Some r2).
Proof.
  intros [_ _ Nh Nv _]. cbv zeta.
  assert (H1 : forall s, In (d, s) (pairs_h g) <-> dget Z.eqb d (pairs_h g) = Some s) by (intros; now rewrite dget_some).
  assert (H2 : forall s, In (d, s) (pairs_v g) <-> dget Z.eqb d (pairs_v g) = Some s) by (intros; now rewrite dget_some).
  pose proof (dget_none d (pairs_h g)) as D1. pose proof (dget_none d (pairs_v g)) as D2.
  unfold side_rates. destruct (dget Z.eqb d (pairs_h g)) as [s1|]; destruct (dget Z.eqb d (pairs_v g)) as [s2|]; cbn [option_map].
  - split.
    + intros [(a & b & A & B & Ra & Rb)|[(a & A & B & _)|(b & A & B & _)]].
      * apply H1 in A. apply H2 in B. injection A as ->. injection B as ->. apply rate_is in Ra, Rb. subst. auto.
      * apply D2 in B. discriminate.
      * apply D1 in A. discriminate.
    + intros [[= <-] [= <-]]. left. exists s1, s2. rewrite H1, H2, !rate_is. auto.
  - split.
    + intros [(a & b & A & B & Ra & Rb)|[(a & A & B & Ra & ->)|(b & A & B & _)]].
      * apply H2 in B. discriminate.
      * apply H1 in A. injection A as ->. apply rate_is in Ra. subst. auto.
      * apply H2 in B. discriminate.
    + intros [[= <-] [= <-]]. right. left. exists s1. rewrite H1, rate_is. repeat split; auto. now apply D2.
  - split.
    + intros [(a & b & A & B & Ra & Rb)|[(a & A & B & Ra & ->)|(b & A & B & Rb & ->)]].
      * apply H1 in A. discriminate.
      * apply H1 in A. discriminate.
      * apply H2 in B. injection B as ->. apply rate_is in Rb. subst. auto.
    + intros [[= <-] [= <-]]. right. right. exists s2. rewrite H2, rate_is. repeat split; auto. now apply D1.
  - split; [|intros [K _]; discriminate].
    intros [(a & b & A & B & Ra & Rb)|[(a & A & B & Ra & ->)|(b & A & B & Rb & ->)]]; [apply H1 in A|apply H1 in A|apply H2 in B]; discriminate.
Qed.
Lemma side_rates_bounds {F} (g : lambda_group F) d r1 r2 : good_group g -> side_rates g d r1 r2 -> 0 <= r1 <= 1 /\ 0 <= r2 <= 1.
Proof.
  intros [_ _ _ _ Hc]. intros [(a & b & A & B & Ra & Rb)|[(a & A & B & Ra & ->)|(b & A & B & Rb & ->)]].
  - apply rate_is in Ra, Rb. subst. split; apply rate_bounds; eauto.
  - apply rate_is in Ra. subst. split; apply rate_bounds; eauto.
  - apply rate_is in Rb. subst. split; apply rate_bounds; eauto.
Qed.

Lemma combo_spec {F} (g : lambda_group F) ds : good_group g -> StronglySorted Z.lt ds ->
  exists pts, combo g ds = Ok pts /\ StronglySorted Z.lt (map fst pts) /\
    (forall d, In d (map fst pts) <-> In d ds /\ exists r1 r2, side_rates g d r1 r2 /\ 0 < r1 /\ 0 < r2) /\
    (forall d y, In (d, y) pts -> is_point g d y).
Proof.
  intros G. induction ds as [|d ds IH]; intros S; [exists []; split; [reflexivity|split; [constructor|split; [intros d; simpl; tauto|intros d y []]]]|].
  inversion S as [|? ? S1 S2]; subst. destruct (IH S1) as (pts & E & P1 & P2 & P3). clear IH.
  pose proof (fun r1 r2 => side_rates_lookup g d r1 r2 G) as L. cbv zeta in L. cbn [combo].
  set (p1 := option_map rate (dget Z.eqb d (pairs_h g))) in *. set (p2 := option_map rate (dget Z.eqb d (pairs_v g))) in *.
  set (p2' := match p2 with None => p1 | Some _ => p2 end) in *. set (p1' := match p1 with None => p2' | Some _ => p1 end) in *. cbv zeta.
  assert (Skip : (~ exists r1 r2, side_rates g d r1 r2 /\ 0 < r1 /\ 0 < r2) -> exists pts0, combo g ds = Ok pts0 /\ StronglySorted Z.lt (map fst pts0) /\
     (forall d0, In d0 (map fst pts0) <-> In d0 (d :: ds) /\ exists r1 r2, side_rates g d0 r1 r2 /\ 0 < r1 /\ 0 < r2) /\
     (forall d0 y, In (d0, y) pts0 -> is_point g d0 y)).
  { intros N. exists pts. split; [exact E|]. split; [exact P1|]. split; [|exact P3]. intros d0. rewrite P2. cbn [In]. split; [tauto|]. intros [[<-|H] K]; [contradiction|tauto]. }
  clearbody p1' p2'. destruct p1' as [r1|]; [|apply Skip; intros (a & b & K & _); apply L in K as [K _]; discriminate].
  destruct p2' as [r2|]; [|apply Skip; intros (a & b & K & _); apply L in K as [_ K]; discriminate].
  assert (SR : side_rates g d r1 r2) by (apply L; auto). destruct (side_rates_bounds g d r1 r2 G SR) as [B1 B2].
  destruct (Req_EM_T r1 0) as [Z1|N1]; [apply Skip; intros (a & b & K & Ka & _); apply L in K as [K _]; injection K as <-; lra|].
  destruct (Req_EM_T r2 0) as [Z2|N2]; [apply Skip; intros (a & b & K & _ & Kb); apply L in K as [_ K]; injection K as <-; lra|].
  clear Skip. destruct G as [Gr Gd _ _ _]. replace (d_distance (g_rep g) =? 0)%Z with false by lia.
  destruct (cells_spec _ _ Gr Gd) as [C1 C2]. set (n := ceil_div (d_rounds (g_rep g)) (d_distance (g_rep g))) in *.
  destruct (cell_rate_ok r1 n B1 C1) as (q1 & -> & K1 & Q1 & Q1'). destruct (cell_rate_ok r2 n B2 C1) as (q2 & -> & K2 & Q2 & Q2'). cbn [bind]. rewrite E. cbn [bind].
  eexists. split; [reflexivity|]. cbn [map fst]. split; [|split].
  - constructor; [exact P1|]. apply Forall_forall. intros x Hx. apply P2 in Hx as [Hx _]. rewrite Forall_forall in S2. auto.
  - intros d0. cbn [In]. rewrite P2. split.
    + intros [<-|[H K]]; [split; [now left|exists r1, r2; split; [exact SR|lra]]|tauto].
    + intros [[<-|H] K]; [now left|right; tauto].
  - intros d0 y [[= <- <-]|H]; [|now apply P3]. specialize (Q1' ltac:(lra)). specialize (Q2' ltac:(lra)).
    exists r1, r2, q1, q2, (Z.to_nat n). repeat (split; [first [assumption|lra|reflexivity]|]). nra.
Qed.
Lemma distances_sorted {F} (g : lambda_group F) : StronglySorted Z.lt (distances g).
Proof.
  unfold distances. set (l := nodup _ _). assert (N : NoDup l) by apply NoDup_nodup.
  assert (S : StronglySorted (le_ Z.leb) (isort Z.leb l)) by (apply isort_sorted; intros; rewrite ?Z.leb_le in *; lia).
  apply NoDup_isort with (leb := Z.leb) in N. revert N S. generalize (isort Z.leb l). intros m N S.
  induction m as [|a m IH]; [constructor|]. inversion N; subst. inversion S as [|? ? S1 S2]; subst. constructor; [now apply IH|].
  apply Forall_forall. intros x Hx. rewrite Forall_forall in S2. specialize (S2 x Hx). unfold le_ in S2. apply Z.leb_le in S2.
  assert (a <> x) by congruence. lia.
Qed.

(** The fit's points: strictly increasing distances, one for exactly the distances where
    every side that has data made at least one error; each value is the chance that at
    least one of the two observables flips in one code cell. *)
Theorem C60_points : forall F (g : lambda_group F), good_group g ->
  exists pts, combo_data g = Ok pts /\ StronglySorted Z.lt (map fst pts) /\
    (forall d, In d (map fst pts) <-> exists r1 r2, side_rates g d r1 r2 /\ 0 < r1 /\ 0 < r2) /\
    (forall d y, In (d, y) pts -> is_point g d y).
Proof.
  intros F g G. destruct (combo_spec g (distances g) G (distances_sorted g)) as (pts & E & P1 & P2 & P3).
  exists pts. split; [exact E|]. split; [exact P1|]. split; [|exact P3]. intros d. rewrite P2. split; [tauto|]. intros K. split; [|exact K].
  unfold distances. apply in_isort, nodup_In, in_or_app. destruct K as (r1 & r2 & [(a & b & A & _)|[(a & A & _)|(b & _ & B & _)]] & _).
  - left. apply (in_map fst) in A. exact A.
  - left. apply (in_map fst) in A. exact A.
  - right. apply (in_map fst) in B. exact B.
Qed.
Print Assumptions C60_points.

(** ** C61: the Lambda range *)
Lemma log_points_ok pts : (forall d y, In (d, y) pts -> 0 < y) -> log_points pts = Ok (map (fun '(d, y) => (IZR d, ln y)) pts).
Proof.
  intros H. unfold log_points. apply mapM_ok. intros [d y] Hin. unfold log. specialize (H d y Hin). destruct (Rle_dec y 0); [lra|reflexivity].
Qed.
Lemma log_points_distinct pts : StronglySorted Z.lt (map fst pts) -> (2 <= length pts)%nat -> distinct_xs (map (fun '(d, y) => (IZR d, ln y)) pts).
Proof.
  destruct pts as [|[a y] [|[b z] r]]; simpl; try lia. intros S _. inversion S as [|? ? _ S2]; subst. inversion S2 as [|? ? S3 _]; subst. cbn [fst] in S3.
  exists (IZR a, ln y), (IZR b, ln z). split; [now left|]. split; [right; now left|]. cbn [fst]. intros K. apply eq_IZR in K. lia.
Qed.
Lemma points_pos {F} (g : lambda_group F) pts : (forall d y, In (d, y) pts -> is_point g d y) -> forall d y, In (d, y) pts -> 0 < y.
Proof. intros H d y Hin. destruct (H d y Hin) as (r1 & r2 & q1 & q2 & n & _ & _ & _ & _ & _ & _ & _ & K). lra. Qed.
Lemma flat_fit : linregress [(0, 0); (1, 0)] = (0, 0).
Proof. unfold linregress, mean, rsum. simpl. f_equal; field. Qed.

(** The second number of the range is the factor by which the projected error shrinks
    when the distance grows by 2; the first is at least, the third at most that. *)
Theorem C61_lambda_range : forall F (g : lambda_group F) leastsq, good_group g -> exact_optimiser leastsq ->
  exists enough l1 l2 l3,
    (forall fuel, (enough <= fuel)%nat -> projected_lambda_range g leastsq fuel = Ok (l1, l2, l3)) /\
    0 < l3 <= l2 /\ l2 <= l1 /\
    forall d e e', projected_error g d = Ok e -> projected_error g (d + 2) = Ok e' -> l2 = e / e'.
Proof.
  intros F g leastsq G Ho. destruct (C60_points F g G) as (pts & E & S & _ & P). pose proof (points_pos g pts P) as Pos.
  unfold projected_lambda_range, projected_error, linear_fit_d_to_log_err. rewrite E. cbn [bind]. rewrite (log_points_ok pts Pos). cbn [bind].
  assert (LP : forall s, 0 < slope_to_lambda s) by (intros s; unfold slope_to_lambda; pose proof (exp_pos s); apply Rdiv_lt_0_compat; [lra|nra]).
  assert (LM : forall s t, s <= t -> slope_to_lambda t <= slope_to_lambda s).
  { intros s t Hst. unfold slope_to_lambda, Rdiv. rewrite !Rmult_1_l. pose proof (exp_pos s). assert (exp s <= exp t) by (destruct Hst as [Hst| ->]; [left; now apply exp_increasing|lra]).
    apply Rinv_le_contravar; nra. }
  assert (LR : forall s i d e e', Ok (exp (s * d + i)) = Ok e -> Ok (exp (s * (d + 2) + i)) = Ok e' -> slope_to_lambda s = e / e').
  { intros s i d e e' [= <-] [= <-]. unfold slope_to_lambda. replace (s * (d + 2) + i) with (s * d + i + (s + s)) by ring. rewrite !(exp_plus (s * d + i)), (exp_plus s s).
    pose proof (exp_pos s). pose proof (exp_pos (s * d + i)). rewrite exp_plus. pose proof (exp_pos (s * d)). pose proof (exp_pos i). field. split; lra. }
  destruct (Z.leb_spec (Z.of_nat (length pts)) 1) as [L|L].
  - exists O, (slope_to_lambda 0), (slope_to_lambda 0), (slope_to_lambda 0). cbn [bind]. split; [reflexivity|]. pose proof (LP 0). split; [lra|]. split; [lra|].
    intros d e e'. rewrite flat_fit. cbn [bind]. apply LR.
  - pose proof (log_points_distinct pts S ltac:(lia)) as D. set (lp := map (fun '(d, y) => (IZR d, ln y)) pts) in *.
    pose proof (C51_slope_range leastsq lp 1 Ho D ltac:(lra)) as K. destruct (linregress lp) as [s0 i0]. cbv zeta in K. destruct K as (enough & low & high & K1 & K2 & _).
    exists enough, (slope_to_lambda low), (slope_to_lambda s0), (slope_to_lambda high). split; [intros fuel Hf; rewrite (K1 fuel Hf); reflexivity|].
    split; [split; [apply LP|apply LM; lra]|]. split; [apply LM; lra|]. intros d e e'. cbn [bind]. apply LR.
Qed.
Print Assumptions C61_lambda_range.

(** ** C62: the projected qubit count *)
Lemma ceilR_spec x : x <= IZR (ceilR x) < x + 1.
Proof. unfold ceilR. rewrite opp_IZR. pose proof (base_Int_part (- x)) as H. lra. Qed.

Theorem C62_suppressing : forall F (g : lambda_group F), good_group g ->
  exists slope intercept b, linear_fit_d_to_log_err g = Ok (slope, intercept) /\ appears_to_be_suppressing_errors g = Ok b /\
    (b = true <-> (slope < - (2 / 100) /\ intercept < - (1 / 10)) \/ slope < -1).
Proof.
  intros F g G. destruct (C60_points F g G) as (pts & E & S & _ & P). pose proof (points_pos g pts P) as Pos.
  assert (L : exists s i, linear_fit_d_to_log_err g = Ok (s, i)).
  { unfold linear_fit_d_to_log_err. rewrite E. cbn [bind]. destruct (_ <=? 1)%Z; [rewrite flat_fit; eauto|]. rewrite (log_points_ok pts Pos). cbn [bind]. destruct (linregress _) as [s i]. eauto. }
  destruct L as (s & i & L). eexists s, i, _. unfold appears_to_be_suppressing_errors. rewrite L. cbn [bind]. split; [reflexivity|]. split; [reflexivity|].
  destruct (Rlt_dec s (- (2 / 100))), (Rlt_dec i (- (1 / 10))), (Rlt_dec s (-1)); cbn [andb orb]; (split; [intros; try discriminate; lra|intros; try reflexivity; lra]).
Qed.
Print Assumptions C62_suppressing.

(** Whenever the error appears to be suppressed and the wanted error is below the fit at
    distance 0, the count is that of the smallest member of the 4u x 6u family whose
    projected error is at most the wanted one. *)
Theorem C62_required : forall F (g : lambda_group F) u sr st ob p lay dec circuit_style target slope intercept e0,
  (1 <= u)%Z -> HoneycombLayout (4 * u) (6 * u) sr st ob p = Ok lay -> g_rep g = as_decoder_problem_desc lay dec ->
  str_in "honeycomb" circuit_style = true -> str_in "surface" circuit_style = false ->
  linear_fit_d_to_log_err g = Ok (slope, intercept) -> slope < 0 ->
  0 < target -> projected_error g 0 = Ok e0 -> target < e0 ->
  exists u' lay' q, (1 <= u')%Z /\ HoneycombLayout (4 * u') (6 * u') sr st ob p = Ok lay' /\ code_distance_1qdep lay' = (4 * u')%Z /\
    projected_required_qubit_count g target circuit_style = Ok q /\ (q == inject_Z (num_qubits lay'))%Q /\
    (exists e, projected_error g (IZR (4 * u')) = Ok e /\ e <= target) /\
    (forall v, (v < u')%Z -> exists e, projected_error g (IZR (4 * v)) = Ok e /\ target < e).
Proof.
  intros F g u sr st ob p lay dec cs target s i e0 Hu HL Hg Hh Hs E Hneg Ht E0 Ht0.
  assert (PE : forall d, projected_error g d = Ok (exp (s * d + i))) by (intros d; unfold projected_error; rewrite E; reflexivity).
  rewrite PE in E0. injection E0 as <-.
  set (x := (ln target - i) / s).
  assert (Ex : s * x + i = ln target) by (unfold x; field; lra).
  assert (PD : projected_distance g target = Ok x).
  { unfold projected_distance, log. rewrite E. cbn [bind]. destruct (Rle_dec target 0); [lra|]. cbn [bind]. destruct (Req_EM_T s 0); [lra|]. reflexivity. }
  assert (Cmp : forall y, exp (s * y + i) <= target <-> x <= y).
  { intros y. assert (K : target = exp (s * x + i)) by (rewrite Ex, exp_ln; auto). rewrite K. split; intros H.
    - destruct (Rle_dec x y) as [|N]; [assumption|]. exfalso. assert (exp (s * x + i) < exp (s * y + i)) by (apply exp_increasing; nra). lra.
    - destruct (Req_dec x y) as [->|N]; [lra|]. left. apply exp_increasing. nra. }
  assert (Hx : 0 < x).
  { destruct (Rle_dec x 0) as [H|H]; [|lra]. apply Cmp in H. lra. }
  pose proof (ceilR_spec x) as C. assert (Hd : (1 <= ceilR x)%Z).
  { assert (K : (0 < ceilR x)%Z) by (apply lt_IZR; lra). lia. }
  destruct (C53_honeycomb F g u sr st ob p lay dec (ceilR x) cs Hu HL Hg Hh Hs Hd) as (u' & lay' & q & U1 & U2 & U3 & U4 & U5).
  assert (Dist : code_distance_1qdep lay' = (4 * u')%Z).
  { unfold HoneycombLayout in U2. destruct (negb _); [discriminate|]. destruct (negb _); [discriminate|]. injection U2 as <-. unfold code_distance_1qdep. cbn [data_width data_height]. dlia. }
  exists u', lay', q. split; [exact U1|]. split; [exact U2|]. split; [exact Dist|]. split; [unfold projected_required_qubit_count; rewrite PD; exact U4|]. split; [exact U5|].
  rewrite Dist in U3. split.
  - eexists. split; [apply PE|]. apply Cmp. apply Rle_trans with (IZR (ceilR x)); [lra|]. apply IZR_le. lia.
  - intros v Hv. eexists. split; [apply PE|]. apply Rnot_le_lt. intros K. apply Cmp in K.
    assert (IZR (4 * v) <= IZR (ceilR x - 1)) by (apply IZR_le; lia). rewrite minus_IZR in H. lra.
Qed.
Print Assumptions C62_required.

(** The range around the count: both ends are counts of family members; the fit is of
    the distances against the log errors, so the errors must not all be equal. *)
Lemma flat_slope pts : (forall p q, In p pts -> In q pts -> snd p = snd q) -> fst (linregress pts) = 0.
Proof.
  intros H. unfold linregress. cbn [fst]. destruct pts as [|[x0 y0] r]; [simpl; unfold Rdiv; ring|].
  assert (A : forall p, In p ((x0, y0) :: r) -> snd p = y0) by (intros p Hp; apply (H p (x0, y0) Hp); now left).
  assert (S : forall l c, (forall p : R * R, In p l -> snd p = c) -> rsum (map snd l) = INR (length l) * c).
  { intros l c. induction l as [|p l IH]; intros K; [simpl; ring|]. cbn [map]. rewrite rsum_cons, IH by (intros; apply K; now right). rewrite (K p (or_introl eq_refl)). cbn [length]. rewrite S_INR. ring. }
  assert (My : mean (map snd ((x0, y0) :: r)) = y0).
  { unfold mean. rewrite (S _ y0 A), map_length. field. apply not_0_INR. discriminate. }
  rewrite My. match goal with |- ?a / _ = 0 => replace a with 0; [unfold Rdiv; ring|] end.
  symmetry. generalize (mean (map fst ((x0, y0) :: r))). intros m. clear -A. revert A. generalize ((x0, y0) :: r). intros l A. induction l as [|[x y] l IH]; [reflexivity|].
  cbn [map]. rewrite rsum_cons, IH by (intros; apply A; now right). specialize (A (x, y) (or_introl eq_refl)). cbn [snd] in A. rewrite A. ring.
Qed.
Lemma distinct_or_equal (l : list (R * R)) : (exists p q, In p l /\ In q l /\ snd p <> snd q) \/ (forall p q, In p l -> In q l -> snd p = snd q).
Proof.
  destruct l as [|p0 r]; [right; intros p q []|].
  assert (D : (exists q, In q r /\ snd q <> snd p0) \/ (forall q, In q r -> snd q = snd p0)).
  { induction r as [|a r IH]; [right; intros q []|]. destruct (Req_EM_T (snd a) (snd p0)) as [E|E]; [|left; exists a; split; [now left|exact E]].
    destruct IH as [(q & Hq & N)|A]; [left; exists q; split; [now right|exact N]|]. right. intros q [<-|Hq]; auto. }
  destruct D as [(q & Hq & N)|A].
  - left. exists q, p0. split; [now right|]. split; [now left|exact N].
  - right. assert (B : forall q, In q (p0 :: r) -> snd q = snd p0) by (intros q [<-|Hq]; auto). intros p q Hp Hq. rewrite (B p Hp), (B q Hq). reflexivity.
Qed.
Theorem C62_range : forall F (g : lambda_group F) u sr st ob p lay dec circuit_style target slope intercept leastsq pts,
  good_group g -> exact_optimiser leastsq -> combo_data g = Ok pts -> (2 <= length pts)%nat ->
  (1 <= u)%Z -> HoneycombLayout (4 * u) (6 * u) sr st ob p = Ok lay -> g_rep g = as_decoder_problem_desc lay dec ->
  str_in "honeycomb" circuit_style = true -> str_in "surface" circuit_style = false ->
  linear_fit_d_to_log_err g = Ok (slope, intercept) -> slope <> 0 -> 0 < target ->
  exists enough d1 d2, d1 <= d2 /\
    (forall fuel, (enough <= fuel)%nat -> least_squares_output_range leastsq fuel (map (fun '(d, y) => (ln y, IZR d)) pts) (ln target) 1 = Ok (d1, d2)) /\
    (0 < d1 -> exists lay1 lay2 u1 u2 q1 q2, (1 <= u1 <= u2)%Z /\
      HoneycombLayout (4 * u1) (6 * u1) sr st ob p = Ok lay1 /\ HoneycombLayout (4 * u2) (6 * u2) sr st ob p = Ok lay2 /\
      d1 <= IZR (4 * u1) < d1 + 4 /\ d2 <= IZR (4 * u2) < d2 + 4 /\
      (forall fuel, (enough <= fuel)%nat -> projected_qubit_count_range g leastsq fuel target circuit_style = Ok (q1, q2)) /\
      (q1 == inject_Z (num_qubits lay1))%Q /\ (q2 == inject_Z (num_qubits lay2))%Q /\ (q1 <= q2)%Q).
Proof.
  intros F g u sr st ob p lay dec cs target s i leastsq pts G Ho E Len Hu HL Hg Hh Hs Fit Hne Ht.
  destruct (C60_points F g G) as (pts' & E' & S & _ & P). assert (pts' = pts) by congruence. subst pts'. pose proof (points_pos g pts P) as Pos.
  assert (Dx : distinct_xs (map (fun '(d, y) => (ln y, IZR d)) pts)).
  { unfold linear_fit_d_to_log_err in Fit. rewrite E in Fit. cbn [bind] in Fit. replace (Z.of_nat (length pts) <=? 1)%Z with false in Fit by lia.
    rewrite (log_points_ok pts Pos) in Fit. cbn [bind] in Fit. assert (Fit' : linregress (map (fun '(d, y) => (IZR d, ln y)) pts) = (s, i)) by (remember (linregress (map (fun '(d, y) => (IZR d, ln y)) pts)) as w; congruence).
    destruct (distinct_or_equal (map (fun '(d, y) => (IZR d, ln y)) pts)) as [(a & b & Ha & Hb & N)|A].
    - apply in_map_iff in Ha as ([d y] & <- & Ha). apply in_map_iff in Hb as ([d' y'] & <- & Hb). exists (ln y, IZR d), (ln y', IZR d').
      split; [apply in_map_iff; now exists (d, y)|]. split; [apply in_map_iff; now exists (d', y')|exact N].
    - exfalso. apply Hne. apply flat_slope in A. rewrite Fit' in A. exact A. }
  pose proof (C51_output_range leastsq _ (ln target) 1 Ho Dx ltac:(lra)) as K. destruct (linregress _) as [s0 i0]. cbv zeta in K. destruct K as (enough & d1 & d2 & K1 & K2 & _).
  exists enough, d1, d2. split; [lra|]. split; [exact K1|]. intros H1.
  pose proof (ceilR_spec d1) as C1. pose proof (ceilR_spec d2) as C2.
  assert (P1 : (1 <= ceilR d1)%Z) by (assert (0 < ceilR d1)%Z by (apply lt_IZR; lra); lia).
  assert (P2 : (ceilR d1 <= ceilR d2)%Z) by (assert (ceilR d1 < ceilR d2 + 1)%Z by (apply lt_IZR; rewrite plus_IZR; lra); lia).
  destruct (C53_honeycomb F g u sr st ob p lay dec (ceilR d1) cs Hu HL Hg Hh Hs P1) as (u1 & lay1 & q1 & U1 & U2 & U3 & U4 & U5).
  destruct (C53_honeycomb F g u sr st ob p lay dec (ceilR d2) cs Hu HL Hg Hh Hs ltac:(lia)) as (u2 & lay2 & q2 & V1 & V2 & V3 & V4 & V5).
  assert (Dist : forall v lay', HoneycombLayout (4 * v) (6 * v) sr st ob p = Ok lay' -> (1 <= v)%Z -> code_distance_1qdep lay' = (4 * v)%Z /\ num_qubits lay' = (v * v * (if is_em3 st then 24 else 60))%Z).
  { intros v lay' H Hv. unfold HoneycombLayout in H. destruct (negb _); [discriminate|]. destruct (negb _); [discriminate|]. injection H as <-. split; [unfold code_distance_1qdep; cbn [data_width data_height]; dlia|].
    unfold num_qubits. cbn [style data_width data_height]. destruct (is_em3 st); [lia|]. rewrite Z.quot_div_nonneg by nia. replace (5 * (4 * v * (6 * v)))%Z with (v * v * 60 * 2)%Z by ring. now rewrite Z.div_mul. }
  destruct (Dist u1 lay1 U2 U1) as [D1 N1]. destruct (Dist u2 lay2 V2 V1) as [D2 N2]. rewrite D1 in U3. rewrite D2 in V3.
  assert (Hu12 : (u1 <= u2)%Z) by lia.
  assert (W : forall x a b, (a <= 4 * b < a + 4)%Z -> x <= IZR a < x + 1 -> x <= IZR (4 * b) < x + 4).
  { intros x a b Hab Hx. assert (IZR a <= IZR (4 * b)) by (apply IZR_le; lia). assert (IZR (4 * b) <= IZR (a + 3)) by (apply IZR_le; lia). rewrite plus_IZR in H0. lra. }
  exists lay1, lay2, u1, u2, q1, q2. split; [lia|]. split; [exact U2|]. split; [exact V2|]. split; [apply (W d1 (ceilR d1)); [lia|lra]|]. split; [apply (W d2 (ceilR d2)); [lia|lra]|].
  split; [|split; [exact U5|split; [exact V5|]]].
  - intros fuel Hf. unfold projected_qubit_count_range. rewrite E. cbn [bind]. rewrite (log_points_ok pts Pos). cbn [bind].
    replace (Z.of_nat (length pts) <=? 1)%Z with false by lia. unfold log. destruct (Rle_dec target 0); [lra|]. cbn [bind].
    rewrite map_map. rewrite (map_ext _ (fun '(d, y) => (ln y, IZR d))) by (now intros []). rewrite (K1 fuel Hf). cbn [bind]. rewrite U4. cbn [bind]. rewrite V4. reflexivity.
  - rewrite U5, V5, N1, N2. rewrite <- Zle_Qle. destruct (is_em3 st); nia.
Qed.
Print Assumptions C62_range.

(** A group meeting the hypotheses: two sizes with a quarter and an eighth of the shots
    wrong, one code cell. *)
Definition ex_group : lambda_group Z :=
  mkGroup (1#100) (as_decoder_problem_desc (mkLayout 4 6 12 "SD6" "V" (1#100)) "internal")
    [(4%Z, mkShots 100 75 1%Z); (8%Z, mkShots 200 175 1%Z)] [(8%Z, mkShots 400 350 1%Z)].
Lemma ex_group_good : good_group ex_group.
Proof.
  split.
  - vm_compute. discriminate.
  - vm_compute. discriminate.
  - repeat (constructor; [cbn [In map fst]; intuition discriminate|]). constructor.
  - repeat (constructor; [cbn [In map fst]; intuition discriminate|]). constructor.
  - intros d s H. unfold counted. simpl in H. decompose [or] H; try contradiction; match goal with K : _ = _ |- _ => injection K as <- <- end; cbn; lia.
Qed.
Lemma one_piece r : 0 <= r <= 1 / 2 -> total_error_to_per_piece_error r 1 = Ok r.
Proof. intros H. destruct (C48_inverse r 1 H ltac:(lia)) as (q & E & _ & Hc). change (Z.to_nat 1) with 1%nat in Hc. rewrite compose_closed in Hc. rewrite E. f_equal. simpl in Hc. lra. Qed.
Lemma ex_group_combo : combo_data ex_group = Ok [(4%Z, 7 / 16); (8%Z, 15 / 64)].
Proof.
  unfold combo_data. change (distances ex_group) with [4%Z; 8%Z].
  assert (R1 : rate (mkShots 100 75 1%Z) = 1 / 4) by (symmetry; apply rate_is; right; split; [discriminate|cbn [num_shots num_correct]; rewrite <- Z_R_minus; lra]).
  assert (R2 : rate (mkShots 200 175 1%Z) = 1 / 8) by (symmetry; apply rate_is; right; split; [discriminate|cbn [num_shots num_correct]; rewrite <- Z_R_minus; lra]).
  assert (R3 : rate (mkShots 400 350 1%Z) = 1 / 8) by (symmetry; apply rate_is; right; split; [discriminate|cbn [num_shots num_correct]; rewrite <- Z_R_minus; lra]).
  cbn [combo ex_group pairs_h pairs_v g_rep]. change (ceil_div (d_rounds _) (d_distance _)) with 1%Z. change (d_distance _ =? 0)%Z with false.
  cbn [dget Z.eqb Pos.eqb option_map]. rewrite R1, R2, R3.
  destruct (Req_EM_T (1 / 4) 0); [lra|]. destruct (Req_EM_T (1 / 8) 0); [lra|]. cbv iota. rewrite !one_piece by lra. cbn [bind]. f_equal. f_equal; [f_equal; lra|]. f_equal. f_equal. lra.
Qed.
Lemma ex_group_fit : exists slope intercept, linear_fit_d_to_log_err ex_group = Ok (slope, intercept) /\ slope < - (1 / 8) /\ exp intercept = 49 / 60.
Proof.
  unfold linear_fit_d_to_log_err. rewrite ex_group_combo. cbn [bind]. change (Z.of_nat (length _) <=? 1)%Z with false. cbv iota.
  rewrite log_points_ok; [|intros d y [[= _ <-]|[[= _ <-]|[]]]; lra]. cbn [bind map]. destruct (linregress _) as [s i] eqn:E. exists s, i. split; [reflexivity|].
  unfold linregress, mean, rsum in E. simpl in E.
  assert (Hs : s = (ln (15 / 64) - ln (7 / 16)) / 4) by (injection E as <- _; field; lra).
  assert (Hi : i = ln (7 / 16) - s * 4) by (rewrite Hs; injection E as _ <-; field; lra).
  split.
  - assert (L : ln (15 / 64) - ln (7 / 16) = ln (15 / 28)) by (unfold Rminus; rewrite <- ln_Rinv by lra; rewrite <- ln_mult by lra; f_equal; lra).
    assert (B : ln (15 / 28) < - (1 / 2)); [|lra]. rewrite <- (ln_exp (- (1 / 2))). apply ln_increasing; [lra|].
    (* exp(-1/2) > 15/28 because exp(1/2) < 28/15 *)
    rewrite exp_Ropp. assert (X : exp (1 / 2) < 28 / 15).
    { assert (S2 : exp (1 / 2) * exp (1 / 2) = exp 1) by (rewrite <- exp_plus; f_equal; lra). pose proof exp_le_3. pose proof (exp_pos (1 / 2)). nra. }
    pose proof (exp_pos (1 / 2)). apply (Rmult_lt_reg_r (exp (1 / 2))); [assumption|]. rewrite Rinv_l by lra. lra.
  - rewrite Hi, Hs. replace (ln (7 / 16) - (ln (15 / 64) - ln (7 / 16)) / 4 * 4) with (ln (7 / 16) + ln (7 / 16) + - ln (15 / 64)) by field.
    rewrite <- ln_mult by lra. rewrite <- ln_Rinv by lra. rewrite <- ln_mult by lra. rewrite exp_ln; lra.
Qed.
Example C54_example : exists slope intercept, linear_fit_d_to_log_err ex_group = Ok (slope, intercept) /\ slope <> 0.
Proof. destruct ex_group_fit as (s & i & E & H & _). exists s, i. split; [exact E|lra]. Qed.
Example C60_example : good_group ex_group /\ exists pts, combo_data ex_group = Ok pts /\ map fst pts = [4; 8]%Z.
Proof. split; [apply ex_group_good|]. eexists. split; [apply ex_group_combo|reflexivity]. Qed.
Example C61_example : good_group ex_group /\ exact_optimiser newton /\ exists e e', projected_error ex_group 4 = Ok e /\ projected_error ex_group (4 + 2) = Ok e' /\ e' < e.
Proof.
  split; [apply ex_group_good|]. split; [apply newton_exact|]. destruct ex_group_fit as (s & i & E & H & _). unfold projected_error. rewrite E. cbn [bind].
  eexists _, _. split; [reflexivity|]. split; [reflexivity|]. apply exp_increasing. lra.
Qed.
Example C62_example : exists q, projected_required_qubit_count ex_group (1 / 1000) "honeycomb_SD6" = Ok q /\ (60 <= q)%Q.
Proof.
  destruct ex_group_fit as (s & i & E & H & Hi).
  destruct (C62_required Z ex_group 1 12 "SD6" "V" (1#100) (mkLayout 4 6 12 "SD6" "V" (1#100)) "internal" "honeycomb_SD6" (1 / 1000) s i (49 / 60)) as (u' & lay' & q & U1 & U2 & _ & U3 & U4 & _); try reflexivity; try lia; try lra; [exact E| |].
  - unfold projected_error. rewrite E. cbn [bind]. rewrite Rmult_0_r, Rplus_0_l, Hi. reflexivity.
  - exists q. split; [exact U3|]. rewrite U4. unfold HoneycombLayout in U2. destruct (negb _); [discriminate|]. destruct (negb _); [discriminate|]. injection U2 as <-.
    unfold num_qubits. cbn [style data_width data_height is_em3 String.eqb Ascii.eqb Bool.eqb orb]. change (60#1)%Q with (inject_Z 60). rewrite <- Zle_Qle.
    rewrite Z.quot_div_nonneg by nia. apply Z.div_le_lower_bound; nia.
Qed.
