(** C51: least squares ranges (src/probability_util.py), with an exact optimiser. *)
From Coq Require Import Reals Lra FunctionalExtensionality.
From Verif Require Import Prelude Collect Prob Prop_Prob.
Open Scope R_scope.

(** What is assumed of scipy.optimize.leastsq: on a non-negative quadratic function it
    finds the least square. *)
Definition exact_optimiser (leastsq : (R -> R) -> R) : Prop :=
  forall f a b c, 0 < a -> (forall x, f x = a * x ^ 2 + b * x + c /\ 0 <= f x) -> forall x, f (leastsq f) ^ 2 <= f x ^ 2.
(** One step of Newton's method is such an optimiser. *)
Definition newton (f : R -> R) : R := - ((f 1 - f (-1)) / 2) / (2 * ((f 1 + f (-1)) / 2 - f 0)).
Lemma newton_exact : exact_optimiser newton.
Proof.
  intros f a b c Ha Hf x. assert (E : newton f = - b / (2 * a)).
  { unfold newton. rewrite (proj1 (Hf 1)), (proj1 (Hf (-1))), (proj1 (Hf 0)). field. lra. }
  rewrite E. apply pow_incr. split; [apply Hf|]. rewrite (proj1 (Hf x)), (proj1 (Hf _)).
  replace (a * (- b / (2 * a)) ^ 2 + b * (- b / (2 * a)) + c) with (a * x ^ 2 + b * x + c - a * (x + b / (2 * a)) ^ 2) by (field; lra).
  assert (0 <= a * (x + b / (2 * a)) ^ 2) by (apply Rmult_le_pos; [lra|apply pow2_ge_0]). lra.
Qed.

Definition distinct_xs (pts : list (R * R)) : Prop := exists p q, In p pts /\ In q pts /\ fst p <> fst q.

(** *** Moments *)
Lemma rsum_cons a l : rsum (a :: l) = a + rsum l.
Proof. reflexivity. Qed.
Definition sm (f : R -> R -> R) (pts : list (R * R)) : R := rsum (map (fun p => f (fst p) (snd p)) pts).
Lemma sm_pat f pts : rsum (map (fun '(x, y) => f x y) pts) = sm f pts.
Proof. unfold sm. f_equal. apply map_ext. now intros []. Qed.
Section Moments.
  Context (pts : list (R * R)).
  Definition n_ := INR (length pts).
  Definition sx := sm (fun x _ => x) pts.
  Definition sy := sm (fun _ y => y) pts.
  Definition sxx := sm (fun x _ => x * x) pts.
  Definition sxy := sm (fun x y => x * y) pts.
  Definition syy := sm (fun _ y => y * y) pts.
End Moments.
Lemma INR_length_cons {A} (a : A) l : INR (length (a :: l)) = INR (length l) + 1.
Proof. change (length (a :: l)) with (S (length l)). apply S_INR. Qed.
Lemma cost_moments pts i s : least_squares_cost pts i s =
  n_ pts * i ^ 2 + 2 * i * s * sx pts + s ^ 2 * sxx pts - 2 * i * sy pts - 2 * s * sxy pts + syy pts.
Proof.
  unfold least_squares_cost. rewrite (sm_pat (fun x y => (i + s * x - y) ^ 2)). unfold n_, sx, sy, sxx, sxy, syy.
  induction pts as [|[x y] l IH]; [unfold sm; simpl; ring|]. rewrite INR_length_cons. unfold sm in *. cbn [map fst snd] in *. rewrite !rsum_cons, IH. ring.
Qed.
Lemma spread_moments pts m k : rsum (map (fun '(x, y) => (x - m) * (y - k)) pts) = sxy pts - k * sx pts - m * sy pts + n_ pts * m * k.
Proof.
  rewrite (sm_pat (fun x y => (x - m) * (y - k))). unfold n_, sx, sy, sxx, sxy, syy.
  induction pts as [|[x y] l IH]; [unfold sm; simpl; ring|]. rewrite INR_length_cons. unfold sm in *. cbn [map fst snd] in *. rewrite !rsum_cons, IH. ring.
Qed.
Lemma variance_moments pts m : rsum (map (fun '(x, y) => (x - m) ^ 2) pts) = sxx pts - 2 * m * sx pts + n_ pts * m ^ 2.
Proof.
  rewrite (sm_pat (fun x y => (x - m) ^ 2)). unfold n_, sx, sy, sxx, sxy, syy.
  induction pts as [|[x y] l IH]; [unfold sm; simpl; ring|]. rewrite INR_length_cons. unfold sm in *. cbn [map fst snd] in *. rewrite !rsum_cons, IH. ring.
Qed.
Lemma squares_nonneg {A} (f : A -> R) l : 0 <= rsum (map (fun p => f p ^ 2) l).
Proof. induction l as [|a l IH]; simpl; [lra|]. pose proof (pow2_ge_0 (f a)). simpl in *. lra. Qed.
Lemma squares_pos {A} (f : A -> R) l a : In a l -> f a <> 0 -> 0 < rsum (map (fun p => f p ^ 2) l).
Proof.
  induction l as [|b l IH]; [intros []|]. intros [->|H] Hf; cbn [map]; rewrite rsum_cons.
  - pose proof (squares_nonneg f l). assert (0 < f a ^ 2) by (rewrite <- Rsqr_pow2; now apply Rsqr_pos_lt). lra.
  - specialize (IH H Hf). pose proof (pow2_ge_0 (f b)). lra.
Qed.
Lemma around_pos pts m : distinct_xs pts -> 0 < sxx pts - 2 * m * sx pts + n_ pts * m ^ 2.
Proof.
  intros (p & q & Hp & Hq & Hne). rewrite <- variance_moments.
  replace (map (fun '(x, _) => (x - m) ^ 2) pts) with (map (fun p => (fst p - m) ^ 2) pts) by (apply map_ext; now intros []).
  destruct (Req_EM_T (fst p) m) as [E|E].
  - apply (squares_pos (fun p => fst p - m) pts q Hq). intros H. apply Hne. lra.
  - apply (squares_pos (fun p => fst p - m) pts p Hp). intros H. apply E. lra.
Qed.
Lemma n_pos pts : distinct_xs pts -> 0 < n_ pts.
Proof. intros (p & _ & Hp & _). unfold n_. apply lt_0_INR. destruct pts; [destruct Hp|simpl; lia]. Qed.
Lemma det_pos pts : distinct_xs pts -> 0 < n_ pts * sxx pts - sx pts ^ 2.
Proof.
  intros H. pose proof (n_pos pts H) as N. pose proof (around_pos pts (sx pts / n_ pts) H) as V.
  replace (n_ pts * sxx pts - sx pts ^ 2) with (n_ pts * (sxx pts - 2 * (sx pts / n_ pts) * sx pts + n_ pts * (sx pts / n_ pts) ^ 2)) by (field; lra).
  now apply Rmult_lt_0_compat.
Qed.
Lemma fit_moments pts : distinct_xs pts ->
  fst (linregress pts) = (n_ pts * sxy pts - sx pts * sy pts) / (n_ pts * sxx pts - sx pts ^ 2) /\
  snd (linregress pts) = (sy pts - fst (linregress pts) * sx pts) / n_ pts.
Proof.
  intros H. pose proof (n_pos pts H) as N. pose proof (det_pos pts H) as D.
  assert (Mx : mean (map fst pts) = sx pts / n_ pts) by (unfold mean, sx, sm, n_; rewrite map_length; reflexivity).
  assert (My : mean (map snd pts) = sy pts / n_ pts) by (unfold mean, sy, sm, n_; rewrite map_length; reflexivity).
  unfold linregress. cbn [fst snd]. rewrite Mx, My, spread_moments, variance_moments. split; [field; split; [lra|]|field; split; [lra|]].
  all: replace (sxx pts * n_ pts - 2 * sx pts * sx pts + sx pts ^ 2) with (n_ pts * sxx pts - sx pts ^ 2) by ring || idtac; lra.
Qed.
(** The cost of any line, from the fit. *)
Lemma cost_from_fit pts i s : distinct_xs pts -> let '(s0, i0) := linregress pts in
  least_squares_cost pts i s = least_squares_cost pts i0 s0 + n_ pts * (i - i0) ^ 2 + 2 * (i - i0) * (s - s0) * sx pts + (s - s0) ^ 2 * sxx pts.
Proof.
  intros H. pose proof (n_pos pts H) as N. pose proof (det_pos pts H) as D. pose proof (fit_moments pts H) as [Fs Fi].
  destruct (linregress pts) as [s0 i0]. cbn [fst snd] in Fs, Fi. rewrite !cost_moments.
  assert (E1 : n_ pts * i0 + s0 * sx pts = sy pts) by (rewrite Fi; field; lra).
  assert (E2 : i0 * sx pts + s0 * sxx pts = sxy pts) by (rewrite Fi, Fs; field; lra).
  replace (sy pts) with (n_ pts * i0 + s0 * sx pts) by exact E1. replace (sxy pts) with (i0 * sx pts + s0 * sxx pts) by exact E2. ring.
Qed.

(** The fit is the best line. *)
Theorem C51_fit_optimal : forall pts intercept slope, distinct_xs pts ->
  least_squares_cost pts (snd (linregress pts)) (fst (linregress pts)) <= least_squares_cost pts intercept slope.
Proof.
  intros pts i s H. pose proof (cost_from_fit pts i s H) as E. pose proof (n_pos pts H) as N. pose proof (det_pos pts H) as D.
  destruct (linregress pts) as [s0 i0]. cbn [fst snd]. rewrite E.
  assert (0 <= n_ pts * (i - i0) ^ 2 + 2 * (i - i0) * (s - s0) * sx pts + (s - s0) ^ 2 * sxx pts); [|lra].
  replace (n_ pts * (i - i0) ^ 2 + 2 * (i - i0) * (s - s0) * sx pts + (s - s0) ^ 2 * sxx pts)
    with (n_ pts * (i - i0 + (s - s0) * sx pts / n_ pts) ^ 2 + (s - s0) ^ 2 * (n_ pts * sxx pts - sx pts ^ 2) / n_ pts) by (field; lra).
  apply Rplus_le_le_0_compat; [apply Rmult_le_pos; [lra|apply pow2_ge_0]|]. apply Rle_mult_inv_pos; [|exact N]. apply Rmult_le_pos; [apply pow2_ge_0|lra].
Qed.
Print Assumptions C51_fit_optimal.

Lemma cost_nonneg pts i s : 0 <= least_squares_cost pts i s.
Proof.
  unfold least_squares_cost. replace (map (fun '(x, y) => (i + s * x - y) ^ 2) pts) with (map (fun p => (i + s * fst p - snd p) ^ 2) pts) by (apply map_ext; now intros []).
  apply (squares_nonneg (fun p => i + s * fst p - snd p)).
Qed.
Lemma shifted_cost pts X y s : least_squares_cost (map (fun '(x, y0) => (x - X, y0 - y)) pts) 0 s = least_squares_cost pts (y - X * s) s.
Proof. unfold least_squares_cost. rewrite map_map. f_equal. apply map_ext. intros [x y0]. ring. Qed.
(** An optimiser of a quadratic reaches its minimum. *)
Lemma optimum leastsq f a b c : exact_optimiser leastsq -> 0 < a -> (forall x, f x = a * x ^ 2 + b * x + c /\ 0 <= f x) ->
  (forall x, f (leastsq f) <= f x) /\ f (leastsq f) = c - b ^ 2 / (4 * a).
Proof.
  intros Ho Ha Hf. assert (G : forall x, f (leastsq f) <= f x).
  { intros x. specialize (Ho f a b c Ha Hf x). apply Rsqr_incr_0; [rewrite !Rsqr_pow2; exact Ho|apply Hf|apply Hf]. }
  split; [exact G|]. specialize (G (- b / (2 * a))). rewrite (proj1 (Hf (- b / (2 * a)))) in G.
  replace (a * (- b / (2 * a)) ^ 2 + b * (- b / (2 * a)) + c) with (c - b ^ 2 / (4 * a)) in G by (field; lra).
  apply Rle_antisym; [exact G|]. rewrite (proj1 (Hf (leastsq f))). set (x := leastsq f).
  replace (a * x ^ 2 + b * x + c) with (c - b ^ 2 / (4 * a) + a * (x + b / (2 * a)) ^ 2) by (field; lra).
  assert (0 <= a * (x + b / (2 * a)) ^ 2) by (apply Rmult_le_pos; [lra|apply pow2_ge_0]). lra.
Qed.

Lemma cost_for_y_spec leastsq pts X : exact_optimiser leastsq -> distinct_xs pts ->
  let base := least_squares_cost pts (snd (linregress pts)) (fst (linregress pts)) in
  let base_y := snd (linregress pts) + X * fst (linregress pts) in
  exists a, 0 < a /\ forall y, cost_for_y leastsq pts X y = base + a * (y - base_y) ^ 2 /\
    (forall s, cost_for_y leastsq pts X y <= least_squares_cost pts (y - X * s) s) /\ exists s, cost_for_y leastsq pts X y = least_squares_cost pts (y - X * s) s.
Proof.
  intros Ho H base base_y. pose proof (n_pos pts H) as N. pose proof (det_pos pts H) as D. pose proof (around_pos pts X H) as A0.
  set (A := sxx pts - 2 * X * sx pts + n_ pts * X ^ 2) in *. exists ((n_ pts * sxx pts - sx pts ^ 2) / A). split; [now apply Rdiv_lt_0_compat|]. intros y.
  set (f := fun s => least_squares_cost (map (fun '(x, y0) => (x - X, y0 - y)) pts) 0 s).
  assert (Ec : cost_for_y leastsq pts X y = f (leastsq f)) by (unfold f; rewrite shifted_cost; reflexivity).
  set (s0 := fst (linregress pts)) in *. set (i0 := snd (linregress pts)) in *. set (d := y - base_y).
  set (K := sx pts - n_ pts * X).
  assert (Hf : forall x, f x = A * x ^ 2 + (2 * d * K - 2 * A * s0) * x + (base + n_ pts * d ^ 2 - 2 * d * K * s0 + A * s0 ^ 2) /\ 0 <= f x).
  { intros x. split; [|unfold f; apply cost_nonneg]. unfold f. rewrite shifted_cost. pose proof (cost_from_fit pts (y - X * x) x H) as E.
    unfold d, base_y, K, A, base, s0, i0. destruct (linregress pts) as [s1 i1]. cbn [fst snd]. rewrite E. ring. }
  destruct (optimum leastsq f _ _ _ Ho A0 Hf) as [O1 O2]. rewrite Ec. split; [|split].
  - rewrite O2. unfold K, A. field. fold A. lra.
  - intros s. rewrite <- (shifted_cost pts X y s). apply O1.
  - exists (leastsq f). rewrite <- shifted_cost. reflexivity.
Qed.
Lemma cost_for_slope_spec leastsq pts : exact_optimiser leastsq -> distinct_xs pts ->
  let base := least_squares_cost pts (snd (linregress pts)) (fst (linregress pts)) in
  exists a, 0 < a /\ forall s, cost_for_slope leastsq pts s = base + a * (s - fst (linregress pts)) ^ 2 /\
    (forall i, cost_for_slope leastsq pts s <= least_squares_cost pts i s) /\ exists i, cost_for_slope leastsq pts s = least_squares_cost pts i s.
Proof.
  intros Ho H base. pose proof (n_pos pts H) as N. pose proof (det_pos pts H) as D.
  exists ((n_ pts * sxx pts - sx pts ^ 2) / n_ pts). split; [now apply Rdiv_lt_0_compat|]. intros s.
  set (f := fun i => least_squares_cost pts i s). change (cost_for_slope leastsq pts s) with (f (leastsq f)).
  set (s0 := fst (linregress pts)) in *. set (i0 := snd (linregress pts)) in *. set (e := s - s0).
  assert (Hf : forall x, f x = n_ pts * x ^ 2 + (2 * e * sx pts - 2 * n_ pts * i0) * x + (base + e ^ 2 * sxx pts - 2 * e * sx pts * i0 + n_ pts * i0 ^ 2) /\ 0 <= f x).
  { intros x. split; [|unfold f; apply cost_nonneg]. unfold f. pose proof (cost_from_fit pts x s H) as E.
    unfold e, base, s0, i0. destruct (linregress pts) as [s1 i1]. cbn [fst snd]. rewrite E. ring. }
  destruct (optimum leastsq f _ _ _ Ho N Hf) as [O1 O2]. split; [|split].
  - rewrite O2. field. lra.
  - exact O1.
  - exists (leastsq f). reflexivity.
Qed.

(** binary_intercept on a parabola, from its vertex. *)
Lemma parabola_intercept f base a v step c atol : 0 < a -> (forall x, f x = base + a * (x - v) ^ 2) -> step <> 0 -> 0 < c -> 0 < atol ->
  exists enough x, (forall fuel, (enough <= fuel)%nat -> binary_intercept fuel f v step (base + c) atol = Ok x) /\
    Rabs (f x - (base + c)) <= atol /\ 0 <= (x - v) * step.
Proof.
  intros Ha Hf Hs Hc Ht.
  destruct (C47_eventually_crossed f v step (base + c) atol (1 + c / a)) as (n & x & H1 & H2 & H3); [|exact Ht|exact Hs| |].
  - replace f with (fun x => base + a * (x - v) ^ 2) by (apply functional_extensionality; intros z; symmetry; apply Hf).
    apply derivable_continuous. reg.
  - intros x _ Hd. unfold crossed. rewrite (Hf x), (Hf v). replace (a * (v - v) ^ 2) with 0 by ring.
    assert (Q : 0 < c / a) by (now apply Rdiv_lt_0_compat).
    enough (c <= a * (x - v) ^ 2) by lra.
    rewrite <- Rsqr_pow2, Rsqr_abs. unfold Rsqr. set (d := Rabs (x - v)) in *.
    assert (c / a <= d * d) by nra. apply Rmult_le_compat_l with (r := a) in H; [|lra]. replace (a * (c / a)) with c in H by (field; lra). lra.
  - exists n, x. auto.
Qed.

(** The reported outputs bracket the fit's output at the target, and the best line
    through each of them costs the requested amount more than the fit. *)
Theorem C51_output_range : forall leastsq pts target_x cost_increase,
  exact_optimiser leastsq -> distinct_xs pts -> 0 < cost_increase ->
  let '(slope, intercept) := linregress pts in
  let goal := least_squares_cost pts intercept slope + cost_increase in
  exists enough low high,
    (forall fuel, (enough <= fuel)%nat -> least_squares_output_range leastsq fuel pts target_x cost_increase = Ok (low, high)) /\
    low <= intercept + slope * target_x <= high /\
    forall y, y = low \/ y = high ->
      (forall i s, i + s * target_x = y -> goal - 1 / 100000 <= least_squares_cost pts i s) /\
      exists i s, i + s * target_x = y /\ least_squares_cost pts i s <= goal + 1 / 100000.
Proof.
  intros leastsq pts X c Ho H Hc. destruct (cost_for_y_spec leastsq pts X Ho H) as (a & Ha & Hy). cbv zeta in Hy.
  unfold least_squares_output_range, cost_of. destruct (linregress pts) as [s0 i0]. cbn [fst snd] in *. cbv zeta.
  set (base := least_squares_cost pts i0 s0) in *.
  destruct (parabola_intercept (cost_for_y leastsq pts X) base a (i0 + X * s0) (-1) c (1 / 100000)) as (n1 & low & L1 & L2 & L3); [exact Ha|intros; apply Hy|lra|lra|lra|].
  destruct (parabola_intercept (cost_for_y leastsq pts X) base a (i0 + X * s0) 1 c (1 / 100000)) as (n2 & high & R1 & R2 & R3); [exact Ha|intros; apply Hy|lra|lra|lra|].
  exists (n1 + n2)%nat, low, high. split; [|split; [lra|]].
  - intros fuel Hfu. rewrite L1 by lia. cbn [bind]. rewrite R1 by lia. reflexivity.
  - assert (G : forall y, Rabs (cost_for_y leastsq pts X y - (base + c)) <= 1 / 100000 ->
      (forall i s, i + s * X = y -> base + c - 1 / 100000 <= least_squares_cost pts i s) /\ exists i s, i + s * X = y /\ least_squares_cost pts i s <= base + c + 1 / 100000).
    { intros y Hd. destruct (Hy y) as (_ & H1 & s & H2). split.
      - intros i s' E. specialize (H1 s'). replace (y - X * s') with i in H1 by lra. revert Hd. rabs; lra.
      - exists (y - X * s), s. split; [ring|]. rewrite <- H2. revert Hd. rabs; lra. }
    intros y [->| ->]; apply G; assumption.
Qed.
Print Assumptions C51_output_range.
Theorem C51_slope_range : forall leastsq pts cost_increase,
  exact_optimiser leastsq -> distinct_xs pts -> 0 < cost_increase ->
  let '(slope, intercept) := linregress pts in
  let goal := least_squares_cost pts intercept slope + cost_increase in
  exists enough low high,
    (forall fuel, (enough <= fuel)%nat -> least_squares_slope_range leastsq fuel pts cost_increase = Ok (low, slope, high)) /\
    low <= slope <= high /\
    forall s, s = low \/ s = high ->
      (forall i, goal - 1 / 100000 <= least_squares_cost pts i s) /\ exists i, least_squares_cost pts i s <= goal + 1 / 100000.
Proof.
  intros leastsq pts c Ho H Hc. destruct (cost_for_slope_spec leastsq pts Ho H) as (a & Ha & Hy). cbv zeta in Hy.
  unfold least_squares_slope_range, cost_of. destruct (linregress pts) as [s0 i0]. cbn [fst snd] in *. cbv zeta.
  set (base := least_squares_cost pts i0 s0) in *.
  destruct (parabola_intercept (cost_for_slope leastsq pts) base a s0 (-1) c (1 / 100000)) as (n1 & low & L1 & L2 & L3); [exact Ha|intros; apply Hy|lra|lra|lra|].
  destruct (parabola_intercept (cost_for_slope leastsq pts) base a s0 1 c (1 / 100000)) as (n2 & high & R1 & R2 & R3); [exact Ha|intros; apply Hy|lra|lra|lra|].
  exists (n1 + n2)%nat, low, high. split; [|split; [lra|]].
  - intros fuel Hfu. rewrite L1 by lia. cbn [bind]. rewrite R1 by lia. reflexivity.
  - assert (G : forall s, Rabs (cost_for_slope leastsq pts s - (base + c)) <= 1 / 100000 ->
      (forall i, base + c - 1 / 100000 <= least_squares_cost pts i s) /\ exists i, least_squares_cost pts i s <= base + c + 1 / 100000).
    { intros y Hd. destruct (Hy y) as (_ & H1 & s & H2). split.
      - intros i. specialize (H1 i). revert Hd. rabs; lra.
      - exists s. rewrite <- H2. revert Hd. rabs; lra. }
    intros y [->| ->]; apply G; assumption.
Qed.
Print Assumptions C51_slope_range.

(** the data of the unit test *)
Example C51_example : exact_optimiser newton /\ distinct_xs [(1, 1); (2, 5); (3, 9)] /\ linregress [(1, 1); (2, 5); (3, 9)] = (4, -3) /\
  exists enough low high, (forall fuel, (enough <= fuel)%nat -> least_squares_slope_range newton fuel [(1, 1); (2, 5); (3, 9)] 1 = Ok (low, 4, high)) /\ low <= 4 <= high.
Proof.
  assert (D : distinct_xs [(1, 1); (2, 5); (3, 9)]) by (exists (1, 1), (2, 5); simpl; split; [auto|split; [auto|lra]]).
  assert (F : linregress [(1, 1); (2, 5); (3, 9)] = (4, -3)).
  { unfold linregress, mean. simpl. f_equal; field. }
  split; [apply newton_exact|]. split; [exact D|]. split; [exact F|].
  pose proof (C51_slope_range newton _ 1 newton_exact D ltac:(lra)) as G. rewrite F in G. destruct G as (n & low & high & H1 & H2 & _). exists n, low, high. auto.
Qed.
