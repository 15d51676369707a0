(** Likelihoods: log_binomial (C49) and likely_error_rate_bounds (C50). *)
From Coq Require Import Reals Lra.
From Verif Require Import Prelude Collect Prob Prop_Prob.
Open Scope R_scope.

(** Specification: the logarithm with value minus infinity at zero, and the likelihood of
    h hits and m misses up to the binomial coefficient. *)
Definition eln (x : R) : ext := if Rlt_dec 0 x then Fin (ln x) else NInf.
Definition likelihood (h m : Z) (p : R) : R := p ^ Z.to_nat h * (1 - p) ^ Z.to_nat m.

Lemma IZR_nat z : (0 <= z)%Z -> IZR z = INR (Z.to_nat z).
Proof. intros H. now rewrite INR_IZR_INZ, Z2Nat.id. Qed.
Lemma eln_pos x : 0 < x -> eln x = Fin (ln x).
Proof. intros H. unfold eln. destruct (Rlt_dec 0 x); [reflexivity|lra]. Qed.
Lemma eln_zero : eln 0 = NInf.
Proof. unfold eln. destruct (Rlt_dec 0 0); [lra|reflexivity]. Qed.

Definition log_choose (n h : Z) : R := log_factorial n - log_factorial (n - h) - log_factorial h.
Lemma log_binomial_likelihood n h p : 0 <= p <= 1 -> (0 <= h <= n)%Z ->
  log_binomial p n h = eadd (eln (likelihood h (n - h) p)) (log_choose n h).
Proof.
  intros Hp Hh. unfold log_binomial. replace (Rmax 0 (Rmin p 1)) with p by (unfold Rmax, Rmin; repeat destruct (Rle_dec _ _); lra).
  cbv zeta. fold (log_choose n h). f_equal. unfold likelihood.
  rewrite (IZR_nat h), (IZR_nat (n - h)) by lia.
  assert (Z0 : forall z, (0 <= z)%Z -> (z =? 0)%Z = match Z.to_nat z with O => true | _ => false end).
  { intros z Hz. destruct (Z.eqb_spec z 0) as [->|H]; [reflexivity|]. destruct (Z.to_nat z) eqn:E; [lia|reflexivity]. }
  rewrite (Z0 h), (Z0 (n - h)%Z) by lia. generalize (Z.to_nat h) as a, (Z.to_nat (n - h)) as b. intros a b.
  destruct (Req_EM_T p 0) as [->|H0].
  - destruct (Req_EM_T 0 1); [lra|]. rewrite Rminus_0_r, pow1, ln_1, Rmult_0_l, Rmult_1_r.
    destruct a as [|a], b as [|b]; cbn [negb eadd]; rewrite ?pow_i by lia; rewrite ?eln_zero; try reflexivity; simpl pow; rewrite eln_pos by lra; rewrite ln_1; f_equal; lra.
  - destruct (Req_EM_T p 1) as [->|H1].
    + rewrite pow1, ln_1, Rmult_0_l, Rminus_diag_eq, Rmult_1_l by reflexivity.
      destruct a as [|a], b as [|b]; cbn [negb eadd]; rewrite ?pow_i by lia; rewrite ?eln_zero; try reflexivity; simpl pow; rewrite eln_pos by lra; rewrite ln_1; f_equal; lra.
    + assert (A : 0 < p ^ a) by (apply pow_lt; lra). assert (B : 0 < (1 - p) ^ b) by (apply pow_lt; lra).
      rewrite eln_pos by (now apply Rmult_lt_0_compat). rewrite ln_mult by assumption. rewrite !ln_pow by lra.
      destruct a as [|a], b as [|b]; cbn [negb eadd]; f_equal; ring.
Qed.

Lemma log_factorial_exact n : (0 <= n < 20)%Z -> log_factorial n = ln (INR (fact (Z.to_nat n))).
Proof.
  intros H. unfold log_factorial. destruct (Z.ltb_spec n 20); [|lia]. generalize (Z.to_nat n). intros k. clear.
  assert (G : forall l x, fold_right Rplus 0 (l ++ [x]) = fold_right Rplus 0 l + x) by (induction l as [|y l IH]; intros x; simpl; [lra|rewrite IH; lra]).
  induction k as [|k IH]; [simpl; now rewrite ln_1|]. rewrite seq_S, map_app. cbn [map]. rewrite G, IH. cbn [Nat.add].
  rewrite <- ln_mult; [|apply INR_fact_lt_0|apply lt_0_INR; lia]. rewrite <- mult_INR. f_equal. f_equal. cbn [fact]. lia.
Qed.

(** C49: exact below 20 samples. *)
Theorem C49_log_binomial : forall n hits p, 0 <= p <= 1 -> (0 <= hits <= n)%Z -> (n < 20)%Z ->
  log_binomial p n hits = eln (C (Z.to_nat n) (Z.to_nat hits) * p ^ Z.to_nat hits * (1 - p) ^ Z.to_nat (n - hits)).
Proof.
  intros n h p Hp Hh Hn. rewrite log_binomial_likelihood by assumption. unfold log_choose. rewrite !log_factorial_exact by lia.
  unfold likelihood. replace (Z.to_nat (n - h)) with (Z.to_nat n - Z.to_nat h)%nat by lia.
  pose proof (INR_fact_lt_0 (Z.to_nat n)) as F1. pose proof (INR_fact_lt_0 (Z.to_nat h)) as F2. pose proof (INR_fact_lt_0 (Z.to_nat n - Z.to_nat h)) as F3.
  unfold C. set (fn := INR (fact (Z.to_nat n))) in *. set (fh := INR (fact (Z.to_nat h))) in *. set (fm := INR (fact (Z.to_nat n - Z.to_nat h))) in *.
  rewrite Rmult_assoc. set (L := p ^ Z.to_nat h * (1 - p) ^ (Z.to_nat n - Z.to_nat h)).
  assert (HC : 0 < fn / (fh * fm)) by (apply Rdiv_lt_0_compat; [exact F1|now apply Rmult_lt_0_compat]).
  unfold eln. destruct (Rlt_dec 0 L) as [HL|HL].
  - destruct (Rlt_dec 0 (fn / (fh * fm) * L)) as [H|H]; [|destruct H; now apply Rmult_lt_0_compat].
    cbn [eadd]. f_equal. rewrite ln_mult by assumption. unfold Rdiv. rewrite ln_mult, ln_Rinv, ln_mult; try assumption; [ring|now apply Rmult_lt_0_compat|apply Rinv_0_lt_compat; now apply Rmult_lt_0_compat].
  - destruct (Rlt_dec 0 (fn / (fh * fm) * L)) as [H|H]; [|reflexivity]. destruct HL.
    apply Rmult_lt_reg_l with (fn / (fh * fm)); [exact HC|]. now rewrite Rmult_0_r.
Qed.
Print Assumptions C49_log_binomial.

(** For every number of samples: minus infinity exactly for impossible outcomes, never
    plus infinity. *)
Theorem C49_impossible : forall n hits p, 0 <= p <= 1 -> (0 <= hits <= n)%Z ->
  (log_binomial p n hits = NInf <-> (p = 0 /\ (0 < hits)%Z) \/ (p = 1 /\ (hits < n)%Z)) /\ log_binomial p n hits <> PInf.
Proof.
  intros n h p Hp Hh. rewrite log_binomial_likelihood by assumption. unfold eln, likelihood.
  destruct (Rlt_dec _ _) as [H|H]; cbn [eadd]; (split; [|discriminate]); split; try discriminate; try reflexivity; intros G.
  - exfalso. destruct G as [[-> G]|[-> G]].
    + rewrite (pow_i (Z.to_nat h)) in H by lia. lra.
    + rewrite Rminus_diag_eq, (pow_i (Z.to_nat (n - h))) in H by (lia || reflexivity). lra.
  - destruct (Req_EM_T p 0) as [->|H0].
    + left. split; [reflexivity|]. destruct (Z.eq_dec h 0) as [->|Hz]; [|lia]. destruct H. rewrite Rminus_0_r, pow1. simpl. lra.
    + destruct (Req_EM_T p 1) as [->|H1].
      * right. split; [reflexivity|]. destruct (Z.eq_dec h n) as [->|Hz]; [|lia]. destruct H. rewrite Z.sub_diag, pow1. simpl. lra.
      * destruct H. apply Rmult_lt_0_compat; apply pow_lt; lra.
Qed.
Print Assumptions C49_impossible.

(** Likelihood ratios are exact for every number of samples: the (possibly approximate)
    binomial coefficient cancels. *)
Theorem C49_ratio : forall n hits p q, 0 < p < 1 -> 0 < q < 1 -> (0 <= hits <= n)%Z ->
  exists a b, log_binomial p n hits = Fin a /\ log_binomial q n hits = Fin b /\
    exp (a - b) = (p ^ Z.to_nat hits * (1 - p) ^ Z.to_nat (n - hits)) / (q ^ Z.to_nat hits * (1 - q) ^ Z.to_nat (n - hits)).
Proof.
  intros n h p q Hp Hq Hh. rewrite !log_binomial_likelihood by (assumption || lra).
  assert (Pos : forall x, 0 < x < 1 -> 0 < likelihood h (n - h) x) by (intros x Hx; apply Rmult_lt_0_compat; apply pow_lt; lra).
  rewrite !eln_pos by (apply Pos; assumption). cbn [eadd]. eexists. eexists. split; [reflexivity|]. split; [reflexivity|].
  replace (ln (likelihood h (n - h) p) + log_choose n h - (ln (likelihood h (n - h) q) + log_choose n h)) with (ln (likelihood h (n - h) p) + - ln (likelihood h (n - h) q)) by ring.
  rewrite exp_plus, exp_Ropp, !exp_ln by (apply Pos; assumption). reflexivity.
Qed.
Print Assumptions C49_ratio.
(** probabilities outside [0, 1] count as the nearest end *)
Theorem C49_clipped : forall n hits p, (p <= 0 -> log_binomial p n hits = log_binomial 0 n hits) /\ (1 <= p -> log_binomial p n hits = log_binomial 1 n hits).
Proof.
  intros n h p. split; intros H; unfold log_binomial.
  - replace (Rmax 0 (Rmin p 1)) with (Rmax 0 (Rmin 0 1)) by (unfold Rmax, Rmin; repeat destruct (Rle_dec _ _); lra). reflexivity.
  - replace (Rmax 0 (Rmin p 1)) with (Rmax 0 (Rmin 1 1)) by (unfold Rmax, Rmin; repeat destruct (Rle_dec _ _); lra). reflexivity.
Qed.
Print Assumptions C49_clipped.
Example C49_example : log_binomial (1 / 10) 2 1 = Fin (ln (18 / 100)) /\ log_binomial 0 2 1 = NInf /\ log_binomial 1 2 2 = Fin 0.
Proof.
  split; [|split].
  - rewrite C49_log_binomial by (lra || lia). simpl. unfold C. simpl. rewrite eln_pos; [f_equal; f_equal; field|lra].
  - apply C49_impossible; [lra|lia|]. left. lia || (split; [reflexivity|lia]).
  - rewrite C49_log_binomial by (lra || lia). simpl. unfold C. simpl. rewrite eln_pos; [|lra]. f_equal. rewrite <- ln_1. f_equal. field.
Qed.

(** ** C50: likelihood bounds *)
Lemma ln_le_sub x : 0 < x -> ln x <= x - 1.
Proof. intros H. pose proof (exp_ineq1_le (ln x)) as E. rewrite exp_ln in E by exact H. lra. Qed.
Lemma ln_mono x y : 0 < x <= y -> ln x <= ln y.
Proof. intros [H [H1| ->]]; [left; now apply ln_increasing|right; reflexivity]. Qed.

(** The likelihood increases up to the observed fraction. *)
Lemma likelihood_up h m p q : (0 <= h)%Z -> (0 <= m)%Z -> (0 < h + m)%Z -> 0 <= p <= q -> q * IZR (h + m) <= IZR h -> likelihood h m p <= likelihood h m q.
Proof.
  intros Hh Hm Hn Hpq Hq. assert (N : 0 < IZR (h + m)) by (apply IZR_lt; lia).
  assert (Hh' : IZR h <= IZR (h + m)) by (apply IZR_le; lia).
  assert (Q1 : q <= 1). { apply Rmult_le_reg_r with (IZR (h + m)); [exact N|lra]. }
  destruct (Req_EM_T p q) as [->|Hne]; [lra|].
  destruct (Req_EM_T q 1) as [->|Hq1].
  - assert (m = 0)%Z as ->. { assert (IZR (h + m) <= IZR h) as L by lra. apply le_IZR in L. lia. }
    unfold likelihood. simpl. rewrite !Rmult_1_r. apply pow_incr. lra.
  - destruct (Req_EM_T p 0) as [->|Hp0].
    + assert (h <> 0)%Z. { intros ->. simpl in Hq. assert (0 < q * IZR (0 + m)) by (apply Rmult_lt_0_compat; lra). lra. }
      unfold likelihood at 1. rewrite pow_i by lia. rewrite Rmult_0_l. apply Rmult_le_pos; apply pow_le; lra.
    + assert (A : 0 < p ^ Z.to_nat h) by (apply pow_lt; lra). assert (B : 0 < (1 - p) ^ Z.to_nat m) by (apply pow_lt; lra).
      assert (A' : 0 < q ^ Z.to_nat h) by (apply pow_lt; lra). assert (B' : 0 < (1 - q) ^ Z.to_nat m) by (apply pow_lt; lra).
      unfold likelihood. rewrite <- (exp_ln (_ * _)) by (now apply Rmult_lt_0_compat). rewrite <- (exp_ln (q ^ _ * _)) by (now apply Rmult_lt_0_compat).
      enough (L : ln (p ^ Z.to_nat h * (1 - p) ^ Z.to_nat m) <= ln (q ^ Z.to_nat h * (1 - q) ^ Z.to_nat m)).
      { destruct L as [L|L]; [left; now apply exp_increasing|right; now rewrite L]. }
      rewrite !ln_mult by assumption. rewrite !ln_pow by lra. rewrite <- !IZR_nat by lia.
      pose proof (ln_le_sub (p / q) ltac:(apply Rdiv_lt_0_compat; lra)) as L1. pose proof (ln_le_sub ((1 - p) / (1 - q)) ltac:(apply Rdiv_lt_0_compat; lra)) as L2.
      unfold Rdiv in L1, L2. rewrite ln_mult, ln_Rinv in L1 by (try lra; apply Rinv_0_lt_compat; lra). rewrite ln_mult, ln_Rinv in L2 by (try lra; apply Rinv_0_lt_compat; lra).
      assert (I0 : 0 <= IZR h) by (apply IZR_le; lia). assert (I1 : 0 <= IZR m) by (apply IZR_le; lia).
      apply Rmult_le_compat_l with (r := IZR h) in L1; [|exact I0]. apply Rmult_le_compat_l with (r := IZR m) in L2; [|exact I1].
      assert (K : IZR h * (p * / q - 1) + IZR m * ((1 - p) * / (1 - q) - 1) <= 0).
      { replace (IZR h * (p * / q - 1) + IZR m * ((1 - p) * / (1 - q) - 1)) with (- ((q - p) * ((IZR h - q * (IZR h + IZR m)) * (/ q * / (1 - q))))) by (field; lra).
        rewrite plus_IZR in Hq. enough (0 <= (q - p) * ((IZR h - q * (IZR h + IZR m)) * (/ q * / (1 - q)))) by lra.
        apply Rmult_le_pos; [lra|]. apply Rmult_le_pos; [lra|]. apply Rmult_le_pos; left; apply Rinv_0_lt_compat; lra. }
      lra.
Qed.
Lemma likelihood_swap h m p : likelihood h m p = likelihood m h (1 - p).
Proof. unfold likelihood. replace (1 - (1 - p)) with p by ring. ring. Qed.
Lemma likelihood_down h m p q : (0 <= h)%Z -> (0 <= m)%Z -> (0 < h + m)%Z -> p <= q <= 1 -> IZR h <= p * IZR (h + m) -> likelihood h m q <= likelihood h m p.
Proof.
  intros Hh Hm Hn Hpq Hp. rewrite !(likelihood_swap h m). apply likelihood_up; [lia|lia|lia|lra|]. rewrite Z.add_comm. rewrite plus_IZR in *. lra.
Qed.
Lemma eln_mono x y : x <= y -> ele (eln x) (eln y).
Proof. intros H. unfold eln. destruct (Rlt_dec 0 x), (Rlt_dec 0 y); simpl; auto; [apply ln_mono; lra|lra]. Qed.
Lemma eadd_mono a b c : ele a b -> ele (eadd a c) (eadd b c).
Proof. destruct a, b; simpl; auto; lra. Qed.
Lemma eneg_mono a b : ele a b -> ele (eneg b) (eneg a).
Proof. destruct a, b; simpl; auto; lra. Qed.
Lemma dist_eneg a b : dist (eneg a) (eneg b) = dist a b.
Proof. destruct a, b; simpl; try reflexivity. f_equal. rabs; lra. Qed.
Lemma dist_ratio x y c r : 0 < y -> dist (eadd (eln x) c) (Fin (ln y + c + r)) = dist (eln (x / y)) (Fin r).
Proof.
  intros Hy. unfold eln. destruct (Rlt_dec 0 x) as [H|H].
  - destruct (Rlt_dec 0 (x / y)) as [H1|H1]; [|destruct H1; now apply Rdiv_lt_0_compat]. cbn [eadd dist]. f_equal. f_equal.
    unfold Rdiv. rewrite ln_mult, ln_Rinv; try assumption; [ring|now apply Rinv_0_lt_compat].
  - destruct (Rlt_dec 0 (x / y)) as [H1|H1]; [|reflexivity]. destruct H. apply Rmult_lt_reg_r with (/ y); [now apply Rinv_0_lt_compat|]. now rewrite Rmult_0_l.
Qed.

Theorem C50_bounds : forall num_shots num_correct ratio, (0 < num_shots)%Z -> (0 <= num_correct <= num_shots)%Z -> 0 < ratio ->
  let errors := (num_shots - num_correct)%Z in
  let estimate := IZR errors / IZR num_shots in
  let grid k := IZR k / (100 * IZR num_shots) in
  (* how far, in log likelihood, a rate is from having the requested likelihood ratio *)
  let miss p := dist (eln (likelihood errors num_correct p / likelihood errors num_correct estimate)) (Fin (ln ratio)) in
  exists kl kh, likely_error_rate_bounds num_shots num_correct ratio = Ok (grid kl, grid kh) /\
    (0 <= kl <= 100 * errors)%Z /\ (100 * errors <= kh <= 100 * num_shots)%Z /\
    0 <= grid kl <= estimate /\ estimate <= grid kh <= 1 /\
    (forall k, (0 <= k <= 100 * errors)%Z -> ele (miss (grid kl)) (miss (grid k))) /\
    (forall k, (100 * errors <= k <= 100 * num_shots)%Z -> ele (miss (grid kh)) (miss (grid k))).
Proof.
  intros n c ratio Hn Hc Hr e est grid miss. unfold likely_error_rate_bounds. fold e. cbv zeta.
  destruct (Z.eqb_spec n 0); [lia|]. destruct (Rle_dec ratio 0); [lra|].
  assert (N : 0 < IZR n) by (now apply IZR_lt). assert (He : (0 <= e <= n)%Z) by (unfold e; lia).
  assert (Hest : 0 <= est <= 1).
  { unfold est. split; [apply Rle_mult_inv_pos; [apply IZR_le; lia|exact N]|]. apply Rmult_le_reg_r with (IZR n); [exact N|]. unfold Rdiv. rewrite Rmult_assoc, Rinv_l, Rmult_1_r, Rmult_1_l by lra. apply IZR_le. lia. }
  assert (Hen : est * IZR n = IZR e) by (unfold est; field; lra).
  assert (Nc : (n - e = c)%Z) by (unfold e; lia).
  fold est. rewrite (log_binomial_likelihood n e est) by (assumption || lia). rewrite Nc.
  assert (Lpos : 0 < likelihood e c est).
  { destruct (Req_EM_T est 0) as [E0|E0]; [|destruct (Req_EM_T est 1) as [E1|E1]].
    - assert (e = 0)%Z as ->. { rewrite E0, Rmult_0_l in Hen. apply eq_IZR. lra. } unfold likelihood. rewrite E0, Rminus_0_r, pow1. simpl. lra.
    - assert (e = n)%Z as E. { rewrite E1, Rmult_1_l in Hen. apply eq_IZR. lra. } assert (c = 0)%Z as -> by (unfold e in E; lia). unfold likelihood. rewrite E1, pow1. simpl. lra.
    - apply Rmult_lt_0_compat; apply pow_lt; lra. }
  rewrite eln_pos by exact Lpos. cbn [eadd]. set (tgt := ln (likelihood e c est) + log_choose n e + ln ratio).
  assert (Hg : forall k, (0 <= k <= 100 * n)%Z -> 0 <= grid k <= 1).
  { intros k Hk. unfold grid. assert (0 < 100 * IZR n) by lra. split; [apply Rle_mult_inv_pos; [apply IZR_le; lia|lra]|].
    apply Rmult_le_reg_r with (100 * IZR n); [lra|]. unfold Rdiv. rewrite Rmult_assoc, Rinv_l, Rmult_1_r, Rmult_1_l by lra. rewrite <- mult_IZR. apply IZR_le. lia. }
  assert (Gm : forall j k, (j <= k)%Z -> grid j <= grid k).
  { intros j k Hjk. unfold grid. apply Rmult_le_compat_r; [left; apply Rinv_0_lt_compat; lra|now apply IZR_le]. }
  assert (Ge : grid (100 * e)%Z = est) by (unfold grid, est; rewrite mult_IZR; field; lra).
  assert (Fg : forall k, (0 <= k <= 100 * n)%Z -> log_binomial (IZR k / IZR (100 * n)) n e = eadd (eln (likelihood e c (grid k))) (log_choose n e)).
  { intros k Hk. replace (IZR k / IZR (100 * n)) with (grid k) by (unfold grid; rewrite mult_IZR; reflexivity). rewrite log_binomial_likelihood; [now rewrite Nc|apply Hg; lia|lia]. }
  assert (Ecn : (e + c = n)%Z) by (unfold e; lia).
  destruct (C46_closest (fun k => log_binomial (IZR k / IZR (100 * n)) n e) 0 (e * 100) (Fin tgt)) as (kl & El & Hkl & Cl); [lia| |].
  { intros x y Hx Hy. rewrite !Fg by lia. apply eadd_mono, eln_mono, likelihood_up; [lia|lia|lia| |].
    - split; [apply Hg; lia|apply Gm; lia].
    - rewrite Ecn, <- Hen. apply Rmult_le_compat_r; [lra|]. rewrite <- Ge. apply Gm. lia. }
  destruct (C46_closest (fun k => eneg (log_binomial (IZR k / IZR (100 * n)) n e)) (e * 100) (n * 100) (Fin (- tgt))) as (kh & Eh & Hkh & Ch); [lia| |].
  { intros x y Hx Hy. rewrite !Fg by lia. apply eneg_mono, eadd_mono, eln_mono, likelihood_down; [lia|lia|lia| |].
    - split; [apply Gm; lia|apply Hg; lia].
    - rewrite Ecn, <- Hen. apply Rmult_le_compat_r; [lra|]. rewrite <- Ge. apply Gm. lia. }
  rewrite El. cbn [bind eneg]. rewrite Eh. cbn [bind]. exists kl, kh.
  split; [f_equal; f_equal; unfold grid; field; lra|]. split; [lia|]. split; [lia|].
  split; [split; [apply Hg; lia|rewrite <- Ge; apply Gm; lia]|]. split; [split; [rewrite <- Ge; apply Gm; lia|apply Hg; lia]|].
  assert (Miss : forall k, (0 <= k <= 100 * n)%Z -> miss (grid k) = dist (log_binomial (IZR k / IZR (100 * n)) n e) (Fin tgt)).
  { intros k Hk. rewrite Fg by lia. unfold tgt. rewrite dist_ratio by exact Lpos. reflexivity. }
  split; intros k Hk; rewrite !Miss by lia.
  - apply Cl. lia.
  - rewrite <- (dist_eneg (log_binomial (IZR kh / _) n e)), <- (dist_eneg (log_binomial (IZR k / _) n e)). apply Ch. lia.
Qed.
Print Assumptions C50_bounds.

(** Refused inputs. *)
Theorem C50_rejected : forall num_shots num_correct ratio,
  likely_error_rate_bounds 0 num_correct ratio = Err ZeroDivisionError /\
  ((num_shots <> 0)%Z -> ratio <= 0 -> likely_error_rate_bounds num_shots num_correct ratio = Err ValueError).
Proof.
  intros n c ratio. split; [reflexivity|]. intros H Hr. unfold likely_error_rate_bounds. destruct (Z.eqb_spec n 0); [contradiction|]. destruct (Rle_dec ratio 0); [reflexivity|lra].
Qed.
Print Assumptions C50_rejected.

(** Three errors in a thousand shots, ratio 1/1000: the hypotheses are met; the upper
    bound is not zero. *)
Example C50_example : exists low high, likely_error_rate_bounds 1000 997 (1 / 1000) = Ok (low, high) /\ low <= 3 / 1000 <= high.
Proof.
  destruct (C50_bounds 1000 997 (1 / 1000)) as (kl & kh & E & _ & _ & H1 & H2 & _); [lia|lia|lra|]. eexists. eexists. split; [exact E|].
  change (1000 - 997)%Z with 3%Z in *. lra.
Qed.
