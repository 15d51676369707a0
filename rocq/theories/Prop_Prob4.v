(** C49: how far log_factorial and log_binomial are from the true logarithms, for any
    number of samples. *)
From Coq Require Import Reals Lra.
From Verif Require Import Prelude Collect Prob Prop_Prob Prop_Prob2 Stirling.
Open Scope R_scope.

(** log_factorial is exact below 20, and from there on too small by at most 1 / (12 n). *)
Theorem C49_log_factorial : forall n, (0 <= n)%Z ->
  ((n < 20)%Z -> log_factorial n = ln (INR (fact (Z.to_nat n)))) /\
  ((20 <= n)%Z -> ln (INR (fact (Z.to_nat n))) - 1 / (12 * IZR n) <= log_factorial n <= ln (INR (fact (Z.to_nat n)))).
Proof.
  intros n Hn. split; [intros H; apply log_factorial_exact; lia|]. intros H. unfold log_factorial. destruct (Z.ltb_spec n 20); [lia|].
  pose proof (stirling (Z.to_nat n) ltac:(lia)) as S. unfold stir, L in S. rewrite <- IZR_nat in S by lia.
  assert (20 <= IZR n) by (now apply IZR_le). unfold Rdiv at 1. rewrite Rmult_1_l. lra.
Qed.
Print Assumptions C49_log_factorial.

(** For any number of samples the result is within 1/120 of the logarithm of the true
    probability, and minus infinity when that is zero. *)
Theorem C49_log_binomial_any : forall n hits p, 0 <= p <= 1 -> (0 <= hits <= n)%Z ->
  let truth := C (Z.to_nat n) (Z.to_nat hits) * p ^ Z.to_nat hits * (1 - p) ^ Z.to_nat (n - hits) in
  (truth = 0 -> log_binomial p n hits = NInf) /\
  (truth <> 0 -> 0 < truth /\ exists v, log_binomial p n hits = Fin v /\ -1 / 240 <= v - ln truth <= 1 / 120).
Proof.
  intros n h p Hp Hh. cbv zeta. rewrite log_binomial_likelihood by assumption. unfold log_choose, likelihood.
  assert (LF : forall m, (0 <= m)%Z -> exists e, log_factorial m = ln (INR (fact (Z.to_nat m))) - e /\ 0 <= e <= 1 / 240).
  { intros m Hm. destruct (C49_log_factorial m Hm) as [A B]. destruct (Z.lt_ge_cases m 20) as [K|K].
    - exists 0. split; [rewrite A by exact K; lra|lra].
    - specialize (B K). exists (ln (INR (fact (Z.to_nat m))) - log_factorial m). split; [lra|]. assert (20 <= IZR m) by (now apply IZR_le).
      assert (1 / (12 * IZR m) <= 1 / 240); [|lra]. unfold Rdiv. rewrite !Rmult_1_l. apply Rinv_le_contravar; lra. }
  destruct (LF n ltac:(lia)) as (e1 & -> & B1). destruct (LF (n - h)%Z ltac:(lia)) as (e2 & -> & B2). destruct (LF h ltac:(lia)) as (e3 & -> & B3). clear LF.
  replace (Z.to_nat (n - h)) with (Z.to_nat n - Z.to_nat h)%nat by lia.
  pose proof (INR_fact_lt_0 (Z.to_nat n)) as F1. pose proof (INR_fact_lt_0 (Z.to_nat h)) as F2. pose proof (INR_fact_lt_0 (Z.to_nat n - Z.to_nat h)) as F3.
  unfold C. set (fn := INR (fact (Z.to_nat n))) in *. set (fh := INR (fact (Z.to_nat h))) in *. set (fm := INR (fact (Z.to_nat n - Z.to_nat h))) in *.
  rewrite Rmult_assoc. set (Lk := p ^ Z.to_nat h * (1 - p) ^ (Z.to_nat n - Z.to_nat h)).
  assert (HC : 0 < fn / (fh * fm)) by (apply Rdiv_lt_0_compat; [exact F1|now apply Rmult_lt_0_compat]).
  assert (HL : 0 <= Lk) by (apply Rmult_le_pos; apply pow_le; lra).
  unfold eln. destruct (Rlt_dec 0 Lk) as [Hk|Hk].
  - assert (0 < fn / (fh * fm) * Lk) by (now apply Rmult_lt_0_compat). split; [lra|]. intros _. split; [assumption|]. eexists. cbn [eadd]. split; [reflexivity|].
    assert (Q : ln (fn / (fh * fm)) = ln fn - (ln fh + ln fm)).
    { unfold Rdiv. rewrite ln_mult, ln_Rinv, ln_mult; try assumption; [lra|now apply Rmult_lt_0_compat|apply Rinv_0_lt_compat; now apply Rmult_lt_0_compat]. }
    rewrite ln_mult, Q by assumption. lra.
  - assert (Lk = 0) as -> by lra. split; [reflexivity|]. intros K. destruct K. ring.
Qed.
Print Assumptions C49_log_binomial_any.
(** A hundred samples, 80% hits. *)
Example C49_log_binomial_any_example : let truth := C 100 80 * (4 / 5) ^ 80 * (1 - 4 / 5) ^ 20 in
  exists v, log_binomial (4 / 5) 100 80 = Fin v /\ -1 / 240 <= v - ln truth <= 1 / 120.
Proof.
  destruct (C49_log_binomial_any 100 80 (4 / 5) ltac:(lra) ltac:(lia)) as [_ H]. cbv zeta in *.
  change (Z.to_nat 100) with 100%nat in H. change (Z.to_nat 80) with 80%nat in H. change (Z.to_nat (100 - 80)) with 20%nat in H.
  apply H. apply Rgt_not_eq, Rlt_gt. apply Rmult_lt_0_compat; [apply Rmult_lt_0_compat|]; [|apply pow_lt; lra|apply pow_lt; lra].
  unfold C. apply Rdiv_lt_0_compat; [apply INR_fact_lt_0|]. apply Rmult_lt_0_compat; apply INR_fact_lt_0.
Qed.
