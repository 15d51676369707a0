(** Stirling's formula with bounds, from the real numbers of the standard library: a fact
    of mathematics used by C47, not part of the model. *)
From Coq Require Import Reals Lra Lia Arith Factorial.
Open Scope R_scope.

Lemma grows f f' a b : a <= b -> (forall c, a <= c <= b -> derivable_pt_lim f c (f' c)) -> (forall c, a <= c <= b -> 0 <= f' c) -> f a <= f b.
Proof.
  intros Hab D P. destruct (Rle_lt_or_eq_dec a b Hab) as [L| ->]; [|lra].
  destruct (MVT_cor2 f f' a b L D) as (c & E & Hc). assert (0 <= f' c * (b - a)) by (apply Rmult_le_pos; [apply P|]; lra). lra.
Qed.

(** ** ln (1 + 1 / n) *)
Definition atanh2 x := ln (1 + x) - ln (1 - x).
Lemma atanh2_lim x : -1 < x < 1 -> derivable_pt_lim atanh2 x (2 / (1 - x * x)).
Proof.
  intros H. unfold atanh2. replace (2 / (1 - x * x)) with (/ (1 + x) * (0 + 1) - / (1 - x) * (0 - 1)) by (field; split; nra).
  apply derivable_pt_lim_minus.
  - apply (derivable_pt_lim_comp (fun x => 1 + x) ln); [|apply derivable_pt_lim_ln; lra]. apply derivable_pt_lim_plus; [apply derivable_pt_lim_const|apply derivable_pt_lim_id].
  - apply (derivable_pt_lim_comp (fun x => 1 - x) ln); [|apply derivable_pt_lim_ln; lra]. apply derivable_pt_lim_minus; [apply derivable_pt_lim_const|apply derivable_pt_lim_id].
Qed.
Lemma atanh2_low x : 0 <= x < 1 -> 2 * x <= atanh2 x.
Proof.
  intros H. assert (G : atanh2 0 - 2 * 0 <= atanh2 x - 2 * x).
  - apply (grows (fun x => atanh2 x - 2 * x) (fun x => 2 / (1 - x * x) - 2 * 1) 0 x); [lra| |].
    + intros c Hc. apply derivable_pt_lim_minus; [apply atanh2_lim; lra|]. apply (derivable_pt_lim_scal id 2 c 1). apply derivable_pt_lim_id.
    + intros c Hc. replace (2 / (1 - c * c) - 2 * 1) with (2 * (c * c) / (1 - c * c)) by (field; nra). apply Rle_mult_inv_pos; nra.
  - unfold atanh2 in G at 1. rewrite Rplus_0_r, Rminus_0_r, ln_1 in G. lra.
Qed.
Definition bound2 x := 2 * x + 2 / 3 * (x * x * x / (1 - x * x)).
Lemma bound2_lim x : -1 < x < 1 -> derivable_pt_lim bound2 x (2 / (1 - x * x) + 4 / 3 * ((x * x) * (x * x) / ((1 - x * x) * (1 - x * x)))).
Proof.
  intros H. unfold bound2.
  replace (2 / (1 - x * x) + 4 / 3 * ((x * x) * (x * x) / ((1 - x * x) * (1 - x * x)))) with
    (2 * 1 + 2 / 3 * ((((1 * x + x * 1) * x + (x * x) * 1) * (1 - x * x) - (0 - (1 * x + x * 1)) * (x * x * x)) / Rsqr (1 - x * x))) by (unfold Rsqr; field; nra).
  assert (Di : derivable_pt_lim (fun y => y) x 1) by apply derivable_pt_lim_id.
  assert (D2 : derivable_pt_lim (fun y => y * y) x (1 * x + x * 1)) by (apply (derivable_pt_lim_mult (fun y => y) (fun y => y)); assumption).
  apply (derivable_pt_lim_plus (fun y => 2 * y) (fun y => 2 / 3 * (y * y * y / (1 - y * y)))).
  - apply (derivable_pt_lim_scal (fun y => y)). exact Di.
  - apply (derivable_pt_lim_scal (fun y => y * y * y / (1 - y * y))).
    apply (derivable_pt_lim_div (fun y => y * y * y) (fun y => 1 - y * y)); [| |nra].
    + apply (derivable_pt_lim_mult (fun y => y * y) (fun y => y)); assumption.
    + apply (derivable_pt_lim_minus (fun _ => 1) (fun y => y * y)); [apply derivable_pt_lim_const|exact D2].
Qed.
Lemma atanh2_high x : 0 <= x < 1 -> atanh2 x <= bound2 x.
Proof.
  intros H. assert (G : bound2 0 - atanh2 0 <= bound2 x - atanh2 x).
  - apply (grows (fun x => bound2 x - atanh2 x) (fun x => (2 / (1 - x * x) + 4 / 3 * ((x * x) * (x * x) / ((1 - x * x) * (1 - x * x)))) - 2 / (1 - x * x)) 0 x); [lra| |].
    + intros c Hc. apply derivable_pt_lim_minus; [apply bound2_lim; lra|apply atanh2_lim; lra].
    + intros c Hc. match goal with |- 0 <= ?a + ?b - ?a => replace (a + b - a) with b by ring end. apply Rmult_le_pos; [lra|]. assert (0 < 1 - c * c) by nra. apply Rle_mult_inv_pos; nra.
  - unfold atanh2 in G at 1. rewrite Rplus_0_r, Rminus_0_r, ln_1 in G. unfold bound2 in G at 1. replace (2 * 0 + 2 / 3 * (0 * 0 * 0 / (1 - 0 * 0)) - (0 - 0)) with 0 in G by field. lra.
Qed.
Lemma ln_step n : (1 <= n)%nat -> let x := / (2 * INR n + 1) in ln (INR (S n)) - ln (INR n) = atanh2 x /\ 0 < x < 1.
Proof.
  intros Hn x. assert (Hr : 1 <= INR n) by (change 1 with (INR 1); now apply le_INR).
  assert (Hx : 0 < x < 1) by (unfold x; split; [apply Rinv_0_lt_compat; lra|rewrite <- Rinv_1; apply Rinv_lt_contravar; lra]).
  split; [|exact Hx]. unfold atanh2. replace (1 + x) with (x * (2 * INR (S n))) by (unfold x; rewrite S_INR; field; lra). replace (1 - x) with (x * (2 * INR n)) by (unfold x; field; lra).
  rewrite S_INR. rewrite !ln_mult by lra. lra.
Qed.

(** ** The error term *)
Definition stir (n : nat) : R := ln (INR (fact n)) - (INR n + 1 / 2) * ln (INR n) + INR n.
Lemma stir_step n : (1 <= n)%nat -> 0 <= stir n - stir (S n) <= / (12 * INR n) - / (12 * INR (S n)).
Proof.
  intros Hn. assert (Hr : 1 <= INR n) by (change 1 with (INR 1); now apply le_INR).
  destruct (ln_step n Hn) as [E Hx]. set (x := / (2 * INR n + 1)) in *. pose proof (atanh2_low x ltac:(lra)) as L. pose proof (atanh2_high x ltac:(lra)) as H.
  assert (Ed : stir n - stir (S n) = (INR n + 1 / 2) * atanh2 x - 1).
  { unfold stir. rewrite fact_simpl, mult_INR. rewrite ln_mult; [|rewrite S_INR; lra|apply INR_fact_lt_0]. rewrite <- E. rewrite S_INR at 3 4. ring_simplify. rewrite S_INR. lra. }
  rewrite Ed. assert (Hi : (INR n + 1 / 2) * (2 * x) = 1) by (unfold x; field; lra). split.
  - assert ((INR n + 1 / 2) * (2 * x) <= (INR n + 1 / 2) * atanh2 x) by (apply Rmult_le_compat_l; lra). lra.
  - apply (Rmult_le_compat_l (INR n + 1 / 2)) in H; [|lra]. unfold bound2 in H. rewrite Rmult_plus_distr_l, Hi in H.
    assert (Eb : (INR n + 1 / 2) * (2 / 3 * (x * x * x / (1 - x * x))) = / (12 * INR n) - / (12 * INR (S n))); [|lra].
    rewrite S_INR. unfold x. field. repeat split; nra.
Qed.
Lemma stir_range n k : (1 <= n)%nat -> 0 <= stir n - stir (n + k) <= / (12 * INR n) - / (12 * INR (n + k)).
Proof.
  intros Hn. induction k as [|k IH]; [rewrite Nat.add_0_r; lra|]. rewrite Nat.add_succ_r. pose proof (stir_step (n + k) ltac:(lia)). lra.
Qed.

(** ** Wallis: F n is the integral of sin^n from 0 *)
Fixpoint F (n : nat) (x : R) : R :=
  match n with
  | 0 => x
  | S m => match m with
           | 0 => 1 - cos x
           | S k => (INR m * F k x - cos x * sin x ^ m) / INR n
           end
  end.
Lemma F_SS k x : F (S (S k)) x = (INR (S k) * F k x - cos x * sin x ^ S k) / INR (S (S k)).
Proof. reflexivity. Qed.
Lemma sin_pow_lim n x : derivable_pt_lim (fun x => sin x ^ n) x (INR n * sin x ^ pred n * cos x).
Proof. apply (derivable_pt_lim_comp sin (fun y => y ^ n)); [apply derivable_pt_lim_sin|apply derivable_pt_lim_pow]. Qed.
Lemma F_lim n x : derivable_pt_lim (F n) x (sin x ^ n) /\ derivable_pt_lim (F (S n)) x (sin x ^ S n).
Proof.
  induction n as [|k [I1 I2]].
  - split; [apply derivable_pt_lim_id|]. change (F 1) with (fun x => 1 - cos x). replace (sin x ^ 1) with (0 - - sin x) by ring.
    apply (derivable_pt_lim_minus (fun _ => 1) cos); [apply derivable_pt_lim_const|apply derivable_pt_lim_cos].
  - split; [exact I2|]. assert (HN : INR (S (S k)) <> 0) by (apply not_0_INR; lia).
    change (F (S (S k))) with (fun x => (INR (S k) * F k x - cos x * sin x ^ S k) / INR (S (S k))).
    replace (sin x ^ S (S k)) with (/ INR (S (S k)) * (INR (S k) * sin x ^ k - (- sin x * sin x ^ S k + cos x * (INR (S k) * sin x ^ pred (S k) * cos x)))).
    + assert (Ext : forall y, / INR (S (S k)) * (INR (S k) * F k y - cos y * sin y ^ S k) = (INR (S k) * F k y - cos y * sin y ^ S k) / INR (S (S k))) by (intros y; unfold Rdiv; ring).
      assert (Dx : derivable_pt_lim (fun y => / INR (S (S k)) * (INR (S k) * F k y - cos y * sin y ^ S k)) x (/ INR (S (S k)) * (INR (S k) * sin x ^ k - (- sin x * sin x ^ S k + cos x * (INR (S k) * sin x ^ pred (S k) * cos x))))).
      * apply (derivable_pt_lim_scal (fun y => INR (S k) * F k y - cos y * sin y ^ S k)). apply (derivable_pt_lim_minus (fun y => INR (S k) * F k y) (fun y => cos y * sin y ^ S k)).
        -- apply (derivable_pt_lim_scal (F k)). exact I1.
        -- apply (derivable_pt_lim_mult cos (fun y => sin y ^ S k)); [apply derivable_pt_lim_cos|apply sin_pow_lim].
      * intros eps He. destruct (Dx eps He) as (delta & Hd). exists delta. intros h H1 H2. rewrite <- !Ext. now apply Hd.
    + change (pred (S k)) with k. assert (Hc : cos x * cos x = 1 - sin x * sin x) by (pose proof (sin2_cos2 x) as S; unfold Rsqr in S; lra).
      replace (cos x * (INR (S k) * sin x ^ k * cos x)) with (INR (S k) * sin x ^ k * (cos x * cos x)) by ring. rewrite Hc. cbn [pow]. rewrite (S_INR (S k)) in *. field. exact HN.
Qed.
Definition W n := F n (PI / 2).
Lemma W_SS k : W (S (S k)) = INR (S k) * W k / INR (S (S k)).
Proof. unfold W. rewrite F_SS, cos_PI2. unfold Rdiv. ring. Qed.
Lemma F_0 n : F n 0 = 0 /\ F (S n) 0 = 0.
Proof.
  induction n as [|k [I1 I2]]; [cbn [F]; rewrite cos_0; split; lra|]. split; [exact I2|]. rewrite F_SS, I1, sin_0. cbn [pow]. unfold Rdiv. ring.
Qed.
Lemma sin_unit c : 0 <= c <= PI / 2 -> 0 <= sin c <= 1.
Proof. intros H. pose proof PI_RGT_0. split; [apply sin_ge_0; lra|]. apply SIN_bound. Qed.
Lemma W_down n : W (S n) <= W n.
Proof.
  pose proof PI_RGT_0 as HP.
  assert (G : F n 0 - F (S n) 0 <= F n (PI / 2) - F (S n) (PI / 2)).
  - apply (grows (fun x => F n x - F (S n) x) (fun x => sin x ^ n - sin x ^ S n)); [lra| |].
    + intros c _. apply derivable_pt_lim_minus; apply F_lim.
    + intros c Hc. pose proof (sin_unit c Hc) as Hs. cbn [pow]. pose proof (pow_le (sin c) n (proj1 Hs)). nra.
  - destruct (F_0 n) as [E1 E2]. rewrite E1, E2 in G. unfold W. lra.
Qed.
Lemma W_1 : W 0 = PI / 2 /\ W 1 = 1.
Proof. unfold W. cbn [F]. rewrite cos_PI2. lra. Qed.
Lemma W_pos n : 0 < W n /\ 0 < W (S n).
Proof.
  induction n as [|k [I1 I2]]; [destruct W_1 as [-> ->]; pose proof PI_RGT_0; lra|]. split; [exact I2|]. rewrite W_SS. apply Rdiv_lt_0_compat; [apply Rmult_lt_0_compat; [apply lt_0_INR; lia|exact I1]|apply lt_0_INR; lia].
Qed.
Lemma W_prod n : INR (S n) * (W (S n) * W n) = PI / 2.
Proof.
  induction n as [|k IH]; [destruct W_1 as [-> ->]; simpl; lra|]. rewrite W_SS. rewrite <- IH. field. apply not_0_INR. lia.
Qed.
Lemma W_even k : W (2 * k) = PI / 2 * (INR (fact (2 * k)) / (4 ^ k * (INR (fact k) * INR (fact k)))).
Proof.
  induction k as [|k IH]; [change (2 * 0)%nat with 0%nat; rewrite (proj1 W_1); cbn; field|].
  replace (2 * S k)%nat with (S (S (2 * k))) by lia. rewrite W_SS, IH, !fact_simpl, !mult_INR. cbn [pow]. rewrite (S_INR (S (2 * k))), !(S_INR (2 * k)), mult_INR, (S_INR k). change (INR 2) with 2.
  pose proof (pos_INR k). field. pose proof (INR_fact_neq_0 k). pose proof (pow_nonzero 4 k ltac:(lra)). repeat split; try assumption; lra.
Qed.

Definition L := ln (2 * PI) / 2.
Lemma ln_le' a b : 0 < a -> a <= b -> ln a <= ln b.
Proof. intros Ha [H| ->]; [left; now apply ln_increasing|lra]. Qed.
Lemma ln_pow' a n : 0 < a -> ln (a ^ n) = INR n * ln a.
Proof. intros Ha. induction n as [|n IH]; [simpl; rewrite ln_1; lra|]. rewrite S_INR. cbn [pow]. rewrite ln_mult by (try apply pow_lt; assumption). rewrite IH. lra. Qed.
Lemma ln_le_minus y : 0 < y -> ln y <= y - 1.
Proof. intros H. pose proof (exp_ineq1_le (ln y)) as E. rewrite exp_ln in E by exact H. lra. Qed.
Lemma wallis k : (1 <= k)%nat -> L <= 2 * stir k - stir (2 * k) <= L + / (4 * INR k).
Proof.
  intros Hk. assert (Hr : 1 <= INR k) by (change 1 with (INR 1); now apply le_INR). pose proof PI_RGT_0 as HP.
  destruct k as [|j]; [lia|]. set (k := S j) in *. set (w := W (2 * k)).
  assert (Hw : 0 < w) by apply (W_pos (2 * k)).
  pose proof (pow_lt 4 k ltac:(lra)) as H4. pose proof (INR_fact_lt_0 k) as Hf. pose proof (INR_fact_lt_0 (2 * k)) as Hf2.
  assert (E : ln w = ln PI - ln 2 + (ln (INR (fact (2 * k))) - (INR k * ln 4 + 2 * ln (INR (fact k))))).
  { unfold w. rewrite W_even. rewrite ln_mult; [|lra|apply Rdiv_lt_0_compat; [assumption|apply Rmult_lt_0_compat; [assumption|nra]]].
    unfold Rdiv. rewrite (ln_mult PI); [|lra|lra]. rewrite ln_Rinv by lra. rewrite ln_mult; [|assumption|apply Rinv_0_lt_compat, Rmult_lt_0_compat; [assumption|nra]].
    rewrite ln_Rinv by (apply Rmult_lt_0_compat; [assumption|nra]). rewrite ln_mult; [|assumption|nra]. rewrite ln_pow' by lra. rewrite (ln_mult (INR (fact k))) by assumption. lra. }
  assert (E4 : ln 4 = 2 * ln 2) by (replace 4 with (2 * 2) by lra; rewrite ln_mult; lra).
  assert (E2k : INR (2 * k) = 2 * INR k) by (rewrite mult_INR; reflexivity).
  assert (Ed : 2 * stir k - stir (2 * k) = ln PI - ln w - 1 / 2 * ln 2 - 1 / 2 * ln (INR k)).
  { unfold stir. rewrite E, E2k, E4. rewrite (ln_mult 2 (INR k)) by lra. ring_simplify. lra. }
  assert (EL : L = 1 / 2 * ln 2 + 1 / 2 * ln PI) by (unfold L; rewrite ln_mult; lra).
  (* w * w between the neighbouring products *)
  pose proof (W_prod (2 * k)) as P1. pose proof (W_down (2 * k)) as D1. fold w in P1, D1. rewrite S_INR, E2k in P1.
  assert (Hlow : PI / (2 * (2 * INR k + 1)) <= w * w).
  { assert (W (S (2 * k)) * w <= w * w) by (apply Rmult_le_compat_r; lra). replace (PI / (2 * (2 * INR k + 1))) with (W (S (2 * k)) * w); [assumption|]. apply (Rmult_eq_reg_l (2 * INR k + 1)); [|lra]. rewrite P1. field. lra. }
  assert (Hhigh : w * w <= PI / (4 * INR k)).
  { pose proof (W_prod (2 * j + 1)) as P2. pose proof (W_down (2 * j + 1)) as D2. replace (S (2 * j + 1)) with (2 * k)%nat in P2, D2 by (unfold k; lia). fold w in P2, D2. rewrite E2k in P2.
    assert (w * w <= w * W (2 * j + 1)) by (apply Rmult_le_compat_l; lra). replace (PI / (4 * INR k)) with (w * W (2 * j + 1)); [assumption|]. apply (Rmult_eq_reg_l (2 * INR k)); [|lra]. rewrite P2. field. lra. }
  assert (Eww : ln (w * w) = 2 * ln w) by (rewrite ln_mult by assumption; lra).
  apply ln_le' in Hlow; [|apply Rdiv_lt_0_compat; lra]. apply ln_le' in Hhigh; [|nra]. rewrite Eww in *.
  unfold Rdiv in Hlow, Hhigh. rewrite ln_mult in Hlow by (try apply Rinv_0_lt_compat; lra). rewrite ln_mult in Hhigh by (try apply Rinv_0_lt_compat; lra). rewrite ln_Rinv in Hlow, Hhigh by lra.
  rewrite ln_mult in Hlow, Hhigh by lra.
  assert (Hl : ln (2 * INR k + 1) <= ln 2 + ln (INR k) + / (2 * INR k)).
  { replace (2 * INR k + 1) with (2 * INR k * (1 + / (2 * INR k))) by (field; lra). assert (0 < / (2 * INR k)) by (apply Rinv_0_lt_compat; lra). rewrite !ln_mult by lra. pose proof (ln_le_minus (1 + / (2 * INR k)) ltac:(lra)). lra. }
  rewrite Ed, EL. rewrite E4 in Hhigh. assert (/ (4 * INR k) = 1 / 2 * / (2 * INR k)) by (field; lra). lra.
Qed.

Lemma squeeze a b (n : nat) c : 0 <= c -> (forall k, (n <= k)%nat -> a <= b + c * / INR k) -> a <= b.
Proof.
  intros Hc H. destruct (Rle_dec a b) as [K|K]; [exact K|]. apply Rnot_le_lt in K. set (e := a - b) in *. assert (He : 0 < e) by (unfold e; lra).
  assert (exists m, c / e < INR m) as [m Hm] by (exists (Z.to_nat (up (c / e))); rewrite INR_IZR_INZ; destruct (archimed (c / e)) as [A _]; apply (Rlt_le_trans _ _ _ A); apply IZR_le; lia). set (k := S (Nat.max n m)). specialize (H k ltac:(unfold k; lia)).
  assert (Hk : INR m <= INR k) by (apply le_INR; unfold k; lia). assert (0 < INR k) by (apply lt_0_INR; unfold k; lia).
  assert (c * / INR k < e); [|unfold e in *; lra]. apply (Rmult_lt_reg_r (INR k)); [assumption|]. rewrite Rmult_assoc, Rinv_l, Rmult_1_r by lra.
  apply (Rmult_lt_reg_r (/ e)); [now apply Rinv_0_lt_compat|]. replace (e * INR k * / e) with (INR k) by (field; lra). unfold Rdiv in Hm. lra.
Qed.
Theorem stirling n : (1 <= n)%nat -> L <= stir n <= L + / (12 * INR n).
Proof.
  intros Hn. split.
  - apply (squeeze _ _ n (/ 24)); [lra|]. intros k Hk. pose proof (wallis k ltac:(lia)) as W. replace (2 * k)%nat with (k + k)%nat in W by lia. pose proof (stir_range k k ltac:(lia)) as R.
    pose proof (stir_range n (k - n) Hn) as Q. replace (n + (k - n))%nat with k in Q by lia. rewrite plus_INR in R.
    assert (1 <= INR k) by (change 1 with (INR 1); apply le_INR; lia). assert (/ (12 * INR k) - / (12 * (INR k + INR k)) = / 24 * / INR k) by (field; lra). lra.
  - apply (squeeze _ _ n (/ 4)); [lra|]. intros k Hk. pose proof (wallis k ltac:(lia)) as W. replace (2 * k)%nat with (k + k)%nat in W by lia. pose proof (stir_range k k ltac:(lia)) as R.
    pose proof (stir_range n (k - n) Hn) as Q. replace (n + (k - n))%nat with k in Q by lia.
    assert (1 <= INR k) by (change 1 with (INR 1); apply le_INR; lia). assert (/ (4 * INR k) = / 4 * / INR k) by (field; lra). assert (0 < / (12 * INR k)) by (apply Rinv_0_lt_compat; lra). lra.
Qed.
