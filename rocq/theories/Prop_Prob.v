(** Properties of src/probability_util.py, per-piece error rates (src/plotting.py) and
    likelihood bounds (src/collect_data.py): C46-C50. *)
From Coq Require Import Reals Lra.
From Verif Require Import Prelude Collect Prob.
Open Scope R_scope.

(** ** C46: binary_search *)
(** Specification: order and distance on the extended line. *)
Definition ele (a b : ext) : Prop :=
  match a, b with NInf, _ => True | _, PInf => True | Fin x, Fin y => x <= y | _, _ => False end.
Definition dist (a b : ext) : ext :=
  match a, b with
  | Fin x, Fin y => Fin (Rabs (x - y))
  | NInf, NInf => Fin 0 | PInf, PInf => Fin 0
  | _, _ => PInf
  end.

Lemma eltb_ele a b : eltb a b = false <-> ele b a.
Proof. destruct a, b; simpl; try tauto; try (split; [discriminate|tauto]); try (split; reflexivity || tauto). destruct (Rlt_dec _ _); split; try discriminate; try lra; reflexivity. Qed.
Lemma eltb_elt a b : eltb a b = true <-> ~ ele b a.
Proof. rewrite <- eltb_ele. destruct (eltb a b); split; congruence. Qed.
Lemma ele_refl a : ele a a.
Proof. destruct a; simpl; auto with real. Qed.
Lemma ele_trans a b c : ele a b -> ele b c -> ele a c.
Proof. destruct a, b, c; simpl; try tauto. lra. Qed.
Lemma ele_total a b : ele a b \/ ele b a.
Proof. destruct a, b; simpl; auto. destruct (Rle_dec r r0); [auto|right; lra]. Qed.
Ltac rabs := unfold Rabs in *; repeat match goal with |- context [Rcase_abs ?x] => destruct (Rcase_abs x) | H : context [Rcase_abs ?x] |- _ => destruct (Rcase_abs x) end.
Lemma dist_model a t : eabs (if eeqb a t then Fin 0 else esub a t) = dist a t.
Proof.
  destruct a, t; simpl; try reflexivity; rewrite ?Rabs_R0; try reflexivity.
  destruct (Req_EM_T r r0); simpl; [subst; rewrite Rminus_diag_eq by reflexivity; now rewrite Rabs_R0|reflexivity].
Qed.
Lemma dist_below a b t : ele a b -> ele b t -> ele (dist b t) (dist a t).
Proof. destruct a, b, t; simpl; try tauto; try lra. intros. rabs; lra. Qed.
Lemma dist_above a b t : ele t a -> ele a b -> ele (dist a t) (dist b t).
Proof. destruct a, b, t; simpl; try tauto; try lra. intros. rabs; lra. Qed.
Lemma dist_zero a b t : ele a t -> ele t a -> ele (dist a t) (dist b t).
Proof. destruct a, b, t; simpl; try tauto; try lra; intros; rabs; lra. Qed.

Section Search.
  Context (func : Z -> ext) (m M : Z) (target : ext).
  Hypothesis mono : forall x y, (m <= x <= y)%Z -> (y <= M)%Z -> ele (func x) (func y).
  Definition closest (x : Z) : Prop := (m <= x <= M)%Z /\ forall y, (m <= y <= M)%Z -> ele (dist (func x) target) (dist (func y) target).

  Lemma search_closest fuel : forall lo hi, (m <= lo <= hi)%Z -> (hi <= M)%Z -> (hi - lo <= 2 ^ Z.of_nat fuel)%Z ->
    (lo = m \/ ele (func lo) target) -> (hi = M \/ ele target (func hi)) ->
    exists x, search (S fuel) func lo hi target = Ok x /\ closest x.
  Proof.
    induction fuel as [|fuel IH]; intros lo hi Hlo Hhi Hf Al Ah; cbn [search].
    1: change (2 ^ Z.of_nat 0)%Z with 1%Z in Hf; destruct (Z.ltb_spec (lo + 1) hi) as [H|H]; [lia|].
    2: destruct (Z.ltb_spec (lo + 1) hi) as [H|H].
    2:{ assert (Hp : (2 ^ Z.of_nat (S fuel) = 2 * 2 ^ Z.of_nat fuel)%Z) by (rewrite Nat2Z.inj_succ, Z.pow_succ_r; lia).
        set (med := ((lo + hi) / 2)%Z). assert (Hm : (lo < med < hi)%Z /\ (2 * med <= lo + hi < 2 * med + 2)%Z) by (unfold med; dlia).
        clearbody med. cbv zeta. destruct (eltb (func med) target) eqn:E1; [|destruct (eltb target (func med)) eqn:E2].
        - apply IH; [lia|lia|lia| |exact Ah]. right. apply eltb_elt in E1. destruct (ele_total (func med) target); tauto.
        - apply IH; [lia|lia|lia|exact Al|]. right. apply eltb_elt in E2. destruct (ele_total (func med) target); tauto.
        - exists med. split; [reflexivity|]. split; [lia|]. intros y _. apply eltb_ele in E1, E2. now apply dist_zero. }
    all: cbv zeta; rewrite !dist_model; eexists; (split; [reflexivity|]); split; [destruct (eltb _ _); lia|]; intros y Hy;
      assert (Hd : ele (dist (func (if eltb (dist (func hi) target) (dist (func lo) target) then hi else lo)) target) (dist (func lo) target) /\
                   ele (dist (func (if eltb (dist (func hi) target) (dist (func lo) target) then hi else lo)) target) (dist (func hi) target)) by
      (destruct (eltb _ _) eqn:E; [apply eltb_elt in E; split; [destruct (ele_total (dist (func hi) target) (dist (func lo) target)); tauto|apply ele_refl]|
                                   apply eltb_ele in E; split; [apply ele_refl|exact E]]);
      destruct (Z.le_gt_cases y lo) as [Hyl|Hyl];
      [ apply ele_trans with (dist (func lo) target); [apply Hd|]; destruct Al as [->|Al]; [replace y with m by lia; apply ele_refl|];
        apply dist_below; [apply mono; lia|exact Al]
      | apply ele_trans with (dist (func hi) target); [apply Hd|]; destruct Ah as [->|Ah]; [replace y with M by lia; apply ele_refl|];
        apply dist_above; [exact Ah|apply mono; lia] ].
  Qed.
End Search.

Theorem C46_closest : forall func min_x max_x target, (min_x <= max_x)%Z ->
  (forall x y, (min_x <= x <= y)%Z -> (y <= max_x)%Z -> ele (func x) (func y)) ->
  exists x, binary_search func min_x max_x target = Ok x /\ (min_x <= x <= max_x)%Z /\
    forall y, (min_x <= y <= max_x)%Z -> ele (dist (func x) target) (dist (func y) target).
Proof.
  intros func m M t Hle Hmono. unfold binary_search. apply (search_closest func m M t Hmono); [lia|lia| |now left|now left].
  pose proof (Z.pow_gt_lin_r 2 (Z.of_nat (Z.to_nat (M - m)))). lia.
Qed.
Print Assumptions C46_closest.

(** The loop runs at most log2(max_x - min_x) times, rounded up. *)
Theorem C46_steps : forall func min_x max_x target k, (min_x <= max_x)%Z -> (max_x - min_x <= 2 ^ Z.of_nat k)%Z ->
  search (S k) func min_x max_x target = binary_search func min_x max_x target /\ exists x, binary_search func min_x max_x target = Ok x.
Proof.
  intros func m M t.
  assert (T : forall k lo hi, (lo <= hi)%Z -> (hi - lo <= 2 ^ Z.of_nat k)%Z -> exists x, forall j, (k <= j)%nat -> search (S j) func lo hi t = Ok x).
  { induction k as [|k IH]; intros lo hi Hle Hk.
    - change (2 ^ Z.of_nat 0)%Z with 1%Z in Hk. eexists. intros j _. cbn [search]. destruct (Z.ltb_spec (lo + 1) hi) as [H|H]; [lia|]. reflexivity.
    - assert (Hp : (2 ^ Z.of_nat (S k) = 2 * 2 ^ Z.of_nat k)%Z) by (rewrite Nat2Z.inj_succ, Z.pow_succ_r; lia).
      destruct (Z.ltb_spec (lo + 1) hi) as [H|H].
      + set (med := ((lo + hi) / 2)%Z). assert (Hm : (lo < med < hi)%Z /\ (2 * med <= lo + hi < 2 * med + 2)%Z) by (unfold med; dlia).
        destruct (eltb (func med) t) eqn:E1; [|destruct (eltb t (func med)) eqn:E2].
        * destruct (IH med hi) as [x Hx]; [lia|lia|]. exists x. intros [|j] Hj; [lia|]. rewrite <- (Hx j) by lia.
          change (search (S (S j)) func lo hi t) with (if (lo + 1 <? hi)%Z then if eltb (func med) t then search (S j) func med hi t else if eltb t (func med) then search (S j) func lo med t else Ok med else Ok (if eltb (eabs (if eeqb (func hi) t then Fin 0 else esub (func hi) t)) (eabs (if eeqb (func lo) t then Fin 0 else esub (func lo) t)) then hi else lo)).
          rewrite E1. destruct (Z.ltb_spec (lo + 1) hi); [reflexivity|lia].
        * destruct (IH lo med) as [x Hx]; [lia|lia|]. exists x. intros [|j] Hj; [lia|]. rewrite <- (Hx j) by lia.
          change (search (S (S j)) func lo hi t) with (if (lo + 1 <? hi)%Z then if eltb (func med) t then search (S j) func med hi t else if eltb t (func med) then search (S j) func lo med t else Ok med else Ok (if eltb (eabs (if eeqb (func hi) t then Fin 0 else esub (func hi) t)) (eabs (if eeqb (func lo) t then Fin 0 else esub (func lo) t)) then hi else lo)).
          rewrite E1, E2. destruct (Z.ltb_spec (lo + 1) hi); [reflexivity|lia].
        * exists med. intros j Hj. cbn [search]. fold med. cbv zeta. rewrite E1, E2. destruct (Z.ltb_spec (lo + 1) hi); [reflexivity|lia].
      + eexists. intros j _. cbn [search]. destruct (Z.ltb_spec (lo + 1) hi); [lia|]. reflexivity. }
  intros k Hle Hk. destruct (T k m M Hle Hk) as [x Hx]. destruct (T (Z.to_nat (M - m)) m M Hle) as [x' Hx'].
  { pose proof (Z.pow_gt_lin_r 2 (Z.of_nat (Z.to_nat (M - m)))). lia. }
  unfold binary_search. rewrite (Hx' (Z.to_nat (M - m)) (le_n _)), (Hx k (le_n _)). split; [|eauto].
  destruct (Nat.le_ge_cases k (Z.to_nat (M - m))) as [H|H].
  - rewrite <- (Hx _ H), <- (Hx' _ (le_n _)). reflexivity.
  - rewrite <- (Hx' _ H), <- (Hx _ (le_n _)). reflexivity.
Qed.
Print Assumptions C46_steps.

(** the example of the unit tests: squares up to 10^100, target 92 *)
Example C46_example : exists x, binary_search (fun x => Fin (IZR x ^ 2)) 0 (10 ^ 100) (Fin 92) = Ok x /\ x = 10%Z /\
  (forall x y, (0 <= x <= y)%Z -> (y <= 10 ^ 100)%Z -> ele (Fin (IZR x ^ 2)) (Fin (IZR y ^ 2))).
Proof.
  assert (Mono : forall x y, (0 <= x <= y)%Z -> (y <= 10 ^ 100)%Z -> ele (Fin (IZR x ^ 2)) (Fin (IZR y ^ 2))).
  { intros x y H _. simpl. assert (0 <= IZR x <= IZR y) by (split; apply IZR_le; lia). apply Rmult_le_compat; lra. }
  destruct (C46_closest (fun x => Fin (IZR x ^ 2)) 0 (10 ^ 100) (Fin 92)) as (x & E & Hx & Hc); [lia|exact Mono|].
  exists x. split; [exact E|]. split; [|exact Mono]. specialize (Hc 10%Z ltac:(lia)). cbn [ele dist] in Hc.
  destruct (Z.le_gt_cases x 9) as [H|H].
  - assert (0 <= IZR x <= 9) by (split; apply IZR_le; lia). assert (IZR x ^ 2 <= 81) by (simpl; nra). rabs; lra.
  - destruct (Z.le_gt_cases 11 x) as [H2|H2]; [|lia]. assert (11 <= IZR x) by (apply IZR_le; lia). assert (121 <= IZR x ^ 2) by (simpl; nra). rabs; lra.
Qed.

(** ** C47: binary_intercept *)
(** Specification: [x] and [s] are on different sides of [t]. *)
Definition crossed (func : R -> R) (s t x : R) : Prop := t <= func x <-> ~ t <= func s.

Lemma geb_le a b : geb a b = true <-> b <= a.
Proof. unfold geb. destruct (Rle_dec b a); split; auto; discriminate. Qed.
Lemma crossed_geb func s t x : Bool.eqb (geb (func x) t) (geb (func s) t) = false <-> crossed func s t x.
Proof.
  unfold crossed. rewrite <- !geb_le. destruct (geb (func x) t), (geb (func s) t); simpl; split; try discriminate; intuition congruence.
Qed.

Lemma widen_sound func s t fuel : forall step r, widen fuel func s step t = Ok r ->
  crossed func s t (s + r) /\ exists j, r = step * 2 ^ j /\ (j < fuel)%nat /\ forall i, (i < j)%nat -> ~ crossed func s t (s + step * 2 ^ i).
Proof.
  induction fuel as [|fuel IH]; intros step r; cbn [widen]; [discriminate|].
  destruct (Bool.eqb _ _) eqn:E.
  - cbv zeta. destruct (Req_EM_T (step * 2) 0); [discriminate|]. intros H. apply IH in H as (H1 & j & -> & H2 & H3).
    split; [exact H1|]. exists (S j). split; [simpl; ring|]. split; [lia|]. intros [|i] Hi.
    + rewrite <- crossed_geb. simpl. rewrite Rmult_1_r. congruence.
    + replace (step * 2 ^ S i) with (step * 2 * 2 ^ i) by (simpl; ring). apply H3. lia.
  - intros [= <-]. apply crossed_geb in E. split; [exact E|]. exists O. split; [simpl; ring|]. split; [lia|]. intros; lia.
Qed.
Lemma widen_total func s t k : forall step, step <> 0 -> crossed func s t (s + step * 2 ^ k) ->
  exists r, forall fuel, (k < fuel)%nat -> widen fuel func s step t = Ok r.
Proof.
  induction k as [|k IH]; intros step Hs Hc.
  - exists step. intros [|fuel] Hf; [lia|]. cbn [widen]. simpl in Hc. rewrite Rmult_1_r in Hc. apply crossed_geb in Hc. now rewrite Hc.
  - destruct (Bool.eqb (geb (func (s + step)) t) (geb (func s) t)) eqn:E.
    + destruct (IH (step * 2)) as [r Hr]; [lra|replace (step * 2 * 2 ^ k) with (step * 2 ^ S k) by (simpl; ring); exact Hc|].
      exists r. intros [|fuel] Hf; [lia|]. cbn [widen]. rewrite E. cbv zeta. destruct (Req_EM_T (step * 2) 0); [lra|]. apply Hr. lia.
    + exists step. intros [|fuel] Hf; [lia|]. cbn [widen]. now rewrite E.
Qed.
Lemma widen_errors func s t fuel : forall step e, widen fuel func s step t = Err e -> e = OutOfFuel \/ (e = ValueError /\ step = 0).
Proof.
  induction fuel as [|fuel IH]; intros step e; cbn [widen]; [intros [= <-]; now left|].
  destruct (Bool.eqb _ _); [|discriminate]. cbv zeta. destruct (Req_EM_T (step * 2) 0) as [H|H]; [intros [= <-]; right; split; [reflexivity|lra]|].
  intros E. apply IH in E as [E|[E1 E2]]; [now left|lra].
Qed.

  Definition bracket (func : R -> R) (inc : bool) (t a b : R) : Prop := a < b /\ if inc then func a < t <= func b else func b < t <= func a.
Lemma bisect_step func inc t atol fuel a b : bracket func inc t a b ->
  let med := (a + b) / 2 in
  (Rabs (func med - t) <= atol /\ bisect (S fuel) func inc a b t atol = Ok med) \/
  (~ Rabs (func med - t) <= atol /\ exists a' b', bracket func inc t a' b' /\ a <= a' /\ b' <= b /\ b' - a' = (b - a) / 2 /\
     forall f, bisect (S f) func inc a b t atol = bisect f func inc a' b' t atol).
Proof.
  intros [Hab Hbr] med. cbn [bisect]. fold med. cbv zeta. assert (Hm : a < med < b) by (unfold med; lra).
  destruct (Rle_dec (Rabs (func med - t)) atol) as [H|H]; [left; auto|right; split; [exact H|]].
  destruct (Req_EM_T med a); [lra|]. destruct (Req_EM_T med b); [lra|].
  destruct (Rlt_dec (func med) t) as [Hlt|Hlt], inc; cbn [Bool.eqb].
  - exists med, b. split; [split; [lra|cbv iota in *; lra]|]. split; [lra|]. split; [lra|]. split; [unfold med; lra|reflexivity].
  - exists a, med. split; [split; [lra|cbv iota in *; lra]|]. split; [lra|]. split; [lra|]. split; [unfold med; lra|reflexivity].
  - exists a, med. split; [split; [lra|cbv iota in *; lra]|]. split; [lra|]. split; [lra|]. split; [unfold med; lra|reflexivity].
  - exists med, b. split; [split; [lra|cbv iota in *; lra]|]. split; [lra|]. split; [lra|]. split; [unfold med; lra|reflexivity].
Qed.
Lemma bisect_sound func inc t atol fuel : forall a b, bracket func inc t a b ->
  match bisect fuel func inc a b t atol with Ok x => Rabs (func x - t) <= atol /\ a <= x <= b | Err e => e = OutOfFuel end.
Proof.
  induction fuel as [|fuel IH]; intros a b Hb; [reflexivity|].
  destruct (bisect_step func inc t atol fuel a b Hb) as [[H ->]|(H & a' & b' & Hb' & H1 & H2 & H3 & ->)].
  - split; [exact H|]. destruct Hb. lra.
  - specialize (IH a' b' Hb'). destruct (bisect fuel func inc a' b' t atol); [|exact IH]. destruct IH. split; [assumption|lra].
Qed.
Lemma bisect_total func inc t atol delta k : forall a b, bracket func inc t a b -> 0 < atol -> 0 < delta -> (b - a) <= delta * 2 ^ k ->
  (forall x y, a <= x <= b -> a <= y <= b -> Rabs (x - y) <= delta -> Rabs (func x - func y) <= atol) ->
  exists x, forall fuel, (k < fuel)%nat -> bisect fuel func inc a b t atol = Ok x.
Proof.
  induction k as [|k IH]; intros a b Hb Ha Hd Hk Hu.
  - exists ((a + b) / 2). intros [|fuel] Hf; [lia|].
    destruct (bisect_step func inc t atol fuel a b Hb) as [[H ->]|(H & _)]; [reflexivity|]. destruct H. destruct Hb as [Hab Hb]. simpl in Hk.
    pose proof (Hu ((a + b) / 2) a ltac:(lra) ltac:(lra) ltac:(rabs; lra)) as U1. pose proof (Hu ((a + b) / 2) b ltac:(lra) ltac:(lra) ltac:(rabs; lra)) as U2.
    destruct inc; revert U1 U2; rabs; lra.
  - destruct (bisect_step func inc t atol O a b Hb) as [[H _]|(H & a' & b' & Hb' & H1 & H2 & H3 & Hrec)].
    + exists ((a + b) / 2). intros [|fuel] Hf; [lia|]. destruct (bisect_step func inc t atol fuel a b Hb) as [[_ ->]|[H' _]]; [reflexivity|contradiction].
    + destruct (IH a' b' Hb' Ha Hd) as [x Hx].
      * rewrite H3. simpl in Hk. lra.
      * intros x y Hx Hy. apply Hu; lra.
      * exists x. intros [|fuel] Hf; [lia|]. rewrite Hrec. apply Hx. lia.
Qed.


Lemma start_bracket func s t r : crossed func s t (s + r) ->
  bracket func (if Rlt_dec (func (Rmin s (s + r))) (func (Rmax s (s + r))) then true else false) t (Rmin s (s + r)) (Rmax s (s + r)).
Proof.
  unfold crossed, bracket. intros H. assert (Hr : r <> 0) by (intros ->; rewrite Rplus_0_r in H; tauto).
  destruct (Rle_dec t (func s)) as [H1|H1], (Rle_dec t (func (s + r))) as [H2|H2]; try tauto;
    destruct (Rle_dec 0 r) as [H3|H3]; rewrite ?(Rmin_left s (s + r)), ?(Rmax_right s (s + r)), ?(Rmin_right s (s + r)), ?(Rmax_left s (s + r)) by lra;
    (split; [lra|]); destruct (Rlt_dec _ _); lra.
Qed.

(** A returned argument is within the tolerance and on the side of the step; in exact
    arithmetic the assertion never fails. *)
Theorem C47_sound : forall fuel func start_x step target_y atol,
  match binary_intercept fuel func start_x step target_y atol with
  | Ok x => Rabs (func x - target_y) <= atol /\ 0 <= (x - start_x) * step
  | Err e => e = OutOfFuel \/ (e = ValueError /\ step = 0)
  end.
Proof.
  intros fuel func s step t atol. unfold binary_intercept. cbv zeta. destruct (Rle_dec _ _) as [H|H]; [split; [exact H|lra]|].
  destruct (widen fuel func s step t) as [r|e] eqn:E; cbn [bind]; [|eapply widen_errors; exact E].
  apply widen_sound in E as (Hc & j & -> & _ & _). pose proof (start_bracket func s t _ Hc) as Hb.
  match goal with |- match bisect _ _ ?i _ _ _ _ with _ => _ end => set (inc := i) in * end.
  pose proof (bisect_sound func inc t atol fuel _ _ Hb) as B. destruct (bisect fuel func inc _ _ t atol) as [x|e]; [|now left].
  destruct B as [B1 B2]. split; [exact B1|]. assert (Hp : 0 < 2 ^ j) by (apply pow_lt; lra).
  destruct (Rle_dec 0 step) as [Hs|Hs].
  - assert (Hx : s <= x). { apply Rle_trans with (Rmin s (s + step * 2 ^ j)); [|apply B2]. apply Rmin_glb; [lra|]. assert (0 <= step * 2 ^ j) by (apply Rmult_le_pos; lra). lra. }
    apply Rmult_le_pos; lra.
  - assert (Hx : x <= s). { apply Rle_trans with (Rmax s (s + step * 2 ^ j)); [apply B2|]. apply Rmax_lub; [lra|]. assert (0 <= - step * 2 ^ j) by (apply Rmult_le_pos; lra). lra. }
    replace ((x - s) * step) with ((s - x) * - step) by ring. apply Rmult_le_pos; lra.
Qed.
Print Assumptions C47_sound.

(** It terminates for every continuous function that has crossed the target at one of
    the points start + step, start + 2 step, start + 4 step, ... *)
Theorem C47_terminates : forall func start_x step target_y atol k,
  continuity func -> 0 < atol -> step <> 0 -> crossed func start_x target_y (start_x + step * 2 ^ k) ->
  exists enough x, forall fuel, (enough <= fuel)%nat -> binary_intercept fuel func start_x step target_y atol = Ok x.
Proof.
  intros func s step t atol k Hcont Ha Hs Hc. unfold binary_intercept. cbv zeta. destruct (Rle_dec _ _) as [H|H]; [exists O, s; reflexivity|].
  destruct (widen_total func s t k step Hs Hc) as [r Hr].
  pose proof (Hr (S k) (Nat.lt_succ_diag_r k)) as Hr0. apply widen_sound in Hr0 as (Hcr & _).
  pose proof (start_bracket func s t r Hcr) as Hb.
  match type of Hb with bracket _ ?i _ _ _ => set (inc := i) in * end.
  set (a := Rmin s (s + r)) in *. set (b := Rmax s (s + r)) in *.
  destruct (Heine func (fun x => a <= x <= b) (compact_P3 a b) (fun x _ => Hcont x) (mkposreal atol Ha)) as [[delta Hd] Hu]. simpl in Hu.
  assert (exists n, (b - a) <= (delta / 2) * 2 ^ n) as [n Hn].
  { destruct (Pow_x_infinity 2 ltac:(rewrite Rabs_right; lra) ((b - a) / (delta / 2))) as [n Hn]. exists n. specialize (Hn n (le_n n)).
    rewrite Rabs_right in Hn by (apply Rle_ge, Rlt_le, pow_lt; lra). apply Rge_le in Hn.
    apply Rmult_le_compat_l with (r := delta / 2) in Hn; [|lra]. replace (delta / 2 * ((b - a) / (delta / 2))) with (b - a) in Hn by (field; lra). exact Hn. }
  destruct (bisect_total func inc t atol (delta / 2) n a b Hb Ha) as [x Hx]; [lra|exact Hn| |].
  - intros u v Hu1 Hv Huv. apply Rlt_le, Hu; [exact Hu1|exact Hv|lra].
  - exists (S (k + n)), x. intros fuel Hf. rewrite (Hr fuel) by lia. cbn [bind]. fold a b inc. apply Hx. lia.
Qed.
Print Assumptions C47_terminates.

(** In particular for a function that stays across the target beyond some distance. *)
Theorem C47_eventually_crossed : forall func start_x step target_y atol D,
  continuity func -> 0 < atol -> step <> 0 ->
  (forall x, 0 <= (x - start_x) * step -> D <= Rabs (x - start_x) -> crossed func start_x target_y x) ->
  exists enough x, Rabs (func x - target_y) <= atol /\ 0 <= (x - start_x) * step /\
    forall fuel, (enough <= fuel)%nat -> binary_intercept fuel func start_x step target_y atol = Ok x.
Proof.
  intros func s step t atol D Hcont Ha Hs Hc.
  destruct (Pow_x_infinity 2 ltac:(rewrite Rabs_right; lra) (D / Rabs step)) as [k Hk]. specialize (Hk k (le_n k)).
  assert (Hst : 0 < Rabs step) by now apply Rabs_pos_lt. assert (Hp : 0 < 2 ^ k) by (apply pow_lt; lra).
  rewrite (Rabs_right (2 ^ k)) in Hk by lra. apply Rge_le in Hk.
  destruct (C47_terminates func s step t atol k Hcont Ha Hs) as (n & x & Hx).
  - apply Hc.
    + replace ((s + step * 2 ^ k - s) * step) with (Rsqr step * 2 ^ k) by (unfold Rsqr; ring). apply Rmult_le_pos; [apply Rle_0_sqr|lra].
    + replace (s + step * 2 ^ k - s) with (step * 2 ^ k) by ring. rewrite Rabs_mult, (Rabs_right (2 ^ k)) by lra.
      apply Rmult_le_compat_l with (r := Rabs step) in Hk; [|lra]. replace (Rabs step * (D / Rabs step)) with D in Hk by (field; lra). exact Hk.
  - exists n, x. pose proof (C47_sound n func s step t atol) as So. rewrite (Hx n (le_n n)) in So. split; [apply So|]. split; [apply So|exact Hx].
Qed.
Print Assumptions C47_eventually_crossed.

(** the first call of the unit tests *)
Example C47_example : exists enough x, Rabs (x ^ 2 - 823 / 10) <= 1 / 100 /\ 0 < x /\
  forall fuel, (enough <= fuel)%nat -> binary_intercept fuel (fun x => x ^ 2) 5 1 (823 / 10) (1 / 100) = Ok x.
Proof.
  destruct (C47_eventually_crossed (fun x => x ^ 2) 5 1 (823 / 10) (1 / 100) 10) as (n & x & H1 & H2 & H3); [|lra|lra| |].
  - apply derivable_continuous. apply derivable_pow.
  - intros x H1 H2. unfold crossed. assert (15 <= x) by (revert H2; rabs; lra). assert (225 <= x ^ 2) by (simpl; nra). lra.
  - exists n, x. split; [exact H1|]. split; [|exact H3]. lra.
Qed.
(** a zero step is refused *)
Example C47_zero_step : binary_intercept 5 (fun x => x) 0 0 7 1 = Err ValueError.
Proof.
  unfold binary_intercept. destruct (Rle_dec _ _) as [H|H]; [revert H; rabs; lra|]. cbv zeta. cbn [widen]. rewrite Rplus_0_r.
  rewrite Bool.eqb_reflx. rewrite Rmult_0_l. destruct (Req_EM_T 0 0); [reflexivity|congruence].
Qed.

(** ** C48: per-piece error rates *)
(** Specification: the rate of an odd number of errors among n independent pieces. *)
Fixpoint compose (n : nat) (q : R) : R :=
  match n with O => 0 | S n => compose n q * (1 - q) + (1 - compose n q) * q end.
Lemma compose_closed n q : compose n q = (1 - (1 - 2 * q) ^ n) / 2.
Proof. induction n as [|n IH]; simpl; [field|]. rewrite IH. field. Qed.
Lemma root_pow x n : 0 <= x -> (0 < n)%nat -> pow_float x (1 / INR n) ^ n = x /\ 0 <= pow_float x (1 / INR n).
Proof.
  intros Hx Hn. assert (Hi : 0 < INR n) by (now apply lt_0_INR). unfold pow_float. destruct (Req_EM_T x 0) as [->|Hx0].
  - destruct (Req_EM_T (1 / INR n) 0) as [H|H].
    + exfalso. assert (0 < 1 / INR n) by (apply Rdiv_lt_0_compat; lra). lra.
    + split; [apply pow_i; exact Hn|lra].
  - assert (Hp : 0 < Rpower x (1 / INR n)) by (unfold Rpower; apply exp_pos). split; [|lra].
    rewrite <- Rpower_pow by exact Hp. rewrite Rpower_mult. replace (1 / INR n * INR n) with 1 by (field; lra). apply Rpower_1. lra.
Qed.
Lemma root_le_1 x n : 0 <= x <= 1 -> (0 < n)%nat -> pow_float x (1 / INR n) <= 1.
Proof.
  intros Hx Hn. destruct (root_pow x n) as [H1 H2]; [lra|exact Hn|]. destruct (Rle_dec (pow_float x (1 / INR n)) 1) as [H|H]; [exact H|]. exfalso.
  assert (G : 1 < pow_float x (1 / INR n) ^ n) by (apply Rlt_pow_R1; [lra|exact Hn]). lra.
Qed.

Lemma per_piece_low_spec e pieces : 0 <= e <= 1 / 2 -> (1 <= pieces)%Z ->
  exists q, per_piece_low e pieces = Ok q /\ 0 <= q <= 1 / 2 /\ compose (Z.to_nat pieces) q = e.
Proof.
  intros He Hp. unfold per_piece_low. destruct (Rle_dec 0 e); [|lra]. destruct (Rle_dec e (1 / 2)); [|lra].
  destruct (Z.eqb_spec pieces 0) as [?|_]; [lia|]. destruct (Z.ltb_spec pieces 0) as [?|_]; [lia|]. eexists. split; [reflexivity|].
  set (n := Z.to_nat pieces). assert (Hn : (0 < n)%nat) by (unfold n; lia). replace (IZR pieces) with (INR n) by (unfold n; rewrite INR_IZR_INZ, Z2Nat.id by lia; reflexivity).
  destruct (root_pow (1 - 2 * e) n) as [H1 H2]; [lra|exact Hn|]. pose proof (root_le_1 (1 - 2 * e) n ltac:(lra) Hn) as H3.
  split; [lra|]. rewrite compose_closed. replace (1 - 2 * ((1 - pow_float (1 - 2 * e) (1 / INR n)) / 2)) with (pow_float (1 - 2 * e) (1 / INR n)) by field.
  rewrite H1. field.
Qed.

Theorem C48_inverse : forall error_rate pieces, 0 <= error_rate <= 1 / 2 -> (1 <= pieces)%Z ->
  exists q, total_error_to_per_piece_error error_rate pieces = Ok q /\ 0 <= q <= 1 / 2 /\ compose (Z.to_nat pieces) q = error_rate.
Proof.
  intros e pieces He Hp. unfold total_error_to_per_piece_error. destruct (Rlt_dec (1 / 2) e); [lra|]. now apply per_piece_low_spec.
Qed.
Print Assumptions C48_inverse.

Lemma compose_flip n q : compose n (1 - q) = if Nat.even n then compose n q else 1 - compose n q.
Proof.
  rewrite !compose_closed. replace (1 - 2 * (1 - q)) with (- (1 - 2 * q)) by ring.
  assert (G : forall x, (- x) ^ n = if Nat.even n then x ^ n else - x ^ n).
  { intros x. induction n as [|n IH]; [reflexivity|]. rewrite Nat.even_succ, <- Nat.negb_even. simpl. rewrite IH. destruct (Nat.even n); simpl; ring. }
  rewrite G. destruct (Nat.even n); field.
Qed.
(** Above one half: right for an odd number of pieces, the complement for an even one. *)
Theorem C48_above_half : forall error_rate pieces, 1 / 2 < error_rate <= 1 -> (1 <= pieces)%Z ->
  exists q, total_error_to_per_piece_error error_rate pieces = Ok q /\ 1 / 2 <= q <= 1 /\
    compose (Z.to_nat pieces) q = if Z.odd pieces then error_rate else 1 - error_rate.
Proof.
  intros e pieces He Hp. unfold total_error_to_per_piece_error. destruct (Rlt_dec (1 / 2) e); [|lra].
  destruct (per_piece_low_spec (1 - e) pieces) as (q & -> & Hq & Hc); [lra|exact Hp|]. cbn [bind]. exists (1 - q). split; [reflexivity|]. split; [lra|].
  rewrite compose_flip, Hc. rewrite <- Z.negb_even.
  assert (Ev : Z.even (Z.of_nat (Z.to_nat pieces)) = Nat.even (Z.to_nat pieces)).
  { generalize (Z.to_nat pieces). intros n. induction n as [|n IH]; [reflexivity|]. rewrite Nat2Z.inj_succ, Z.even_succ, Nat.even_succ, <- Z.negb_even, <- Nat.negb_even, IH. reflexivity. }
  rewrite Z2Nat.id in Ev by lia. rewrite Ev. destruct (Nat.even _); simpl; ring.
Qed.
Print Assumptions C48_above_half.
Theorem C48_even_pieces_refuted : exists error_rate pieces q, 0 <= error_rate <= 1 /\ (1 <= pieces)%Z /\
  total_error_to_per_piece_error error_rate pieces = Ok q /\ compose (Z.to_nat pieces) q <> error_rate.
Proof.
  destruct (C48_above_half (3 / 4) 2) as (q & E & _ & Hc); [lra|lia|]. exists (3 / 4), 2%Z, q. split; [lra|]. split; [lia|]. split; [exact E|].
  rewrite Hc. simpl. lra.
Qed.
Print Assumptions C48_even_pieces_refuted.

(** The conversion preserves order, so error bars stay error bars. *)
Theorem C48_monotone : forall e e' pieces q q', 0 <= e <= e' -> e' <= 1 -> (1 <= pieces)%Z ->
  total_error_to_per_piece_error e pieces = Ok q -> total_error_to_per_piece_error e' pieces = Ok q' -> q <= q'.
Proof.
  assert (Low : forall e e' pieces q q', 0 <= e <= e' -> e' <= 1 / 2 -> (1 <= pieces)%Z -> per_piece_low e pieces = Ok q -> per_piece_low e' pieces = Ok q' -> q <= q').
  { intros e e' pieces q q' He He' Hp E E'. destruct (per_piece_low_spec e pieces) as (p & F & Hq & Hc); [lra|exact Hp|]. destruct (per_piece_low_spec e' pieces) as (p' & F' & Hq' & Hc'); [lra|exact Hp|].
    assert (p = q) by congruence. assert (p' = q') by congruence. subst p p'. destruct (Rle_dec q q') as [H|H]; [exact H|]. exfalso.
    rewrite compose_closed in Hc, Hc'. set (n := Z.to_nat pieces) in *. assert (Hn : (0 < n)%nat) by (unfold n; lia).
    assert (G : (1 - 2 * q) ^ n < (1 - 2 * q') ^ n); [|lra].
    clear - H Hq Hq' Hn. induction n as [|[|n] IH]; [lia|simpl; lra|]. specialize (IH ltac:(lia)). change ((1 - 2 * q) * ((1 - 2 * q) ^ S n) < (1 - 2 * q') * ((1 - 2 * q') ^ S n)).
    apply Rle_lt_trans with ((1 - 2 * q) * (1 - 2 * q') ^ S n); [apply Rmult_le_compat_l; lra|]. apply Rmult_lt_compat_r; [apply pow_lt; lra|lra]. }
  intros e e' pieces q q' He He' Hp E E'.
  destruct (Rlt_dec (1 / 2) e) as [H|H], (Rlt_dec (1 / 2) e') as [H'|H']; try lra.
  - unfold total_error_to_per_piece_error in E, E'. destruct (Rlt_dec (1 / 2) e); [|lra]. destruct (Rlt_dec (1 / 2) e'); [|lra].
    destruct (per_piece_low (1 - e) pieces) as [p|] eqn:F; [|discriminate]. destruct (per_piece_low (1 - e') pieces) as [p'|] eqn:F'; [|discriminate].
    cbn [bind] in E, E'. injection E as <-. injection E' as <-. enough (p' <= p) by lra. apply (Low (1 - e') (1 - e) pieces p' p); auto; lra.
  - destruct (C48_inverse e pieces) as (p & F & Hq & _); [lra|exact Hp|]. destruct (C48_above_half e' pieces) as (p' & F' & Hq' & _); [lra|exact Hp|].
    assert (p = q) by congruence. assert (p' = q') by congruence. lra.
  - unfold total_error_to_per_piece_error in E, E'. destruct (Rlt_dec (1 / 2) e); [lra|]. destruct (Rlt_dec (1 / 2) e'); [lra|].
    apply (Low e e' pieces q q'); auto; lra.
Qed.
Print Assumptions C48_monotone.

Theorem C48_rejected : forall error_rate pieces,
  (error_rate < 0 \/ 1 < error_rate -> total_error_to_per_piece_error error_rate pieces = Err AssertionError) /\
  (0 <= error_rate <= 1 -> total_error_to_per_piece_error error_rate 0 = Err ZeroDivisionError).
Proof.
  intros e pieces. unfold total_error_to_per_piece_error, per_piece_low. split; intros H; destruct (Rlt_dec (1 / 2) e).
  - destruct (Rle_dec 0 (1 - e)); [lra|reflexivity].
  - destruct (Rle_dec 0 e); [lra|reflexivity].
  - destruct (Rle_dec 0 (1 - e)); [|lra]. destruct (Rle_dec (1 - e) (1 / 2)); [reflexivity|lra].
  - destruct (Rle_dec 0 e); [|lra]. destruct (Rle_dec e (1 / 2)); [reflexivity|lra].
Qed.
Print Assumptions C48_rejected.
Example C48_example : exists q, total_error_to_per_piece_error (3 / 8) 2 = Ok q /\ q = 1 / 4.
Proof.
  destruct (C48_inverse (3 / 8) 2) as (q & E & Hq & Hc); [lra|lia|]. exists q. split; [exact E|].
  change (Z.to_nat 2) with 2%nat in Hc. simpl in Hc. assert ((q - 1 / 4) * (q - 3 / 4) = 0) by nra. apply Rmult_integral in H as [H|H]; lra.
Qed.
