(** Cycles on a twisted triangular lattice on a torus, over the integers mod 2.  Pure
    combinatorics used by Distance.v; nothing here models code. *)
From Verif Require Import Prelude.
Open Scope Z_scope.

(** xor of f 0, ..., f (n-1) *)
Fixpoint X (n : nat) (f : Z -> bool) : bool :=
  match n with O => false | S n => xorb (X n f) (f (Z.of_nat n)) end.
Lemma X_ext n f g : (forall k, 0 <= k < Z.of_nat n -> f k = g k) -> X n f = X n g.
Proof. induction n as [|n IH]; intros H; [reflexivity|]. cbn [X]. rewrite IH by (intros; apply H; lia). now rewrite H by lia. Qed.
Lemma X_xor n f g : X n (fun k => xorb (f k) (g k)) = xorb (X n f) (X n g).
Proof. induction n as [|n IH]; [reflexivity|]. cbn [X]. rewrite IH. now destruct (X n f), (X n g), (f (Z.of_nat n)), (g (Z.of_nat n)). Qed.
Lemma X_false n f : (forall k, 0 <= k < Z.of_nat n -> f k = false) -> X n f = false.
Proof. induction n as [|n IH]; intros H; [reflexivity|]. cbn [X]. rewrite IH by (intros; apply H; lia). now rewrite H by lia. Qed.
Lemma X_true n f : X n f = true -> exists k, 0 <= k < Z.of_nat n /\ f k = true.
Proof.
  induction n as [|n IH]; [discriminate|]. cbn [X]. destruct (f (Z.of_nat n)) eqn:E; intros H.
  - exists (Z.of_nat n). split; [lia | exact E].
  - rewrite xorb_false_r in H. destruct (IH H) as (k & Hk & Ek). exists k. split; [lia | exact Ek].
Qed.
Lemma X_first n f : X (S n) f = xorb (f 0) (X n (fun k => f (k + 1))).
Proof.
  induction n as [|n IH]; [cbn; now destruct (f 0)|]. cbn [X] in *. rewrite IH.
  replace (Z.of_nat n + 1) with (Z.of_nat (S n)) by lia.
  now destruct (f 0), (X n (fun k => f (k + 1))), (f (Z.of_nat (S n))).
Qed.
Lemma X_shift n f : f (Z.of_nat n) = f 0 -> X n (fun k => f (k + 1)) = X n f.
Proof.
  intros H. pose proof (X_first n f) as K. cbn [X] in K. rewrite H in K.
  now destruct (X n f), (f 0), (X n (fun k => f (k + 1))).
Qed.
(** a sum over an even range, by pairs starting at an even or at an odd place *)
Lemma X_pairs n f : X (2 * n) f = X n (fun k => xorb (f (2 * k)) (f (2 * k + 1))).
Proof.
  induction n as [|n IH]; [reflexivity|]. replace (2 * S n)%nat with (S (S (2 * n))) by lia. cbn [X]. rewrite IH.
  replace (Z.of_nat (2 * n)) with (2 * Z.of_nat n) by lia. replace (Z.of_nat (S (2 * n))) with (2 * Z.of_nat n + 1) by lia.
  now destruct (X n _), (f (2 * Z.of_nat n)), (f (2 * Z.of_nat n + 1)).
Qed.
Lemma X_pairs1 n f : f (2 * Z.of_nat n) = f 0 -> X (2 * n) f = X n (fun k => xorb (f (2 * k + 1)) (f (2 * k + 2))).
Proof.
  intros H. rewrite <- X_shift by (rewrite <- H; f_equal; lia). rewrite X_pairs. apply X_ext. intros k _.
  f_equal; f_equal; lia.
Qed.

(** A summation of f on all the integers. *)
Definition pre (f : Z -> bool) (c : Z) : bool :=
  if 0 <=? c then X (Z.to_nat c) f else X (Z.to_nat (- c)) (fun k => f (- k - 1)).
Lemma pre_0 f : pre f 0 = false.
Proof. reflexivity. Qed.
Lemma pre_step f c : pre f (c + 1) = xorb (pre f c) (f c).
Proof.
  unfold pre. destruct (Z.leb_spec 0 c), (Z.leb_spec 0 (c + 1)); try lia.
  - replace (Z.to_nat (c + 1)) with (S (Z.to_nat c)) by lia. cbn [X]. now rewrite Z2Nat.id by lia.
  - assert (c = -1) by lia. subst c. vm_compute. now destruct (f (-1)).
  - replace (Z.to_nat (- c)) with (S (Z.to_nat (- (c + 1)))) by lia. cbn [X].
    replace (- Z.of_nat (Z.to_nat (- (c + 1))) - 1) with c by lia.
    now destruct (X _ _), (f c).
Qed.
Lemma step_Z (P : Z -> Prop) : P 0 -> (forall c, P c <-> P (c + 1)) -> forall c, P c.
Proof.
  intros H0 H. assert (A : forall n : nat, P (Z.of_nat n) /\ P (- Z.of_nat n)).
  { induction n as [|n [IH1 IH2]]; [split; exact H0|]. split.
    - replace (Z.of_nat (S n)) with (Z.of_nat n + 1) by lia. apply (proj1 (H _)). exact IH1.
    - apply (proj2 (H _)). replace (- Z.of_nat (S n) + 1) with (- Z.of_nat n) by lia. exact IH2. }
  intros c. destruct (Z.le_ge_cases 0 c) as [L|L].
  - rewrite <- (Z2Nat.id c) by lia. apply A.
  - replace c with (- Z.of_nat (Z.to_nat (- c))) by lia. apply A.
Qed.
Lemma pre_nat f n : pre f (Z.of_nat n) = X n f.
Proof. unfold pre. destruct (Z.leb_spec 0 (Z.of_nat n)); [|lia]. now rewrite Nat2Z.id. Qed.
Lemma pre_period f n : (forall c, f (c + Z.of_nat n) = f c) -> X n f = false -> forall c, pre f (c + Z.of_nat n) = pre f c.
Proof.
  intros Hf H0. apply (step_Z (fun c => pre f (c + Z.of_nat n) = pre f c)).
  - rewrite Z.add_0_l, pre_nat, H0. reflexivity.
  - intros c. replace (c + 1 + Z.of_nat n) with (c + Z.of_nat n + 1) by lia. rewrite !pre_step, Hf.
    destruct (pre f (c + Z.of_nat n)), (pre f c), (f c); cbn; split; congruence.
Qed.

(** A function on the integers that never changes. *)
Lemma const_Z {A} (f : Z -> A) : (forall c, f (c + 1) = f c) -> forall c, f c = f 0.
Proof. intros H. apply (step_Z (fun c => f c = f 0)); [reflexivity|]. intros c. now rewrite H. Qed.
Lemma const_Z2 {A} (f : Z -> A) (p : Z) : (forall c, (c + p) mod 2 = 0 -> f (c + 2) = f c) ->
  forall c d, (c + p) mod 2 = 0 -> (d + p) mod 2 = 0 -> f c = f d.
Proof.
  intros H.
  assert (K : forall c, (c + p) mod 2 = 0 -> forall k, f (c + 2 * k) = f c).
  { intros c Hc. apply (step_Z (fun k => f (c + 2 * k) = f c)); [f_equal; lia|]. intros k.
    replace (c + 2 * (k + 1)) with (c + 2 * k + 2) by lia. rewrite H; [tauto|]. dlia. }
  intros c d Hc Hd. rewrite <- (K d Hd ((c - d) / 2)). f_equal. dlia.
Qed.

Definition x3 a b c := xorb a (xorb b c).
Definition x6 a b c d e f := x3 a b (xorb c (x3 d e f)).
Ltac bools := unfold x6, x3 in *; repeat match goal with
  | |- context [xorb ?a _] => lazymatch a with xorb _ _ => fail | true => fail | false => fail | _ => destruct a end
  | |- context [xorb _ ?a] => lazymatch a with xorb _ _ => fail | true => fail | false => fail | _ => destruct a end
  | H : context [xorb ?a _] |- _ => lazymatch a with xorb _ _ => fail | true => fail | false => fail | _ => destruct a end
  | H : context [xorb _ ?a] |- _ => lazymatch a with xorb _ _ => fail | true => fail | false => fail | _ => destruct a end
  end; cbn in *; congruence.

Section Torus.
  (** Columns are taken mod 2 w, strips mod 2 n. *)
  Variables w n : nat.
  Let W := Z.of_nat (2 * w).
  Let M := Z.of_nat (2 * n).
  Definition periodic (f : Z -> Z -> bool) : Prop :=
    (forall m i, f (m + Z.of_nat (2 * n)) i = f m i) /\ (forall m i, f m (i + Z.of_nat (2 * w)) = f m i).

  (** summing over a line by pairs that start where the parity is right *)
  Lemma X_par (k : nat) (f g : Z -> bool) (p : Z) : (forall i, f (i + Z.of_nat (2 * k)) = f i) -> (forall i, g (i + Z.of_nat (2 * k)) = g i) ->
    (forall i, (i + p) mod 2 = 0 -> xorb (f i) (f (i + 1)) = xorb (g i) (g (i + 1))) -> X (2 * k) f = X (2 * k) g.
  Proof.
    intros Pf Pg H. assert (p mod 2 = 0 \/ p mod 2 = 1) as [E|E] by dlia.
    - rewrite !X_pairs. apply X_ext. intros i _. apply H. dlia.
    - rewrite !X_pairs1 by (replace (2 * Z.of_nat k) with (0 + Z.of_nat (2 * k)) by lia; now rewrite ?Pf, ?Pg).
      apply X_ext. intros i _. replace (2 * i + 2) with (2 * i + 1 + 1) by lia. apply H. dlia.
  Qed.

  Section A.
    Variables al ga : Z -> Z -> bool.
    Hypothesis Pal : periodic al.
    Hypothesis Pga : periodic ga.
    Hypothesis E0 : forall m i, (i + m) mod 2 = 0 -> al m i = al m (i + 1).
    Hypothesis Hr : forall m c, (c + m) mod 2 = 0 ->
      x6 (ga (m - 1) (c - 1)) (al m (c - 1)) (ga m (c - 1)) (ga (m - 1) c) (al m c) (ga m c) = false.
    Definition V (i : Z) : bool := X (2 * n) (fun m => xorb (al m i) (ga m i)).
    Definition R (m : Z) : bool := X (2 * w) (ga m).

    Lemma R_step m : R (m + 1) = R m.
    Proof.
      unfold R. assert (Z0 : X (2 * w) (al (m + 1)) = false).
      { rewrite (X_par w (al (m + 1)) (fun _ => false) (m + 1)); [now apply X_false | apply Pal | reflexivity |].
        intros i Hi. rewrite (E0 _ _ Hi). bools. }
      assert (K : X (2 * w) (fun i => xorb (ga (m + 1) i) (ga m i)) = X (2 * w) (al (m + 1))).
      { apply (X_par w _ _ m); [intros i; now rewrite !(proj2 Pga) | apply Pal |].
        intros i Hi. specialize (Hr (m + 1) (i + 1)). replace (i + 1 - 1) with i in Hr by lia. replace (m + 1 - 1) with m in Hr by lia.
        specialize (Hr ltac:(dlia)). bools. }
      rewrite X_xor, Z0 in K. bools.
    Qed.
    Lemma R_const m : R m = R 0.
    Proof. apply (const_Z R), R_step. Qed.

    Lemma V_step i : V (i + 1) = V i.
    Proof.
      unfold V. rewrite !X_xor.
      (* the sum over strips of one summand equals that of its neighbour *)
      assert (K : X (2 * n) (fun m => xorb (al m i) (al m (i + 1))) = X (2 * n) (fun m => xorb (ga m i) (ga m (i + 1)))).
      { rewrite <- (X_shift (2 * n) (fun m => xorb (al m i) (al m (i + 1)))) by (replace (Z.of_nat (2 * n)) with (0 + Z.of_nat (2 * n)) by lia; now rewrite !(proj1 Pal)).
        apply (X_par n _ _ i).
        - intros m. replace (m + Z.of_nat (2 * n) + 1) with (m + 1 + Z.of_nat (2 * n)) by lia. now rewrite !(proj1 Pal).
        - intros m. now rewrite !(proj1 Pga).
        - intros m Hm. rewrite (E0 (m + 1 + 1) i) by dlia.
          specialize (Hr (m + 1) (i + 1)). replace (i + 1 - 1) with i in Hr by lia. replace (m + 1 - 1) with m in Hr by lia.
          specialize (Hr ltac:(dlia)). bools. }
      rewrite !X_xor in K. bools.
    Qed.
    Lemma V_const i : V i = V 0.
    Proof. apply (const_Z V), V_step. Qed.

    (** A closed curve that crosses neither kind of line an odd number of times bounds
        a set t of triangles. *)
    Lemma fill_a : V 0 = false -> R 0 = false -> exists t, periodic t /\
      (forall m i, ga m i = xorb (t m i) (t m (i + 1))) /\
      (forall m i, (i + m) mod 2 = 0 -> al m i = xorb (t (m - 1) (i + 1)) (t m (i + 1))).
    Proof.
      intros HV HR. set (g m := pre (ga m)).
      set (D m i := x3 (al m i) (g (m - 1) (i + 1)) (g m (i + 1))).
      assert (D2 : forall m i j, (i + m) mod 2 = 0 -> (j + m) mod 2 = 0 -> D m i = D m j).
      { intros m. apply (const_Z2 (D m) m). intros i Hi. unfold D, g.
        replace (i + 2 + 1) with (i + 1 + 1 + 1) by lia. rewrite !pre_step.
        specialize (Hr m (i + 2)). replace (i + 2 - 1) with (i + 1) in Hr by lia. specialize (Hr ltac:(dlia)).
        rewrite (E0 m i Hi). replace (i + 1 + 1) with (i + 2) by lia. bools. }
      assert (Pg1 : forall m i, g (m + Z.of_nat (2 * n)) i = g m i).
      { intros m i. unfold g, pre. destruct (0 <=? i); apply X_ext; intros; apply Pga. }
      assert (Pg2 : forall m i, g m (i + Z.of_nat (2 * w)) = g m i).
      { intros m i. unfold g. apply pre_period; [apply Pga|]. fold (R m). now rewrite R_const. }
      assert (Dm : forall m i, D (m + Z.of_nat (2 * n)) i = D m i).
      { intros m i. unfold D. replace (m + Z.of_nat (2 * n) - 1) with (m - 1 + Z.of_nat (2 * n)) by lia. now rewrite !Pg1, (proj1 Pal). }
      set (K := pre (fun m => D (m + 1) (m + 1))).
      assert (PK : forall m, K (m + Z.of_nat (2 * n)) = K m).
      { apply pre_period.
        - intros m. replace (m + Z.of_nat (2 * n) + 1) with (m + 1 + Z.of_nat (2 * n)) by lia. rewrite Dm. apply D2; dlia.
        - rewrite (X_shift (2 * n) (fun m => D m m)).
          2:{ rewrite (D2 _ _ 0) by dlia. change (Z.of_nat (2 * n)) with (0 + Z.of_nat (2 * n)) at 1. apply Dm. }
          transitivity (V 0); [|exact HV]. unfold V. rewrite X_xor.
          assert (S : X (2 * n) (fun m => xorb (D m m) (al m 0)) = X (2 * n) (fun m => ga m 0)).
          { rewrite <- (X_shift (2 * n) (fun m => xorb (D m m) (al m 0))).
            2:{ rewrite (D2 _ _ 0) by dlia. change (Z.of_nat (2 * n)) with (0 + Z.of_nat (2 * n)). now rewrite Dm, (proj1 Pal). }
            rewrite <- (X_shift (2 * n) (fun m => ga m 0)) by (change (Z.of_nat (2 * n)) with (0 + Z.of_nat (2 * n)); apply Pga).
            apply (X_par n _ _ 0).
            - intros m. replace (m + Z.of_nat (2 * n) + 1) with (m + 1 + Z.of_nat (2 * n)) by lia.
              rewrite Dm, (proj1 Pal). f_equal. apply D2; dlia.
            - intros m. replace (m + Z.of_nat (2 * n) + 1) with (m + 1 + Z.of_nat (2 * n)) by lia. apply Pga.
            - intros m Hm. rewrite (D2 (m + 1) (m + 1) (-1)) by dlia. rewrite (D2 (m + 1 + 1) (m + 1 + 1) 0) by dlia.
              unfold D, g. change (-1 + 1) with 0. rewrite !(pre_step _ 0), !pre_0.
              rewrite (E0 (m + 1) (-1)) by dlia. change (-1 + 1) with 0. replace (m + 1 + 1 - 1) with (m + 1) by lia.
              bools. }
          rewrite X_xor in S. bools. }
      exists (fun m c => xorb (K m) (g m c)). split; [split|split].
      - intros m i. now rewrite PK, Pg1.
      - intros m i. now rewrite Pg2.
      - intros m i. unfold g. rewrite pre_step. bools.
      - intros m i Hi. assert (E : K m = xorb (K (m - 1)) (D m i)).
        { unfold K. replace m with (m - 1 + 1) at 1 by lia. rewrite pre_step. f_equal. replace (m - 1 + 1) with m by lia. apply D2; dlia. }
        rewrite E. unfold D. bools.
    Qed.
  End A.

  Section B.
    Variables A B : Z -> Z -> bool.
    Hypothesis PA : periodic A.
    Hypothesis PB : periodic B.
    Hypothesis H1 : forall m i, (i + m) mod 2 = 0 -> x3 (A m i) (B m i) (B m (i + 1)) = false.
    Hypothesis H2 : forall m i, (i + m) mod 2 = 1 -> x3 (A (m + 1) i) (B m i) (B m (i + 1)) = false.
    (** A restricted to the places where it means something *)
    Definition T (m : Z) : bool := X (2 * w) (fun i => ((i + m) mod 2 =? 0) && A m i).
    Definition S_ (m : Z) : bool := X (2 * w) (B m).
    Definition U (i : Z) : bool := X (2 * n) (fun m => B m i).

    Lemma T_S m : T m = S_ m.
    Proof.
      apply (X_par w _ _ m); [intros i; rewrite (proj2 PA); do 2 f_equal; dlia | apply PB |].
      intros i Hi. rewrite Hi. replace ((i + 1 + m) mod 2) with 1 by dlia. cbn [Z.eqb andb]. specialize (H1 m i Hi). bools.
    Qed.
    Lemma T_S' m : T (m + 1) = S_ m.
    Proof.
      apply (X_par w _ _ (m + 1)); [intros i; rewrite (proj2 PA); do 2 f_equal; dlia | apply PB |].
      intros i Hi. rewrite Hi. replace ((i + 1 + (m + 1)) mod 2) with 1 by dlia. cbn [Z.eqb andb]. specialize (H2 m i ltac:(dlia)). bools.
    Qed.
    Lemma S_const m : S_ m = S_ 0.
    Proof. apply (const_Z S_). intros c. now rewrite <- T_S, T_S'. Qed.
    Lemma T_const m : T m = S_ 0.
    Proof. rewrite T_S. apply S_const. Qed.
    (** two neighbouring squares *)
    Lemma H12 m i : (i + m) mod 2 = 1 -> xorb (xorb (B m i) (B m (i + 1))) (xorb (B (m + 1) i) (B (m + 1) (i + 1))) = false.
    Proof. intros Hi. pose proof (H2 m i Hi) as K2. pose proof (H1 (m + 1) i ltac:(dlia)) as K1. bools. Qed.
    Lemma U_step i : U (i + 1) = U i.
    Proof.
      unfold U. apply (X_par n _ _ (i + 1)); [intros m; apply PB | intros m; apply PB |].
      intros m Hm. pose proof (H12 m i ltac:(dlia)) as K. bools.
    Qed.
    Lemma U_const i : U i = U 0.
    Proof. apply (const_Z U), U_step. Qed.

    (** A closed dual curve that crosses neither kind of line an odd number of times
        surrounds a set f of vertices. *)
    Lemma fill_b : S_ 0 = false -> U 0 = false -> exists f, periodic f /\
      (forall m i, (i + m) mod 2 = 0 -> A m i = xorb (f m i) (f m (i + 2))) /\
      (forall m i, (i + m) mod 2 = 0 -> B m i = xorb (f m i) (f (m + 1) (i + 1))) /\
      (forall m i, (i + m) mod 2 = 1 -> B m i = xorb (f m (i + 1)) (f (m + 1) i)).
    Proof.
      intros HS HU. set (g i := pre (fun m => B m i)).
      set (D i m := xorb (g i m) (g (i - 1) m)).
      assert (D2 : forall i m k, (m + i) mod 2 = 0 -> (k + i) mod 2 = 0 -> D i m = D i k).
      { intros i. apply (const_Z2 (D i) i). intros m Hm. unfold D, g. replace (m + 2) with (m + 1 + 1) by lia. rewrite !pre_step.
        pose proof (H12 m (i - 1) ltac:(dlia)) as K. replace (i - 1 + 1) with i in K by lia. bools. }
      assert (Pg1 : forall i m, g i (m + Z.of_nat (2 * n)) = g i m).
      { intros i m. unfold g. apply pre_period; [intros; apply PB|]. fold (U i). now rewrite U_const. }
      assert (Pg2 : forall i m, g (i + Z.of_nat (2 * w)) m = g i m).
      { intros i m. unfold g, pre. destruct (0 <=? m); apply X_ext; intros; apply PB. }
      assert (Di : forall i m, D (i + Z.of_nat (2 * w)) m = D i m).
      { intros i m. unfold D. replace (i + Z.of_nat (2 * w) - 1) with (i - 1 + Z.of_nat (2 * w)) by lia. now rewrite !Pg2. }
      set (K := pre (fun i => D (i + 1) (i + 1))).
      assert (PK : forall i, K (i + Z.of_nat (2 * w)) = K i).
      { apply pre_period.
        - intros i. replace (i + Z.of_nat (2 * w) + 1) with (i + 1 + Z.of_nat (2 * w)) by lia. rewrite Di. apply D2; dlia.
        - transitivity (S_ 0); [|exact HS]. unfold S_. apply (X_par w _ _ 0).
          + intros i. replace (i + Z.of_nat (2 * w) + 1) with (i + 1 + Z.of_nat (2 * w)) by lia. rewrite Di. apply D2; dlia.
          + intros i. apply PB.
          + intros i Hi. rewrite (D2 (i + 1) (i + 1) (0 + 1)) by dlia. rewrite (D2 (i + 1 + 1) (i + 1 + 1) 0) by dlia.
            unfold D, g. rewrite !(pre_step _ 0), !pre_0. replace (i + 1 - 1) with i by lia. bools. }
      set (k i m := xorb (K i) (g i m)).
      assert (k1 : forall i m, k i (m + 1) = xorb (k i m) (B m i)) by (intros i m; unfold k, g; rewrite pre_step; bools).
      assert (k2 : forall i m, (i + 1 + m) mod 2 = 0 -> k (i + 1) m = k i m).
      { intros i m Hi. unfold k, K. rewrite pre_step. rewrite (D2 (i + 1) (i + 1) m) by dlia. unfold D. replace (i + 1 - 1) with i by lia. bools. }
      exists (fun m c => k c m). split; [split|split; [|split]].
      - intros m i. unfold k. now rewrite Pg1.
      - intros m i. unfold k. now rewrite PK, Pg2.
      - intros m i Hi. replace (i + 2) with (i + 1 + 1) by lia. rewrite (k2 (i + 1) m) by dlia.
        pose proof (H1 m i Hi) as E. pose proof (k1 i m) as E1. pose proof (k1 (i + 1) m) as E2. rewrite (k2 i (m + 1)) in E2 by dlia. bools.
      - intros m i Hi. rewrite (k2 i (m + 1)) by dlia. rewrite k1. bools.
      - intros m i Hi. rewrite (k2 i m) by dlia. rewrite k1. bools.
    Qed.
  End B.
End Torus.
