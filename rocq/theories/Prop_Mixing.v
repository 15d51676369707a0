(** C31: the correlated errors of EM3_v2 make up the full mixing channel. *)
From Coq Require Import QArith Reals Lra Psatz.
From Verif Require Import Prelude Layout Pauli Tracker Stim Circuit Noise NoiseMoments NoiseCorr Frame.
Open Scope Z_scope.

(** ** mix_probability_to_independent_component_probability, src/noise.py:196-218 *)
Open Scope R_scope.
(** x ** y for x >= 0 and y > 0 (python floats, here reals) *)
Definition pow_real (x y : R) : R := if Rle_dec x 0 then 0 else Rpower x y.
Definition mix_probability_to_independent_component_probability (mix_probability : R) (n : nat) : R :=
  (1/2 - 1/2 * pow_real (1 - mix_probability) (1 / 2 ^ (n - 1))).

(** ** Specification: independent components *)
(** component-wise sum of two errors *)
Fixpoint vxor (a b : list bool) : list bool :=
  match a, b with x :: a, y :: b => xorb x y :: vxor a b | _, _ => [] end.
(** The probability that the errors that happened add up to x, when each error of es
    happens with probability c, independently; n components. *)
Fixpoint prob_sum (c : R) (n : nat) (es : list (list bool)) (x : list bool) : R :=
  match es with
  | [] => if list_eq_dec bool_dec x (repeat false n) then 1 else 0
  | e :: es => (1 - c) * prob_sum c n es x + c * prob_sum c n es (vxor x e)
  end.

(** ** Sums and products over all vectors *)
Fixpoint vsum (n : nat) (f : list bool -> R) : R :=
  match n with O => f [] | S n => vsum n (fun x => f (false :: x)) + vsum n (fun x => f (true :: x)) end.
Fixpoint vall (n : nat) : list (list bool) :=
  match n with O => [[]] | S n => map (cons false) (vall n) ++ map (cons true) (vall n) end.
Definition rprod (l : list R) : R := fold_right Rmult 1 l.
Definition sgn (b : bool) : R := if b then -1 else 1.
Fixpoint chi (s x : list bool) : R :=
  match s, x with a :: s, b :: x => sgn (a && b) * chi s x | _, _ => 1 end.

Lemma vsum_ext n f h : (forall x, length x = n -> f x = h x) -> vsum n f = vsum n h.
Proof.
  revert f h. induction n as [|n IH]; intros f h H; [now apply H|]. cbn [vsum]. f_equal; apply IH; intros x Hx; apply H; cbn; now rewrite Hx.
Qed.
Lemma vsum_lin n a b f h : vsum n (fun x => a * f x + b * h x) = a * vsum n f + b * vsum n h.
Proof. revert f h. induction n as [|n IH]; intros f h; [reflexivity|]. cbn [vsum]. rewrite !IH. ring. Qed.
Lemma vsum_xor n : forall e f, length e = n -> vsum n (fun x => f (vxor x e)) = vsum n f.
Proof.
  induction n as [|n IH]; intros e f He; [destruct e; [reflexivity | discriminate]|]. destruct e as [|b e]; [discriminate|]. injection He as He. cbn [vsum vxor].
  rewrite (IH e (fun x => f (xorb false b :: x)) He), (IH e (fun x => f (xorb true b :: x)) He). destruct b; cbn; [apply Rplus_comm | reflexivity].
Qed.
Lemma chi_xor s : forall x e, length x = length s -> length e = length s -> chi s (vxor x e) = chi s x * chi s e.
Proof.
  induction s as [|a s IH]; intros x e Hx He; destruct x as [|b x], e as [|d e]; try discriminate; cbn [chi vxor]; [ring|].
  rewrite IH by (cbn in *; lia). destruct a, b, d; cbn; ring.
Qed.
Lemma chi_sq s x : chi s x * chi s x = 1.
Proof. revert x. induction s as [|a s IH]; intros [|b x]; cbn [chi]; try ring. transitivity ((sgn (a && b) * sgn (a && b)) * (chi s x * chi s x)); [ring|]. rewrite IH. destruct (a && b); cbn; ring. Qed.
Lemma chi_zero_r n s : chi s (repeat false n) = 1.
Proof. revert s. induction n as [|n IH]; intros [|a s]; cbn [chi repeat]; try reflexivity. rewrite IH, andb_false_r. cbn. ring. Qed.
Lemma chi_zero_l n x : chi (repeat false n) x = 1.
Proof. revert x. induction n as [|n IH]; intros [|a s]; cbn [chi repeat]; try reflexivity. rewrite IH. cbn. ring. Qed.
Definition is0 (x : list bool) : bool := forallb negb x.
Lemma is0_spec n x : length x = n -> is0 x = true <-> x = repeat false n.
Proof.
  revert n. induction x as [|b x IH]; intros [|n] H; try discriminate; cbn; [split; reflexivity|]. injection H as H. destruct b; cbn [negb andb]; [split; discriminate|]. fold (is0 x). rewrite (IH n H). split; [now intros -> | now intros [= ->]].
Qed.
Lemma chi_sum n : forall x, length x = n -> vsum n (fun s => chi s x) = if is0 x then 2 ^ n else 0.
Proof.
  induction n as [|n IH]; intros x Hx; (destruct x as [|b x]; try discriminate); [reflexivity|]. injection Hx as Hx. cbn [vsum chi is0 forallb].
  fold (is0 x). rewrite (vsum_ext n (fun s => sgn (false && b) * chi s x) (fun s => 1 * chi s x + 0 * 1)) by (intros; cbn; ring).
  rewrite (vsum_ext n (fun s => sgn (true && b) * chi s x) (fun s => sgn b * chi s x + 0 * 1)) by (intros; cbn; ring).
  rewrite !vsum_lin, IH by exact Hx. destruct b, (is0 x); cbn; ring.
Qed.
(** ** The transform of the distribution *)
Lemma prob_transform c n es s : length s = n -> (forall e, In e es -> length e = n) ->
  vsum n (fun x => chi s x * prob_sum c n es x) = rprod (map (fun e => 1 - c + c * chi s e) es).
Proof.
  intros Hs. induction es as [|e es IH]; intros He.
  - cbn [map rprod fold_right prob_sum]. clear -Hs. revert s Hs. induction n as [|n IH]; intros s Hs; (destruct s as [|b s]; try discriminate).
    + cbn. ring.
    + injection Hs as Hs. cbn [vsum]. rewrite (vsum_ext n _ (fun x => chi s x * (if list_eq_dec bool_dec x (repeat false n) then 1 else 0))).
      2:{ intros x _. cbn [chi repeat]. rewrite andb_false_r. destruct (list_eq_dec _ (_ :: _) _) as [E|E], (list_eq_dec _ x _) as [E'|E']; try (injection E as E; contradiction); try (destruct E; congruence); cbn; ring. }
      rewrite IH by exact Hs. rewrite (vsum_ext n (fun x => chi (b :: s) (true :: x) * _) (fun x => 0 * 0 + 0 * 0)).
      2:{ intros x _. destruct (list_eq_dec _ (_ :: _) _) as [E|E]; [discriminate|]. ring. }
      rewrite (vsum_lin n 0 0). ring.
  - cbn [map]. unfold rprod. cbn [fold_right]. fold (rprod (map (fun e => 1 - c + c * chi s e) es)). rewrite <- IH by (intros; apply He; now right). cbn [prob_sum].
    assert (Le : length e = n) by (apply He; now left).
    rewrite (vsum_ext n _ (fun x => (1 - c) * (chi s x * prob_sum c n es x) + c * (chi s x * prob_sum c n es (vxor x e)))) by (intros; ring).
    rewrite vsum_lin.
    assert (K : vsum n (fun x => chi s x * prob_sum c n es (vxor x e)) = chi s e * vsum n (fun x => chi s x * prob_sum c n es x)).
    { rewrite (vsum_ext n _ (fun x => chi s e * (chi s (vxor x e) * prob_sum c n es (vxor x e)) + 0 * 1)).
      - rewrite vsum_lin. rewrite (vsum_xor n e (fun x => chi s x * prob_sum c n es x) Le). ring.
      - intros x Hx. rewrite chi_xor by congruence. transitivity (chi s x * prob_sum c n es (vxor x e) * (chi s e * chi s e)); [rewrite chi_sq; ring | ring]. }
    rewrite K. ring.
Qed.
Lemma chi_comm s x : chi s x = chi x s.
Proof. revert x. induction s as [|a s IH]; intros [|b x]; cbn [chi]; try reflexivity. now rewrite IH, andb_comm. Qed.
Lemma vsum_swap n m f : vsum n (fun x => vsum m (fun y => f x y)) = vsum m (fun y => vsum n (fun x => f x y)).
Proof.
  revert f. induction n as [|n IH]; intros f; [reflexivity|]. cbn [vsum]. rewrite !IH. clear IH.
  assert (K : forall g h, vsum m g + vsum m h = vsum m (fun y => g y + h y)).
  { intros g h. rewrite (vsum_ext m (fun y => g y + h y) (fun y => 1 * g y + 1 * h y)) by (intros; ring). rewrite vsum_lin. ring. }
  apply K.
Qed.
Lemma vxor_length a : forall b, length b = length a -> length (vxor a b) = length a.
Proof. induction a as [|x a IH]; intros [|y b] H; try discriminate; [reflexivity|]. cbn in *. now rewrite IH by lia. Qed.
Lemma vxor_is0 a : forall b, length b = length a -> is0 (vxor a b) = true -> b = a.
Proof.
  induction a as [|x a IH]; intros [|y b] H K; try discriminate; [reflexivity|]. cbn in *. apply andb_true_iff in K. destruct K as [K1 K2]. apply eq_add_S in H. rewrite (IH b H K2). f_equal. now destruct x, y.
Qed.
Lemma vxor_self a : is0 (vxor a a) = true.
Proof. induction a as [|x a IH]; [reflexivity|]. cbn. unfold is0 in IH. rewrite IH. now destruct x. Qed.
Lemma vsum_pick n x f : length x = n -> vsum n (fun y => (if is0 (vxor x y) then 2 ^ n else 0) * f y) = 2 ^ n * f x.
Proof.
  intros Hx. transitivity (2 ^ n * vsum n (fun y => (if is0 (vxor x y) then 1 else 0) * f y)).
  { rewrite (vsum_ext n _ (fun y => 2 ^ n * ((if is0 (vxor x y) then 1 else 0) * f y) + 0 * 1)); [rewrite vsum_lin; ring|]. intros y _. destruct (is0 _); ring. }
  f_equal. revert n f Hx. induction x as [|b x IH]; intros n f Hx; destruct n as [|n]; try discriminate; [cbn; ring|]. injection Hx as Hx. cbn [vsum vxor].
  assert (Z : forall h : list bool -> R, (forall y, h y = 0) -> vsum n h = 0).
  { intros h K. rewrite (vsum_ext n h (fun x => 0 * 0 + 0 * 0)) by (intros; rewrite K; ring). rewrite (vsum_lin n 0 0). ring. }
  destruct b.
  - rewrite Z by (intros; cbn; ring). rewrite Rplus_0_l. exact (IH n (fun y => f (true :: y)) Hx).
  - rewrite (Z (fun y => _ * f (true :: y))) by (intros; cbn; ring). rewrite Rplus_0_r. exact (IH n (fun y => f (false :: y)) Hx).
Qed.
(** inversion *)
Lemma vsum_inverse n (D : list bool -> R) x : length x = n -> vsum n (fun s => chi s x * vsum n (fun y => chi s y * D y)) = 2 ^ n * D x.
Proof.
  intros Hx. rewrite <- (vsum_pick n x D Hx).
  rewrite (vsum_ext n _ (fun s => vsum n (fun y => chi s x * chi s y * D y))).
  - rewrite vsum_swap. apply vsum_ext. intros y Hy. rewrite (vsum_ext n _ (fun s => D y * chi s (vxor x y) + 0 * 1)).
    + rewrite vsum_lin. rewrite (chi_sum n (vxor x y)) by (rewrite vxor_length; congruence). ring.
    + intros s Hs. rewrite chi_xor by congruence. ring.
  - intros s _. transitivity (chi s x * vsum n (fun y => chi s y * D y) + 0 * vsum n (fun _ => 1)); [ring|]. rewrite <- vsum_lin. apply vsum_ext. intros. ring.
Qed.
(** ** The product over all non-zero errors *)
Lemma rprod_app a b : rprod (a ++ b) = rprod a * rprod b.
Proof. unfold rprod. induction a as [|x a IH]; cbn; [ring|]. rewrite IH. ring. Qed.
Lemma rprod_perm a b : Permutation a b -> rprod a = rprod b.
Proof. unfold rprod. induction 1; cbn; try congruence. ring. Qed.
Definition factor (r : R) (s e : list bool) : R := (1 + r) / 2 + (1 - r) / 2 * chi s e.
Lemma product_all r n : forall s, length s = S n -> is0 s = false -> rprod (map (factor r s) (vall (S n))) = r ^ (2 ^ n).
Proof.
  assert (P : forall s, rprod (map (factor r s) (vall (length s))) * rprod (map (fun e => (1 + r) / 2 - (1 - r) / 2 * chi s e) (vall (length s))) = r ^ (2 ^ length s)).
  { intros s. assert (L : length (vall (length s)) = (2 ^ length s)%nat).
    { generalize (length s). induction n0 as [|m IH]; [reflexivity|]. cbn [vall]. rewrite app_length, !map_length, IH. cbn. lia. }
    rewrite <- L. generalize (vall (length s)). induction l as [|e l IH]; [cbn; ring|]. unfold rprod in *. cbn [map fold_right length pow]. rewrite <- IH. unfold factor at 1.
    assert (S : ((1 + r) / 2 + (1 - r) / 2 * chi s e) * ((1 + r) / 2 - (1 - r) / 2 * chi s e) = r).
    { transitivity ((1 + r) / 2 * ((1 + r) / 2) - (1 - r) / 2 * ((1 - r) / 2) * (chi s e * chi s e)); [field|]. rewrite chi_sq. field. }
    set (A := fold_right Rmult 1 (map (factor r s) l)). set (B := fold_right Rmult 1 (map _ l)).
    transitivity (((1 + r) / 2 + (1 - r) / 2 * chi s e) * ((1 + r) / 2 - (1 - r) / 2 * chi s e) * (A * B)); [ring | rewrite S; reflexivity]. }
  induction n as [|n IH]; intros s Hs Z; (destruct s as [|b s]; [discriminate|]); injection Hs as Hs; cbn [vall]; rewrite map_app, rprod_app, !map_map.
  - destruct s; [|discriminate]. destruct b; [|discriminate]. cbn. unfold factor. cbn. field.
  - destruct b.
    + rewrite <- Hs. change (map (cons false) (vall n) ++ map (cons true) (vall n)) with (vall (S n)). rewrite <- Hs. rewrite <- P. f_equal; f_equal; apply map_ext; intros e; unfold factor; cbn [chi sgn andb]; field.
    + cbn [is0 forallb negb andb] in Z. fold (is0 s) in Z. change (map (cons false) (vall n) ++ map (cons true) (vall n)) with (vall (S n)).
      rewrite (map_ext (fun x => factor r (false :: s) (false :: x)) (factor r s)) by (intros e; unfold factor; cbn [chi sgn andb]; field).
      rewrite (map_ext (fun x => factor r (false :: s) (true :: x)) (factor r s)) by (intros e; unfold factor; cbn [chi sgn andb]; field).
      rewrite IH by assumption. rewrite <- pow_add. f_equal. cbn. lia.
Qed.
Lemma vall_spec n e : In e (vall n) <-> length e = n.
Proof.
  revert e. induction n as [|n IH]; intros e; cbn [vall].
  - split; [intros [<-|[]]; reflexivity|]. destruct e; [now left | discriminate].
  - rewrite in_app_iff, !in_map_iff. split.
    + intros [(x & <- & H)|(x & <- & H)]; apply IH in H; cbn; now rewrite H.
    + destruct e as [|b e]; [discriminate|]. intros [= H]. destruct b; [right | left]; exists e; split; auto; now apply IH.
Qed.
Lemma NoDup_vall n : NoDup (vall n).
Proof.
  induction n as [|n IH]; [repeat constructor; intros []|]. cbn [vall]. apply NoDup_app_intro.
  - apply FinFun.Injective_map_NoDup; [congruence | exact IH].
  - apply FinFun.Injective_map_NoDup; [congruence | exact IH].
  - intros x H1 H2. apply in_map_iff in H1, H2. destruct H1 as (a & <- & _), H2 as (b & E & _). discriminate.
Qed.
Lemma pow_real_root x n : 0 <= x -> pow_real x (1 / 2 ^ n) ^ (2 ^ n) = x.
Proof.
  intros Hx. unfold pow_real. destruct (Rle_dec x 0).
  - rewrite pow_i; [lra|]. apply Nat.neq_0_lt_0. apply Nat.pow_nonzero. lia.
  - rewrite <- Rpower_pow by apply exp_pos. rewrite Rpower_mult.
    replace (1 / 2 ^ n * INR (2 ^ n)) with 1; [apply Rpower_1; lra|]. rewrite pow_INR. cbn [INR]. replace (1 + 1) with 2 by ring. field. apply pow_nonzero. lra.
Qed.

(** Applying each non-zero error independently, with the component probability
    computed from the mixing probability p, is: with probability p, replace the error
    by a uniformly random one of the 2^n, otherwise nothing. *)
Theorem C31_mixing_channel : forall p n es, 0 <= p <= 1 -> (1 <= n)%nat ->
  NoDup es -> (forall e, In e es <-> length e = n /\ e <> repeat false n) ->
  forall x, length x = n ->
  prob_sum (mix_probability_to_independent_component_probability p n) n es x =
  (if list_eq_dec bool_dec x (repeat false n) then 1 - p + p / 2 ^ n else p / 2 ^ n).
Proof.
  intros p n es Hp Hn Hd He x Hx. set (c := mix_probability_to_independent_component_probability p n).
  assert (P : Permutation (repeat false n :: es) (vall n)).
  { apply NoDup_Permutation; [constructor; [|exact Hd] | apply NoDup_vall |].
    - intros K. apply He in K. now destruct K.
    - intros e. rewrite vall_spec. cbn [In]. rewrite He. split; [intros [<-|[H _]]; [apply repeat_length | exact H]|]. intros H. destruct (list_eq_dec bool_dec e (repeat false n)); auto. }
  set (r := 1 - 2 * c).
  assert (F : forall s, length s = n -> vsum n (fun y => chi s y * prob_sum c n es y) = if is0 s then 1 else 1 - p).
  { intros s Hs. rewrite prob_transform by (try exact Hs; intros e K; now apply He in K).
    transitivity (rprod (map (factor r s) (vall n))).
    - rewrite <- (rprod_perm _ _ (Permutation_map (factor r s) P)). unfold rprod. cbn [map fold_right]. unfold factor at 1. rewrite chi_zero_r. replace ((1 + r) / 2 + (1 - r) / 2 * 1) with 1 by field. rewrite Rmult_1_l. f_equal. apply map_ext. intros e. unfold factor, r. field.
    - destruct (is0 s) eqn:Z.
      + apply (is0_spec n s Hs) in Z. rewrite Z. rewrite (map_ext (factor r (repeat false n)) (fun _ => 1)) by (intros e; unfold factor; rewrite chi_zero_l; field).
        unfold rprod. clear. induction (vall n) as [|e l IH]; [reflexivity|]. cbn [map fold_right]. rewrite IH. ring.
      + destruct n as [|n]; [lia|]. rewrite product_all by assumption. unfold r, c, mix_probability_to_independent_component_probability.
        replace (S n - 1)%nat with n by lia. replace (1 - 2 * (1 / 2 - 1 / 2 * pow_real (1 - p) (1 / 2 ^ n))) with (pow_real (1 - p) (1 / 2 ^ n)) by field. apply pow_real_root. lra. }
  assert (T : 2 ^ n <> 0) by (apply pow_nonzero; lra).
  pose proof (vsum_inverse n (prob_sum c n es) x Hx) as Inv.
  assert (K : vsum n (fun s => chi s x * vsum n (fun y => chi s y * prob_sum c n es y)) = (1 - p) * (if is0 x then 2 ^ n else 0) + p).
  { rewrite (vsum_ext n _ (fun s => (1 - p) * chi s x + p * ((if list_eq_dec bool_dec s (repeat false n) then 1 else 0)))).
    - rewrite vsum_lin, chi_sum by exact Hx. f_equal. transitivity (p * vsum n (fun s => chi (repeat false n) s * prob_sum c n [] s)).
      + f_equal. apply vsum_ext. intros s _. rewrite chi_zero_l. cbn [prob_sum]. ring.
      + rewrite prob_transform by (try apply repeat_length; intros e []). cbn. ring.
    - intros s Hs. rewrite F by exact Hs. destruct (list_eq_dec _ s _) as [E|E].
      + rewrite (proj2 (is0_spec n s Hs) E), E, chi_zero_l. ring.
      + destruct (is0 s) eqn:Z; [apply (is0_spec n s Hs) in Z; contradiction|]. ring. }
  rewrite K in Inv. apply (Rmult_eq_reg_l (2 ^ n)); [|exact T]. rewrite <- Inv. destruct (list_eq_dec _ x _) as [E|E].
  - rewrite (proj2 (is0_spec n x Hx) E). field. exact T.
  - destruct (is0 x) eqn:Z; [apply (is0_spec n x Hx) in Z; contradiction|]. field. exact T.
Qed.
Print Assumptions C31_mixing_channel.

(** ** The 31 errors emitted for one pair measurement *)
(** the Pauli an error applies to qubit q, as (x, z) bits *)
Definition error_on (e : list target) (q : nat) : bits :=
  fold_right (fun t b => match t with TP p x => if Nat.eqb x q then bxor (pbits p) b else b | _ => b end) bzero e.
(** an error as five bits: the two Paulis on the pair and the flip of the result *)
Definition error_vector (q1 q2 a : nat) (e : list target) : list bool :=
  [fst (error_on e q1); snd (error_on e q1); fst (error_on e q2); snd (error_on e q2); fst (error_on e a)].

Lemma noise_errors es p : forall c, filter is_noise (flatten c) = [] ->
  filter is_noise (flatten (fold_left (fun c e => append_operation c "CORRELATED_ERROR" e [Mix p 5]) es c)) = map (fun e => mkI "E" e [Mix p 5]) es.
Proof.
  assert (G : forall es c, filter is_noise (flatten (fold_left (fun c e => append_operation c "CORRELATED_ERROR" e [Mix p 5]) es c)) = filter is_noise (flatten c) ++ map (fun e => mkI "E" e [Mix p 5]) es).
  { clear es. induction es as [|e es IH]; intros c; [cbn; now rewrite app_nil_r|]. cbn [fold_left]. rewrite IH. unfold append_operation. rewrite append_nf by reflexivity. rewrite flatten_app, filter_app, <- app_assoc. reflexivity. }
  intros c H. now rewrite G, H.
Qed.
Theorem C31_errors_emitted : forall p1 q1 p2 q2 a mp, q1 <> q2 -> q1 <> a -> q2 <> a ->
  exists es : list (list target),
    filter is_noise (flatten (parity_measurement_with_correlated_measurement_noise (TP p1 q1) (TP p2 q2) a mp)) = map (fun e => mkI "E" e [Mix mp 5]) es /\
    (forall e t, In e es -> In t e -> exists p q, t = TP p q /\ (q = q1 \/ q = q2 \/ q = a /\ p = PX)) /\
    NoDup (map (error_vector q1 q2 a) es) /\
    (forall v, In v (map (error_vector q1 q2 a) es) <-> length v = 5%nat /\ v <> repeat false 5) /\
    (forall x p, length x = 5%nat -> 0 <= p <= 1 ->
       prob_sum (mix_probability_to_independent_component_probability p 5) 5 (map (error_vector q1 q2 a) es) x =
       if list_eq_dec bool_dec x (repeat false 5) then 1 - p + p / 32 else p / 32).
Proof.
  intros p1 q1 p2 q2 a mp N1 N2 N3. exists (correlated_errors q1 q2 a).
  assert (E1 : Nat.eqb q1 q2 = false) by now apply Nat.eqb_neq. assert (E2 : Nat.eqb q1 a = false) by now apply Nat.eqb_neq. assert (E3 : Nat.eqb q2 a = false) by now apply Nat.eqb_neq.
  assert (E1' : Nat.eqb q2 q1 = false) by (apply Nat.eqb_neq; auto). assert (E2' : Nat.eqb a q1 = false) by (apply Nat.eqb_neq; auto). assert (E3' : Nat.eqb a q2 = false) by (apply Nat.eqb_neq; auto).
  assert (V : map (error_vector q1 q2 a) (correlated_errors q1 q2 a) =
    filter (fun v => negb (is0 v)) (flat_map (fun a => flat_map (fun b => map (fun m => a ++ b ++ m) [[false]; [true]]) [[false; false]; [true; false]; [true; true]; [false; true]]) [[false; false]; [true; false]; [true; true]; [false; true]])).
  { unfold correlated_errors, opt_paulis, error_vector, error_on. cbn [flat_map map app filter length Nat.eqb negb fold_right is0 forallb andb]. rewrite ?Nat.eqb_refl, ?E1, ?E2, ?E3, ?E1', ?E2', ?E3'. reflexivity. }
  assert (D : NoDup (map (error_vector q1 q2 a) (correlated_errors q1 q2 a))).
  { rewrite V. apply NoDup_filter. apply (NoDup_map_inv (fun v => fold_left (fun n (b : bool) => 2 * n + (if b then 1 else 0))%nat v O)). cbn. repeat constructor; cbn; intuition discriminate. }
  assert (S : forall v, In v (map (error_vector q1 q2 a) (correlated_errors q1 q2 a)) <-> length v = 5%nat /\ v <> repeat false 5).
  { intros v. rewrite V, filter_In. split.
    - intros [H1 H2]. assert (L : length v = 5%nat) by (cbn in H1; decompose [or] H1; try contradiction; subst v; reflexivity). split; [exact L|]. intros ->. discriminate.
    - intros [L Z]. split.
      + destruct v as [|b1 [|b2 [|b3 [|b4 [|b5 [|]]]]]]; try discriminate. destruct b1, b2, b3, b4, b5; cbn; tauto.
      + destruct (is0 v) eqn:E; [apply (is0_spec 5 v L) in E; contradiction | reflexivity]. }
  split; [|split; [|split; [exact D|split; [exact S|]]]].
  - unfold parity_measurement_with_correlated_measurement_noise. rewrite append_M.
    + rewrite flatten_app, filter_app. change (filter is_noise (flatten [I (mkI "M" (qs [a]) [])])) with (@nil instr). rewrite app_nil_r. apply noise_errors.
      pose proof (both_gates (TP p1 q1) (TP p2 q2) a) as K. unfold both in K. change (append_operation [] "R" (qs [a]) []) with [I (mkI "R" (qs [a]) [])].
      destruct p1, p2; reflexivity.
    + apply errors_noM, couple_noM, couple_noM. repeat constructor. discriminate.
  - intros e t He Ht. unfold correlated_errors in He. apply filter_In in He. destruct He as [He _]. apply in_flat_map in He. destruct He as (x & Hx & He). apply in_flat_map in He. destruct He as (y & Hy & He). apply in_map_iff in He. destruct He as (z & <- & Hz).
    apply in_app_or in Ht. rewrite in_app_iff in Ht. cbn in Hx, Hy, Hz. decompose [or] Hx; decompose [or] Hy; decompose [or] Hz; try contradiction; subst x y z; cbn in Ht; decompose [or] Ht; try contradiction; subst t; eauto 7.
  - intros x p Hx Hp. rewrite (C31_mixing_channel p 5 _ Hp) by (try lia; assumption). replace (2 ^ 5) with 32 by (cbn; ring). reflexivity.
Qed.
Print Assumptions C31_errors_emitted.
(** The hypotheses are met, and the component probability is not trivial. *)
Example C31_example : mix_probability_to_independent_component_probability (3 / 4) 2 = 1 / 4 /\
  NoDup [[true; false]; [false; true]; [true; true]] /\ (forall e, In e [[true; false]; [false; true]; [true; true]] <-> length e = 2%nat /\ e <> repeat false 2).
Proof.
  split; [|split].
  - unfold mix_probability_to_independent_component_probability. pose proof (pow_real_root (1 - 3 / 4) 1 ltac:(lra)) as K. cbn [Nat.sub]. 
    assert (P : 0 <= pow_real (1 - 3 / 4) (1 / 2 ^ 1)) by (unfold pow_real; destruct (Rle_dec _ _); [lra | left; apply exp_pos]).
    set (r := pow_real (1 - 3 / 4) (1 / 2 ^ 1)) in *. replace (r ^ (2 ^ 1)) with (r * r) in K by (cbn; ring). assert ((r - 1/2) * (r + 1/2) = 0) by lra. assert (r = 1/2) by nra. lra.
  - repeat constructor; cbn; intuition discriminate.
  - intros e. split.
    + intros H. cbn in H. decompose [or] H; try contradiction; subst e; split; reflexivity || discriminate.
    + intros [L Z]. destruct e as [|[] [|[] [|]]]; try discriminate; cbn; tauto.
Qed.
