(** Shared vocabulary: exceptions as values, lists, stable sorting, xor sums. *)
From Coq Require Export String ZArith Lia Bool Permutation Sorting.Sorted List.
From Coq Require Import Ascii.
Export ListNotations.
Open Scope Z_scope.
Open Scope list_scope.

Global Arguments Z.mul : simpl never.
Global Arguments Z.add : simpl never.
Global Arguments Z.sub : simpl never.
Global Arguments Z.div : simpl never.
Global Arguments Z.modulo : simpl never.

Ltac dlia := Z.div_mod_to_equations; lia.

(** ** Python exceptions as values *)
Inductive exn :=
| NotImplementedError | AssertionError | KeyError | ValueError | TypeError
| ZeroDivisionError | IndexError | RuntimeError
| OutOfFuel.  (* not a Python exception: marks a loop model run out of fuel *)

Inductive res (A : Type) :=
| Ok (a : A)
| Err (e : exn).
Arguments Ok {A} a.
Arguments Err {A} e.

Definition bind {A B} (m : res A) (f : A -> res B) : res B :=
  match m with Ok a => f a | Err e => Err e end.

Notation "'let!' x ':=' m 'in' k" := (bind m (fun x => k))
  (at level 200, x pattern, m at level 100, k at level 200).

Definition assert_ (b : bool) : res unit := if b then Ok tt else Err AssertionError.

Fixpoint mapM {A B} (f : A -> res B) (l : list A) : res (list B) :=
  match l with
  | [] => Ok []
  | x :: r => let! y := f x in let! ys := mapM f r in Ok (y :: ys)
  end.

Lemma mapM_ok {A B} (f : A -> res B) (g : A -> B) l :
  (forall x, In x l -> f x = Ok (g x)) -> mapM f l = Ok (map g l).
Proof.
  induction l as [|a l IH]; intros H; simpl; [reflexivity|].
  rewrite H by (left; reflexivity). simpl.
  rewrite IH by (intros; apply H; right; assumption). reflexivity.
Qed.

Definition is_ok {A} (r : res A) : bool := match r with Ok _ => true | Err _ => false end.

(** Python's [range(a, b)] for integers. *)
Definition zrange (a b : Z) : list Z :=
  map (fun i => a + Z.of_nat i) (seq 0 (Z.to_nat (b - a))).

Lemma in_zrange a b x : In x (zrange a b) <-> a <= x < b.
Proof.
  unfold zrange. rewrite in_map_iff. split.
  - intros (i & <- & Hi). apply in_seq in Hi. lia.
  - intros H. exists (Z.to_nat (x - a)). split; [lia|]. apply in_seq. lia.
Qed.

Lemma NoDup_map_inj {A B} (f : A -> B) l :
  (forall x y, In x l -> In y l -> f x = f y -> x = y) -> NoDup l -> NoDup (map f l).
Proof.
  intros Hinj Hnd. induction Hnd as [|a l Hna Hnd IH]; simpl; constructor.
  - intros Hin. apply in_map_iff in Hin. destruct Hin as (y & Hy & Hiny).
    apply Hinj in Hy; [subst; contradiction | right; assumption | left; reflexivity].
  - apply IH. intros x y Hx Hy. apply Hinj; right; assumption.
Qed.

Lemma NoDup_zrange a b : NoDup (zrange a b).
Proof.
  apply NoDup_map_inj; [intros; lia | apply seq_NoDup].
Qed.

Lemma length_zrange a b : length (zrange a b) = Z.to_nat (b - a).
Proof. unfold zrange. now rewrite map_length, seq_length. Qed.

Lemma NoDup_app_intro {A} (l1 l2 : list A) :
  NoDup l1 -> NoDup l2 -> (forall x, In x l1 -> In x l2 -> False) -> NoDup (l1 ++ l2).
Proof.
  intros H1 H2 Hd. induction H1 as [|a l Hna Hnd IH]; simpl; [assumption|].
  constructor.
  - rewrite in_app_iff. intros [H|H]; [contradiction | apply (Hd a); [left; reflexivity | assumption]].
  - apply IH. intros x Hx Hx2. apply (Hd x); [right; assumption | assumption].
Qed.

Lemma NoDup_app_inv {A} (l1 l2 : list A) :
  NoDup (l1 ++ l2) -> NoDup l1 /\ NoDup l2 /\ (forall x, In x l1 -> In x l2 -> False).
Proof.
  induction l1 as [|a l1 IH]; simpl; intros H.
  - repeat split; [constructor | assumption | intros x []].
  - inversion H as [|? ? Hn Hnd]; subst. apply IH in Hnd. destruct Hnd as (H1 & H2 & Hd).
    repeat split; [constructor; [intros Hi; apply Hn, in_or_app; left; exact Hi | exact H1] | exact H2 |].
    intros x [<-|Hx] Hx2; [apply Hn, in_or_app; right; exact Hx2 | apply (Hd x Hx Hx2)].
Qed.

Lemma NoDup_flat_map {A B} (f : A -> list B) l :
  NoDup l -> (forall x, In x l -> NoDup (f x)) ->
  (forall x y b, In x l -> In y l -> In b (f x) -> In b (f y) -> x = y) ->
  NoDup (flat_map f l).
Proof.
  intros Hnd. induction Hnd as [|a l Hna Hnd IH]; simpl; intros Hf Hd; [constructor|].
  apply NoDup_app_intro.
  - apply Hf. left; reflexivity.
  - apply IH; [intros; apply Hf; right; assumption |].
    intros x y b Hx Hy. apply Hd; right; assumption.
  - intros b Hb Hb2. apply in_flat_map in Hb2. destruct Hb2 as (y & Hy & Hby).
    assert (a = y) by (apply (Hd a y b); [left; reflexivity | right; assumption | assumption | assumption]).
    subst. contradiction.
Qed.

Lemma NoDup_same_perm {A} (l1 l2 : list A) :
  NoDup l1 -> NoDup l2 -> (forall x, In x l1 <-> In x l2) -> Permutation l1 l2.
Proof. intros. apply NoDup_Permutation; assumption. Qed.

Lemma map_ext_in' {A B} (f g : A -> B) l : (forall x, In x l -> f x = g x) -> map f l = map g l.
Proof. apply map_ext_in. Qed.

Lemma length_flat_map_const {A B} (f : A -> list B) n l :
  (forall x, In x l -> length (f x) = n) -> length (flat_map f l) = (n * length l)%nat.
Proof.
  induction l as [|a l IH]; simpl; intros H; [lia|].
  rewrite app_length, H by (left; reflexivity). rewrite IH by (intros; apply H; right; assumption). lia.
Qed.

(** ** Stable sorting: Python's [sorted(xs, key=...)] *)
Section Sort.
  Context {A : Type} (leb : A -> A -> bool).

  Fixpoint insert (x : A) (l : list A) : list A :=
    match l with
    | [] => [x]
    | y :: r => if leb x y then x :: y :: r else y :: insert x r
    end.

  Definition isort (l : list A) : list A := fold_right insert [] l.

  Lemma insert_perm x l : Permutation (x :: l) (insert x l).
  Proof.
    induction l as [|y l IH]; simpl; [reflexivity|].
    destruct (leb x y); [reflexivity|].
    rewrite perm_swap. constructor. exact IH.
  Qed.

  Lemma isort_perm l : Permutation l (isort l).
  Proof.
    induction l as [|x l IH]; simpl; [constructor|].
    rewrite <- insert_perm. constructor. exact IH.
  Qed.

  Lemma in_isort x l : In x (isort l) <-> In x l.
  Proof.
    split; apply Permutation_in; [symmetry|]; apply isort_perm.
  Qed.

  Lemma isort_length l : length (isort l) = length l.
  Proof. symmetry. apply Permutation_length, isort_perm. Qed.

  Lemma NoDup_isort l : NoDup l -> NoDup (isort l).
  Proof. apply Permutation_NoDup, isort_perm. Qed.

  Hypothesis leb_total : forall x y, leb x y = true \/ leb y x = true.
  Hypothesis leb_trans : forall x y z, leb x y = true -> leb y z = true -> leb x z = true.

  Definition le_ x y := leb x y = true.

  Lemma insert_sorted x l : StronglySorted le_ l -> StronglySorted le_ (insert x l).
  Proof.
    induction l as [|y l IH]; simpl; intros H; [repeat constructor|].
    inversion H as [|? ? Hs Hf]; subst.
    destruct (leb x y) eqn:E.
    - constructor; [constructor; assumption|]. constructor; [exact E|].
      eapply Forall_impl; [|exact Hf]. intros z Hz. eapply leb_trans; eassumption.
    - constructor; [apply IH; assumption|].
      apply Forall_forall. intros z Hz.
      apply (Permutation_in z (Permutation_sym (insert_perm x l))) in Hz.
      destruct Hz as [<-|Hz].
      + destruct (leb_total x y) as [H1|H1]; [congruence | exact H1].
      + rewrite Forall_forall in Hf. apply Hf; exact Hz.
  Qed.

  Lemma isort_sorted l : StronglySorted le_ (isort l).
  Proof. induction l; simpl; [constructor | apply insert_sorted; assumption]. Qed.

  (** Sorted permutations of each other are equal when the key separates elements. *)
  Lemma sorted_unique l1 : forall l2,
    (forall x y, In x l1 -> In y l1 -> leb x y = true -> leb y x = true -> x = y) ->
    StronglySorted le_ l1 -> StronglySorted le_ l2 -> Permutation l1 l2 -> l1 = l2.
  Proof.
    induction l1 as [|a l1 IH]; intros l2 Hanti H1 H2 Hp.
    - apply Permutation_nil in Hp. congruence.
    - destruct l2 as [|b l2]; [apply Permutation_sym, Permutation_nil in Hp; discriminate|].
      inversion H1 as [|? ? Hs1 Hf1]; subst. inversion H2 as [|? ? Hs2 Hf2]; subst.
      rewrite Forall_forall in Hf1, Hf2.
      assert (Hab : a = b).
      { assert (Ha : In a (b :: l2)) by (eapply Permutation_in; [exact Hp | left; reflexivity]).
        assert (Hb : In b (a :: l1)) by (eapply Permutation_in; [apply Permutation_sym, Hp | left; reflexivity]).
        destruct Ha as [<-|Ha]; [reflexivity|]. destruct Hb as [<-|Hb]; [reflexivity|].
        apply Hanti; [left; reflexivity | right; assumption | apply Hf1; assumption | apply Hf2; assumption]. }
      subst b. f_equal. apply IH; try assumption.
      + intros x y Hx Hy. apply Hanti; right; assumption.
      + eapply Permutation_cons_inv; exact Hp.
  Qed.
End Sort.

(** Sorted output only depends on the set of elements. *)
Lemma isort_ext {A} (leb : A -> A -> bool) l1 l2 :
  (forall x y, leb x y = true \/ leb y x = true) ->
  (forall x y z, leb x y = true -> leb y z = true -> leb x z = true) ->
  (forall x y, In x l1 -> In y l1 -> leb x y = true -> leb y x = true -> x = y) ->
  Permutation l1 l2 -> isort leb l1 = isort leb l2.
Proof.
  intros Ht Htr Ha Hp. apply (sorted_unique leb).
  - intros x y Hx Hy. apply Ha; apply in_isort in Hx, Hy; assumption.
  - apply isort_sorted; assumption.
  - apply isort_sorted; assumption.
  - rewrite <- (isort_perm leb l1), <- (isort_perm leb l2). exact Hp.
Qed.

Lemma isort_id {A} (leb : A -> A -> bool) l :
  StronglySorted (le_ leb) l -> isort leb l = l.
Proof.
  induction l as [|a l IH]; intros H; [reflexivity|]. inversion H as [|? ? Hs Hf]; subst.
  simpl. rewrite IH by assumption. destruct l as [|b l]; [reflexivity|]. simpl.
  inversion Hf as [|? ? Hab]; subst. unfold le_ in Hab. now rewrite Hab.
Qed.

(** ** Xor sums *)
Definition xsum {A} (f : A -> bool) (l : list A) : bool :=
  fold_right (fun x acc => xorb (f x) acc) false l.

Lemma xsum_cons {A} (f : A -> bool) x l : xsum f (x :: l) = xorb (f x) (xsum f l).
Proof. reflexivity. Qed.

Lemma xsum_app {A} (f : A -> bool) l1 l2 : xsum f (l1 ++ l2) = xorb (xsum f l1) (xsum f l2).
Proof.
  induction l1 as [|a l1 IH]; simpl; [destruct (xsum f l2); reflexivity|].
  rewrite IH. destruct (f a), (xsum f l1), (xsum f l2); reflexivity.
Qed.

Lemma xsum_perm {A} (f : A -> bool) l1 l2 : Permutation l1 l2 -> xsum f l1 = xsum f l2.
Proof.
  induction 1 as [| |x y l|l1 l2 l3 _ IH1 _ IH2]; simpl; try congruence.
  destruct (f x), (f y), (xsum f l); reflexivity.
Qed.

Lemma xsum_ext {A} (f g : A -> bool) l : (forall x, In x l -> f x = g x) -> xsum f l = xsum g l.
Proof.
  induction l as [|a l IH]; simpl; intros H; [reflexivity|].
  rewrite H by (left; reflexivity). rewrite IH by (intros; apply H; right; assumption). reflexivity.
Qed.

Lemma xsum_false {A} (f : A -> bool) l : (forall x, In x l -> f x = false) -> xsum f l = false.
Proof.
  induction l as [|a l IH]; intros H; [reflexivity|]. simpl. rewrite H by (left; reflexivity).
  rewrite IH by (intros; apply H; right; assumption). reflexivity.
Qed.

Lemma xsum_xorb {A} (f g : A -> bool) l :
  xsum (fun x => xorb (f x) (g x)) l = xorb (xsum f l) (xsum g l).
Proof.
  induction l as [|a l IH]; simpl; [reflexivity|]. rewrite IH.
  destruct (f a), (g a), (xsum f l), (xsum g l); reflexivity.
Qed.

Lemma xsum_map {A B} (f : B -> bool) (g : A -> B) l : xsum f (map g l) = xsum (fun x => f (g x)) l.
Proof. induction l as [|a l IH]; simpl; [reflexivity|]. now rewrite IH. Qed.

Lemma xsum_flat_map {A B} (f : B -> bool) (g : A -> list B) l :
  xsum f (flat_map g l) = xsum (fun x => xsum f (g x)) l.
Proof.
  induction l as [|a l IH]; simpl; [reflexivity|]. rewrite xsum_app, IH. reflexivity.
Qed.

Lemma xsum_andb_l {A} (b : bool) (f : A -> bool) l :
  xsum (fun x => b && f x) l = b && xsum f l.
Proof.
  induction l as [|a l IH]; simpl; [now destruct b|]. rewrite IH.
  destruct b, (f a), (xsum f l); reflexivity.
Qed.

Lemma xsum_filter {A} (p f : A -> bool) l : xsum f (filter p l) = xsum (fun x => p x && f x) l.
Proof.
  induction l as [|a l IH]; simpl; [reflexivity|].
  destruct (p a); simpl; rewrite IH; [reflexivity|].
  now destruct (xsum _ l).
Qed.

Lemma xsum_swap {A B} (f : A -> B -> bool) l1 l2 :
  xsum (fun x => xsum (f x) l2) l1 = xsum (fun y => xsum (fun x => f x y) l1) l2.
Proof.
  induction l1 as [|a l1 IH]; simpl.
  - symmetry. apply xsum_false. reflexivity.
  - rewrite IH. rewrite <- xsum_xorb. reflexivity.
Qed.

(** Indicator sums: the parity of the number of hits. *)
Lemma xsum_single {A} (f : A -> bool) l a :
  NoDup l -> In a l -> (forall x, In x l -> x <> a -> f x = false) -> xsum f l = f a.
Proof.
  intros Hnd. induction Hnd as [|b l Hnb Hnd IH]; intros Hin Hz; [destruct Hin|].
  simpl. destruct Hin as [->|Hin].
  - rewrite (xsum_false f l); [apply xorb_false_r|].
    intros x Hx. apply Hz; [right; exact Hx|]. intros ->. contradiction.
  - rewrite IH; [|exact Hin|intros x Hx; apply Hz; right; exact Hx].
    rewrite (Hz b); [apply xorb_false_l | left; reflexivity | intros ->; contradiction].
Qed.

(** ** Finite sets of naturals as lists (Python frozenset of times) *)
Definition memb (x : nat) (l : list nat) : bool := existsb (Nat.eqb x) l.

Lemma memb_In x l : memb x l = true <-> In x l.
Proof.
  unfold memb. rewrite existsb_exists. split.
  - intros (y & Hy & E). apply Nat.eqb_eq in E. now subst.
  - intros H. exists x. split; [exact H | apply Nat.eqb_refl].
Qed.

Lemma memb_false x l : memb x l = false <-> ~ In x l.
Proof.
  rewrite <- memb_In. destruct (memb x l); split; intros; congruence || (exfalso; auto).
Qed.

(** Python's [a ^ b] on frozensets. *)
Definition symdiff (a b : list nat) : list nat :=
  filter (fun x => negb (memb x b)) a ++ filter (fun x => negb (memb x a)) b.

Lemma in_symdiff x a b : In x (symdiff a b) <-> (In x a /\ ~ In x b) \/ (In x b /\ ~ In x a).
Proof.
  unfold symdiff. rewrite in_app_iff, !filter_In, !negb_true_iff, !memb_false. tauto.
Qed.

Lemma NoDup_symdiff a b : NoDup a -> NoDup b -> NoDup (symdiff a b).
Proof.
  intros Ha Hb. apply NoDup_app_intro.
  - apply NoDup_filter, Ha.
  - apply NoDup_filter, Hb.
  - intros x. rewrite !filter_In, !negb_true_iff, !memb_false. tauto.
Qed.

Lemma xsum_symdiff f a b : NoDup a -> NoDup b ->
  xsum f (symdiff a b) = xorb (xsum f a) (xsum f b).
Proof.
  intros Ha Hb. unfold symdiff. rewrite xsum_app, !xsum_filter.
  assert (E : xsum (fun x => memb x b && f x) a = xsum (fun x => memb x a && f x) b).
  { rewrite <- !xsum_filter. apply xsum_perm. apply NoDup_Permutation; try apply NoDup_filter; try assumption.
    intros x. rewrite !filter_In, !memb_In. tauto. }
  assert (Ga : xsum (fun x => negb (memb x b) && f x) a = xorb (xsum f a) (xsum (fun x => memb x b && f x) a)).
  { rewrite <- xsum_xorb. apply xsum_ext. intros x _. destruct (memb x b), (f x); reflexivity. }
  assert (Gb : xsum (fun x => negb (memb x a) && f x) b = xorb (xsum f b) (xsum (fun x => memb x a && f x) b)).
  { rewrite <- xsum_xorb. apply xsum_ext. intros x _. destruct (memb x a), (f x); reflexivity. }
  rewrite Ga, Gb, E.
  destruct (xsum f a), (xsum f b), (xsum (fun x => memb x a && f x) b); reflexivity.
Qed.
