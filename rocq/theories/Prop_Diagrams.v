(** C56: iterating over circuits, splitting measurement products, laying out text. *)
From Coq Require Import QArith Qround Ascii.
From Verif Require Import Prelude Layout Stim Noise NoiseFacts Text Collect Diagrams.
Open Scope Z_scope.

(** ** Iteration *)
Lemma iter_item_flatten x : forall k, k <= 0 -> iter_item k x = flatten_item x.
Proof.
  induction x as [i|n body IH] using item_ind'; intros k Hk; cbn [iter_item flatten_item].
  - replace (k <=? 0) with true by lia. reflexivity.
  - replace (k <=? 0) with true by lia. do 2 f_equal. clear n. induction body as [|y body IHb]; [reflexivity|]. cbn [flat_map].
    rewrite IH by (try (now left); lia). rewrite IHb; [reflexivity|]. intros z Hz. apply IH. now right.
Qed.
(** Without only_repeat_block: every instruction that is executed, in order.  With it:
    the qubit declarations outside of the repeat blocks, and each block once. *)
Theorem C56_iterates : forall c nested, nested <= 0 -> iter_circuit c 1 nested = flatten c.
Proof.
  intros c k Hk. unfold iter_circuit, flatten. change (Z.to_nat 1) with 1%nat. cbn [repeat concat]. rewrite app_nil_r.
  induction c as [|x c IH]; [reflexivity|]. cbn [flat_map]. now rewrite iter_item_flatten, IH.
Qed.
Theorem C56_iterates_blocks : forall c,
  iter_circuit c 1 1 = flat_map (fun x => match x with I op => if (iname op =? "QUBIT_COORDS")%string then [op] else [] | Rep _ body => flatten body end) c.
Proof.
  intros c. unfold iter_circuit. change (Z.to_nat 1) with 1%nat. cbn [repeat concat]. rewrite app_nil_r.
  induction c as [|x c IH]; [reflexivity|]. cbn [flat_map]. rewrite IH. f_equal. destruct x as [op|n body]; [reflexivity|].
  cbn [iter_item]. change (1 <=? 0) with false. change (1 - 1) with 0. cbv iota. change (Z.to_nat 1) with 1%nat. cbn [repeat concat]. rewrite app_nil_r. unfold flatten.
  clear. induction body as [|y body IH]; [reflexivity|]. cbn [flat_map]. now rewrite iter_item_flatten, IH by lia.
Qed.
Example C56_iterates_example :
  let c := [I (mkI "QUBIT_COORDS" [TQ 0] []); I (mkI "R" [TQ 0] []); Rep 2 [I (mkI "H" [TQ 0] []); Rep 2 [I (mkI "X" [TQ 0] [])]]] in
  map iname (iter_circuit c 1 0) = ["QUBIT_COORDS"; "R"; "H"; "X"; "X"; "H"; "X"; "X"]%string /\
  map iname (iter_circuit c 1 1) = ["QUBIT_COORDS"; "H"; "X"; "X"]%string.
Proof. split; reflexivity. Qed.
Print Assumptions C56_iterates.
Print Assumptions C56_iterates_blocks.

(** ** Products *)
(** A product of factors as stim lists its targets: A*B*C *)
Fixpoint product_targets (g : list target) : list target :=
  match g with [] => [] | [t] => [t] | t :: r => t :: TComb :: product_targets r end.
Lemma last_snoc {A} (l : list A) x d : last (l ++ [x]) d = x.
Proof. apply last_last. Qed.
Lemma split_factor done g t : t <> TComb -> split_step (done ++ [g]) t = Ok (done ++ [g ++ [t]; []]).
Proof.
  intros H. unfold split_step. rewrite last_last, removelast_last. destruct (done ++ [g]) eqn:E; [destruct done; discriminate|]. destruct t; try reflexivity. contradiction.
Qed.
Lemma split_comb done g h : split_step (done ++ [g; h]) TComb = Ok (done ++ [g]).
Proof.
  unfold split_step. change [g; h] with ([g] ++ [h]). rewrite app_assoc, removelast_last. destruct ((done ++ [g]) ++ [h]) eqn:E; [destruct done; discriminate|reflexivity].
Qed.
Lemma foldM_app {A B} (f : A -> B -> res A) l1 l2 a : foldM f (l1 ++ l2) a = let! b := foldM f l1 a in foldM f l2 b.
Proof. revert a. induction l1 as [|x l1 IH]; intros a; cbn [app foldM bind]; [reflexivity|]. destruct (f a x) as [b|e]; cbn [bind]; [apply IH|reflexivity]. Qed.
Lemma split_product g : g <> [] -> ~ In TComb g -> forall done pre, foldM split_step (product_targets g) (done ++ [pre]) = Ok (done ++ [pre ++ g; []]).
Proof.
  induction g as [|t g IH]; intros H1 H2 done pre; [contradiction|]. destruct g as [|u g].
  - cbn [product_targets foldM]. rewrite split_factor by (intros E; apply H2; now left). reflexivity.
  - change (product_targets (t :: u :: g)) with (t :: TComb :: product_targets (u :: g)). cbn [foldM].
    rewrite split_factor by (intros E; apply H2; now left). cbn [bind]. rewrite split_comb. cbn [bind].
    rewrite IH by (try discriminate; intros K; apply H2; now right). now rewrite <- app_assoc.
Qed.
Theorem C56_products : forall products, Forall (fun g => g <> [] /\ ~ In TComb g) products ->
  mpp_groups (flat_map product_targets products) = Ok products.
Proof.
  intros ps H. assert (K : forall done, foldM split_step (flat_map product_targets ps) (done ++ [[]]) = Ok (done ++ ps ++ [[]])).
  { induction H as [|g ps [H1 H2] H IH]; intros done; cbn [flat_map]; [reflexivity|]. rewrite foldM_app. rewrite split_product by assumption. cbn [bind app].
    change [g; []] with ([g] ++ [[]]). rewrite app_assoc, IH, <- app_assoc. reflexivity. }
  specialize (K []). cbn [app] in K. unfold mpp_groups. rewrite K. cbn [bind]. rewrite removelast_last. destruct (ps ++ [[]]) eqn:E; [destruct ps; discriminate|reflexivity].
Qed.
Example C56_products_example :
  mpp_groups [TP PX 0; TComb; TP PX 1; TP PY 2; TP PZ 3; TComb; TP PZ 4; TComb; TP PX 5] = Ok [[TP PX 0; TP PX 1]; [TP PY 2]; [TP PZ 3; TP PZ 4; TP PX 5]].
Proof. reflexivity. Qed.
Print Assumptions C56_products.

(** ** Text *)
(** The character in column x of line y of a text; blank beyond its end. *)
Definition char_at (s : string) (x y : Z) : ascii :=
  nth (Z.to_nat x) (list_ascii_of_string (nth (Z.to_nat y) (split newline s) ""%string)) " "%char.
(** Values at whole coordinates. *)
Definition at_whole (values : list ((Z * Z) * string)) : list (cplx * string) :=
  map (fun '((x, y), c) => ((inject_Z x, inject_Z y), c)) values.
(** The value s at column X covers column x: it is written so that it ends in column X. *)
Definition covers (X : Z) (s : string) (x : Z) : Prop := X - Z.of_nat (String.length s) < x <= X.
Record drawable (values : list ((Z * Z) * string)) : Prop := {
  dr_keys : NoDup (map fst values);
  dr_pos : forall x y s, In ((x, y), s) values -> 0 <= x /\ 0 <= y;
  dr_text : forall p s, In (p, s) values -> s <> ""%string /\ Forall (fun c => is_space c = false) (list_ascii_of_string s) }.
(** There is room for each value: it starts at column 0 or later, and no other value of
    the line ends where it is written. *)
Definition room (values : list ((Z * Z) * string)) : Prop :=
  forall x y s, In ((x, y), s) values -> Z.of_nat (String.length s) <= x + 1 /\
    forall x' s', In ((x', y), s') values -> x' < x -> ~ covers x s x'.

Lemma eat_ok k line rest : eat k line = Ok rest <-> line = repeat sp k ++ rest.
Proof.
  revert line. induction k as [|k IH]; intros line; cbn [eat repeat app]; [split; congruence|].
  destruct line as [|c line]; [split; discriminate|]. destruct (Ascii.eqb_spec c sp) as [->|N].
  - rewrite IH. split; congruence.
  - split; [discriminate|]. intros [= E _]. contradiction.
Qed.
Lemma eat_err k line e : eat k line = Err e -> e = AssertionError.
Proof. revert line. induction k as [|k IH]; intros line; cbn [eat]; [discriminate|]. destruct line as [|c line]; [congruence|]. destruct (Ascii.eqb c sp); [apply IH|congruence]. Qed.
Lemma length_list_ascii s : length (list_ascii_of_string s) = String.length s.
Proof. induction s as [|c s IH]; cbn; congruence. Qed.
Lemma cplx_eqb_whole x y x' y' : cplx_eqb (inject_Z x, inject_Z y) (inject_Z x', inject_Z y') = (x =? x') && (y =? y').
Proof.
  unfold cplx_eqb. cbn [fst snd]. unfold Qeq_bool, inject_Z. cbn [Qnum Qden]. rewrite !Z.mul_1_r.
  f_equal; [apply Bool.eq_iff_eq_true|apply Bool.eq_iff_eq_true]; rewrite Z.eqb_eq, <- Zeq_is_eq_bool; reflexivity.
Qed.
Lemma dget_whole values x y s : NoDup (map fst values) -> (dget cplx_eqb (inject_Z x, inject_Z y) (at_whole values) = Some s <-> In ((x, y), s) values).
Proof.
  induction values as [|[[x' y'] s'] values IH]; intros N; cbn [at_whole map dget]; [split; [discriminate|intros []]|].
  cbn [map fst] in N. inversion N as [|? ? N1 N2]; subst. fold (at_whole values). rewrite cplx_eqb_whole.
  destruct (Z.eqb_spec x x') as [->|Hx]; [destruct (Z.eqb_spec y y') as [->|Hy]|]; cbn [andb].
  - split; [intros [= ->]; now left|]. intros [[= ->]|H]; [reflexivity|]. exfalso. apply N1. apply in_map_iff. now exists ((x', y'), s).
  - rewrite IH by exact N2. split; [now right|]. intros [[= ->]|H]; [contradiction|exact H].
  - rewrite IH by exact N2. split; [now right|]. intros [[= ->]|H]; [contradiction|exact H].
Qed.

(** What column i of line y must hold once the values in columns below k are written. *)
Definition written (values : list ((Z * Z) * string)) (y k i : Z) (c : ascii) : Prop :=
  (exists X s, In ((X, y), s) values /\ X < k /\ covers X s i /\ c = nth (Z.to_nat (i - (X - Z.of_nat (String.length s) + 1))) (list_ascii_of_string s) sp) \/
  ((forall X s, In ((X, y), s) values -> X < k -> ~ covers X s i) /\ c = sp).
Definition line_ok values y k (line : list ascii) : Prop :=
  Z.of_nat (length line) = k /\ forall i, 0 <= i < k -> written values y k i (nth (Z.to_nat i) (rev line) sp).

Section Row.
  Context (values : list ((Z * Z) * string)) (D : drawable values) (y : Z).
  Lemma step_blank k line : 0 <= k -> line_ok values y k line -> (forall s, ~ In ((k, y), s) values) -> line_ok values y (k + 1) (sp :: line).
  Proof.
    intros Hk [L W] N. split; [cbn [length]; lia|]. intros i Hi. cbn [rev].
    destruct (Z.eq_dec i k) as [->|Hne].
    - rewrite app_nth2 by (rewrite rev_length; lia). rewrite rev_length. replace (Z.to_nat k - length line)%nat with O by lia. cbn [nth].
      right. split; [|reflexivity]. intros X s H1 H2 [_ H3]. assert (X = k) by lia. subst X. exact (N s H1).
    - rewrite app_nth1 by (rewrite rev_length; lia). destruct (W i ltac:(lia)) as [(X & s & A & B & C)|[A B]].
      + left. exists X, s. split; [exact A|]. split; [lia|exact C].
      + right. split; [|exact B]. intros X s H1 H2. destruct (Z.eq_dec X k) as [->|]; [exfalso; exact (N s H1)|]. apply A; [exact H1|lia].
  Qed.
  Lemma line_split (line : list ascii) n : (n <= length line)%nat -> line = rev (skipn (length line - n) (rev line)) ++ rev (firstn (length line - n) (rev line)).
  Proof. intros H. rewrite <- rev_app_distr, firstn_skipn, rev_involutive. reflexivity. Qed.
  Lemma all_sp (l : list ascii) : (forall i, (i < length l)%nat -> nth i l sp = sp) -> l = repeat sp (length l).
  Proof.
    induction l as [|c l IH]; intros H; [reflexivity|]. cbn [length repeat]. f_equal; [exact (H O ltac:(cbn; lia))|]. apply IH. intros i Hi. apply (H (S i)). cbn. lia.
  Qed.
  Lemma step_value k line s : 0 <= k -> line_ok values y k line -> In ((k, y), s) values ->
    (Z.of_nat (String.length s) <= k + 1 /\ forall x' s', In ((x', y), s') values -> x' < k -> ~ covers k s x') ->
    exists line', add_cell line (list_ascii_of_string s) = Ok line' /\ line_ok values y (k + 1) line'.
  Proof.
    intros Hk [L W] Hs [R1 R2]. destruct (dr_text _ D _ _ Hs) as [T1 T2].
    set (n := (String.length s - 1)%nat). assert (Hlen : (1 <= String.length s)%nat) by (destruct s; [contradiction|cbn; lia]).
    set (keep := firstn (length line - n) (rev line)).
    assert (E : line = repeat sp n ++ rev keep).
    { rewrite (line_split line n) at 1 by lia. fold keep. f_equal. set (t := skipn (length line - n) (rev line)).
      assert (Lt : length t = n) by (unfold t; rewrite skipn_length, rev_length; lia).
      rewrite (all_sp t) at 1; [|].
      - rewrite Lt. clear. induction n as [|n IH]; [reflexivity|]. cbn [repeat rev]. rewrite IH. clear. induction n as [|n IH]; [reflexivity|]. cbn [repeat app]. now rewrite IH.
      - intros i Hi. unfold t. rewrite <- (firstn_skipn (length line - n) (rev line)) in W.
        specialize (W (Z.of_nat (length line - n + i)) ltac:(lia)). rewrite Nat2Z.id in W. rewrite app_nth2 in W by (rewrite firstn_length, rev_length; lia).
        rewrite firstn_length, rev_length, Nat.min_l in W by lia. replace (length line - n + i - (length line - n))%nat with i in W by lia.
        destruct W as [(X & s' & A & B & C & _)|[_ B]]; [|exact B]. exfalso. apply (R2 X s' A B). unfold covers in *. unfold n in *. lia. }
    eexists. split.
    - unfold add_cell. rewrite length_list_ascii. fold n. rewrite (proj2 (eat_ok n line (rev keep)) E). reflexivity.
    - assert (Lk : length keep = (length line - n)%nat) by (unfold keep; rewrite firstn_length, rev_length; lia).
      split; [rewrite app_length, !rev_length, length_list_ascii; unfold n in Lk; lia|]. intros i Hi. rewrite rev_app_distr, !rev_involutive.
      destruct (Z_lt_le_dec i (k - Z.of_nat n)) as [H|H].
      + rewrite app_nth1 by lia. assert (Ek : nth (Z.to_nat i) keep sp = nth (Z.to_nat i) (rev line) sp).
        { rewrite <- (firstn_skipn (length line - n) (rev line)). fold keep. rewrite app_nth1 by lia. reflexivity. }
        rewrite Ek. destruct (W i ltac:(lia)) as [(X & s' & A & B & C)|[A B]].
        * left. exists X, s'. split; [exact A|]. split; [lia|exact C].
        * right. split; [|exact B]. intros X s' H1 H2 H3. destruct (Z.eq_dec X k) as [->|]; [|apply (A X s' H1); [lia|exact H3]].
          assert (s' = s). { pose proof (dr_keys _ D) as N. apply (dget_whole values k y s' N) in H1. apply (dget_whole values k y s N) in Hs. congruence. }
          subst s'. unfold covers in H3. unfold n in H. lia.
      + rewrite app_nth2 by lia. left. exists k, s. split; [exact Hs|]. split; [lia|]. split; [unfold covers; unfold n in H; lia|]. f_equal. unfold n in *. lia.
  Qed.
  Lemma row_ok : room values -> forall n k line, 0 <= k -> line_ok values y k line ->
    exists l, row_from (at_whole values) y (map (fun i => k + Z.of_nat i) (seq 0 n)) line = Ok l /\ Z.of_nat (length l) = k + Z.of_nat n /\
      forall i, 0 <= i < k + Z.of_nat n -> written values y (k + Z.of_nat n) i (nth (Z.to_nat i) l sp).
  Proof.
    intros R. induction n as [|n IH]; intros k line Hk H.
    - cbn [seq map row_from]. exists (rev line). split; [reflexivity|]. destruct H as [L W]. rewrite rev_length. replace (k + Z.of_nat 0) with k by lia. auto.
    - cbn [seq map row_from]. rewrite <- seq_shift, map_map. replace (k + Z.of_nat 0) with k by lia.
      rewrite (map_ext _ (fun i => (k + 1) + Z.of_nat i)) by (intros; lia).
      assert (C : exists line', add_cell line (cell (at_whole values) k y) = Ok line' /\ line_ok values y (k + 1) line').
      { unfold cell. destruct (dget _ _ _) as [s|] eqn:E.
        - apply dget_whole in E; [|apply (dr_keys _ D)]. apply step_value; auto.
        - exists (sp :: line). split; [reflexivity|]. apply step_blank; auto. intros s Hs. apply dget_whole in Hs; [congruence|apply (dr_keys _ D)]. }
      destruct C as (line' & -> & H'). cbn [bind]. destruct (IH (k + 1) line' ltac:(lia) H') as (l & E & Ll & W). exists l. split; [exact E|].
      replace (k + Z.of_nat (S n)) with (k + 1 + Z.of_nat n) by lia. auto.
  Qed.
  (** A line that was finished had room. *)
  Lemma row_room : forall n k line l, 0 <= k -> line_ok values y k line ->
    row_from (at_whole values) y (map (fun i => k + Z.of_nat i) (seq 0 n)) line = Ok l ->
    forall x s, In ((x, y), s) values -> k <= x < k + Z.of_nat n -> Z.of_nat (String.length s) <= x + 1 /\ forall x' s', In ((x', y), s') values -> x' < x -> ~ covers x s x'.
  Proof.
    induction n as [|n IH]; intros k line l Hk H E x s Hx Hr; [lia|]. cbn [seq map row_from] in E. rewrite <- seq_shift, map_map in E. replace (k + Z.of_nat 0) with k in E by lia.
    rewrite (map_ext _ (fun i => (k + 1) + Z.of_nat i)) in E by (intros; lia).
    destruct (add_cell line (cell (at_whole values) k y)) as [line'|] eqn:C; [|discriminate]. cbn [bind] in E.
    assert (Step : line_ok values y (k + 1) line' /\ forall s, In ((k, y), s) values -> Z.of_nat (String.length s) <= k + 1 /\ forall x' s', In ((x', y), s') values -> x' < k -> ~ covers k s x').
    { unfold cell in C. destruct (dget _ _ _) as [s0|] eqn:E0.
      - apply dget_whole in E0; [|apply (dr_keys _ D)].
        assert (R : Z.of_nat (String.length s0) <= k + 1 /\ forall x' s', In ((x', y), s') values -> x' < k -> ~ covers k s0 x').
        { unfold add_cell in C. destruct (eat _ _) as [rest|] eqn:Ee; [|discriminate]. apply eat_ok in Ee. rewrite length_list_ascii in Ee.
          assert (Hlen : (1 <= String.length s0)%nat) by (destruct (dr_text _ D _ _ E0) as [T _]; destruct s0; [contradiction|cbn; lia]).
          destruct H as [L W]. split.
          - rewrite Ee, app_length, repeat_length in L. lia.
          - intros x' s' Hs' Hlt Hc. assert (0 <= x') by (apply (dr_pos _ D) in Hs'; lia). specialize (W x' ltac:(lia)).
            assert (Hsp : nth (Z.to_nat x') (rev line) sp = sp).
            { destruct (le_lt_dec (length line) (Z.to_nat x')); [apply nth_overflow; now rewrite rev_length|]. rewrite rev_nth by assumption.
              rewrite Ee at 2. unfold covers in Hc. rewrite app_nth1 by (rewrite repeat_length; lia). apply nth_repeat. }
            rewrite Hsp in W. destruct W as [(X & t & A & B & Cv & Ch)|[A _]].
            + destruct (dr_text _ D _ _ A) as [T1 T2]. rewrite Forall_forall in T2. unfold covers in Cv.
              assert (Hin : In sp (list_ascii_of_string t)) by (rewrite Ch; apply nth_In; rewrite length_list_ascii; lia). specialize (T2 sp Hin). discriminate.
            + apply (A x' s' Hs' Hlt). unfold covers. assert ((1 <= String.length s')%nat) by (destruct (dr_text _ D _ _ Hs') as [T _]; destruct s'; [contradiction|cbn; lia]). lia. }
        split.
        + destruct (step_value k line s0 Hk H E0 R) as (l2 & C2 & H2). congruence.
        + intros s1 H1. assert (s1 = s0) by (pose proof (dr_keys _ D) as N; apply (dget_whole _ _ _ _ N) in H1; apply (dget_whole _ _ _ _ N) in E0; congruence). now subst.
      - injection C as <-. assert (N : forall s, ~ In ((k, y), s) values) by (intros s1 H1; apply dget_whole in H1; [congruence|apply (dr_keys _ D)]). split.
        + apply step_blank; auto.
        + intros s1 H1. exfalso. exact (N s1 H1). }
    destruct Step as [H' R]. destruct (Z.eq_dec x k) as [->|]; [now apply R|]. apply (IH (k + 1) line' l); auto; lia.
  Qed.
  Lemma row_err : forall xs line e, row_from (at_whole values) y xs line = Err e -> e = AssertionError.
  Proof.
    induction xs as [|x xs IH]; intros line e H; cbn [row_from] in H; [discriminate|]. destruct (add_cell _ _) eqn:E; cbn [bind] in H; [eapply IH; exact H|].
    injection H as <-. unfold add_cell in E. destruct (eat _ _) eqn:Ee; cbn [bind] in E; [discriminate|]. injection E as <-. now apply eat_err in Ee.
  Qed.
End Row.

(** *** Stripping *)
Lemma rstrip_snoc l c : rstrip (l ++ [c]) = if is_space c then rstrip l else l ++ [c].
Proof. unfold rstrip. rewrite rev_app_distr. cbn [rev app lstrip]. destruct (is_space c); [reflexivity|]. cbn [rev]. now rewrite rev_involutive. Qed.
Lemma rstrip_nth l : Forall (fun c => is_space c = true -> c = sp) l -> forall i, nth i (rstrip l) sp = nth i l sp.
Proof.
  induction l as [|c l IH] using rev_ind; intros H i; [reflexivity|]. apply Forall_app in H as [H1 H2]. rewrite rstrip_snoc. inversion H2 as [|? ? H3 _]; subst.
  destruct (is_space c) eqn:E; [|reflexivity]. rewrite (IH H1). rewrite (H3 eq_refl). destruct (le_lt_dec (length l) i).
  - rewrite nth_overflow by assumption. rewrite app_nth2 by assumption. destruct (i - length l)%nat as [|[|]]; reflexivity.
  - now rewrite app_nth1.
Qed.
Lemma rstrip_free l : ~ In newline l -> ~ In newline (rstrip l).
Proof.
  induction l as [|c l IH] using rev_ind; intros H; [exact H|]. rewrite rstrip_snoc. destruct (is_space c); [|exact H]. apply IH. intros K. apply H. apply in_or_app. now left.
Qed.
Lemma rstrip_last l : rstrip l = [] \/ exists l' c, rstrip l = l' ++ [c] /\ is_space c = false.
Proof. induction l as [|c l IH] using rev_ind; [now left|]. rewrite rstrip_snoc. destruct (is_space c) eqn:E; [exact IH|]. right. now exists l, c. Qed.
Lemma sol_app a b : string_of_list_ascii (a ++ b) = (string_of_list_ascii a ++ string_of_list_ascii b)%string.
Proof. induction a as [|c a IH]; cbn; [reflexivity|]. now rewrite IH. Qed.
Lemma sol_free a : ~ In newline a -> free newline (string_of_list_ascii a).
Proof. induction a as [|c a IH]; cbn; [auto|]. intros H. split; [|apply IH; tauto]. apply Ascii.eqb_neq. intros ->. tauto. Qed.
(** Lines joined by newlines, then stripped: the same lines, except for empty lines at the end. *)
Lemma split_rows rows : Forall (fun l => ~ In newline l) rows ->
  exists n, (n <= length rows)%nat /\ rstrip (flat_map (fun l => rstrip l ++ [newline]) rows) = concat (map (fun l => rstrip l ++ [newline]) (firstn n rows)) ++ rstrip (nth n rows []) /\
    (forall m, (n < m)%nat -> rstrip (nth m rows []) = []).
Proof.
  induction rows as [|r rows IH] using rev_ind; intros H.
  - exists O. split; [cbn; lia|]. split; [reflexivity|]. intros m _. now destruct m.
  - apply Forall_app in H as [H1 H2]. inversion H2 as [|? ? H3 _]; subst. destruct (IH H1) as (n & Ln & E & Z).
    rewrite flat_map_app. cbn [flat_map]. rewrite app_nil_r, app_assoc, rstrip_snoc. change (is_space newline) with true. cbv iota.
    destruct (rstrip_last r) as [En|(l' & c & Ec & Hc)].
    + rewrite En, app_nil_r, E. exists n. split; [rewrite app_length; cbn; lia|]. destruct (Nat.eq_dec n (length rows)) as [->|].
      * split; [|intros m Hm; rewrite nth_overflow by (rewrite app_length; cbn; lia); reflexivity].
        rewrite nth_middle, En, (nth_overflow rows) by lia. change (rstrip []) with (@nil ascii). rewrite firstn_all, firstn_app, firstn_all, Nat.sub_diag. cbn [firstn]. rewrite !app_nil_r. reflexivity.
      * split; [rewrite firstn_app; replace (n - length rows)%nat with O by lia; cbn [firstn]; rewrite app_nil_r, app_nth1 by lia; reflexivity|].
        intros m Hm. destruct (le_lt_dec (length rows) m) as [L2|L2]; [|rewrite app_nth1 by exact L2; now apply Z]. destruct (Nat.eq_dec m (length rows)) as [->|]; [rewrite nth_middle; exact En|].
        rewrite nth_overflow by (rewrite app_length; cbn; lia). reflexivity.
    + exists (length rows). split; [rewrite app_length; lia|]. rewrite Ec, app_assoc, rstrip_snoc, Hc. split.
      * rewrite firstn_app, firstn_all, Nat.sub_diag. cbn [firstn]. rewrite app_nil_r, nth_middle, Ec, app_assoc. now rewrite flat_map_concat_map.
      * intros m Hm. rewrite nth_overflow by (rewrite app_length; cbn; lia). reflexivity.
Qed.
Lemma split_concat ls : Forall (fun l => ~ In newline l) ls -> forall tl, ~ In newline tl ->
  split newline (string_of_list_ascii (concat (map (fun l => l ++ [newline]) ls) ++ tl)) = map string_of_list_ascii ls ++ [string_of_list_ascii tl].
Proof.
  induction ls as [|l ls IH]; intros H tl Ht; cbn [map concat app].
  - now apply split_free, sol_free.
  - inversion H as [|? ? H1 H2]; subst. rewrite <- !app_assoc. rewrite sol_app. cbn [app string_of_list_ascii]. rewrite split_join by (now apply sol_free). now rewrite IH.
Qed.
Lemma rows_lines rows : Forall (fun l => ~ In newline l) rows -> forall y,
  list_ascii_of_string (nth y (split newline (string_of_list_ascii (rstrip (flat_map (fun l => rstrip l ++ [newline]) rows)))) ""%string) = rstrip (nth y rows []).
Proof.
  intros H y. destruct (split_rows rows H) as (n & _ & E & Zr). rewrite E.
  assert (F1 : Forall (fun l => ~ In newline l) (map rstrip (firstn n rows))).
  { rewrite Forall_map, Forall_forall. rewrite Forall_forall in H. intros l Hl. apply rstrip_free, H. rewrite <- (firstn_skipn n rows). apply in_or_app. now left. }
  assert (F2 : ~ In newline (rstrip (nth n rows []))).
  { apply rstrip_free. destruct (le_lt_dec (length rows) n); [rewrite nth_overflow by assumption; intros []|]. rewrite Forall_forall in H. now apply H, nth_In. }
  pose proof (split_concat _ F1 _ F2) as S. rewrite map_map in S. rewrite S. clear S. rewrite map_map.
  destruct (lt_eq_lt_dec y (length (firstn n rows))) as [[L|L]|L].
  - rewrite app_nth1 by (now rewrite map_length). rewrite (nth_indep _ _ (string_of_list_ascii (rstrip []))) by (now rewrite map_length).
    rewrite (map_nth (fun l => string_of_list_ascii (rstrip l))). rewrite list_ascii_of_string_of_list_ascii. f_equal.
    rewrite <- (firstn_skipn n rows) at 2. now rewrite app_nth1.
  - subst y. rewrite app_nth2 by (rewrite map_length; lia). rewrite map_length, Nat.sub_diag. cbn [nth]. rewrite list_ascii_of_string_of_list_ascii.
    rewrite firstn_length. destruct (le_lt_dec n (length rows)); [now rewrite Nat.min_l|]. rewrite Nat.min_r by lia. rewrite !nth_overflow by lia. reflexivity.
  - rewrite nth_overflow by (rewrite app_length, map_length; cbn; lia). cbn [list_ascii_of_string]. symmetry. rewrite firstn_length in L.
    destruct (le_lt_dec n (length rows)); [apply Zr; lia|]. rewrite nth_overflow by lia. reflexivity.
Qed.

(** *** Whole coordinates *)
Lemma int_of_whole x : int_of (inject_Z x) = x.
Proof. unfold int_of, inject_Z. cbn [Qnum Qden]. now rewrite Z.quot_1_r. Qed.
Lemma Qle_bool_whole x y : Qle_bool (inject_Z x) (inject_Z y) = (x <=? y).
Proof. unfold Qle_bool, inject_Z. cbn [Qnum Qden]. now rewrite !Z.mul_1_r. Qed.
Lemma qmax_whole l : forall x, exists m, qmax (inject_Z x) (map inject_Z l) = inject_Z m /\ In m (x :: l) /\ forall z, In z (x :: l) -> z <= m.
Proof.
  induction l as [|a l IH]; intros x; unfold qmax in *; cbn [map fold_left].
  - exists x. split; [reflexivity|]. split; [now left|]. intros z [->|[]]. lia.
  - rewrite Qle_bool_whole. destruct (Z.leb_spec a x).
    + destruct (IH x) as (m & E & I1 & I2). exists m. split; [exact E|]. split; [destruct I1; [now left|right; now right]|]. intros z [->|[->|Hz]]; [apply I2; now left| |apply I2; now right].
      specialize (I2 x ltac:(now left)). lia.
    + destruct (IH a) as (m & E & I1 & I2). exists m. split; [exact E|]. split; [destruct I1; [right; now left|right; now right]|]. intros z [->|[->|Hz]]; [|apply I2; now left|apply I2; now right].
      specialize (I2 a ltac:(now left)). lia.
Qed.
Lemma size_whole (l : list Z) : (forall z, In z l -> 0 <= z) ->
  exists w, int_of (match map inject_Z l with [] => 0 | x :: r => qmax x r end + 1)%Q = w /\ 0 < w /\ forall z, In z l -> z < w.
Proof.
  intros H. destruct l as [|x l]; cbn [map].
  - exists 1. split; [reflexivity|]. split; [lia|]. intros z [].
  - destruct (qmax_whole l x) as (m & E & I1 & I2). rewrite E. exists (m + 1). split; [|split; [specialize (H m I1); lia|intros z Hz; specialize (I2 z Hz); lia]].
    change 1%Q with (inject_Z 1). unfold int_of, Qplus, inject_Z. cbn [Qnum Qden]. rewrite Z.quot_1_r. lia.
Qed.
Lemma mapM_err {A B} (f : A -> res B) l e : mapM f l = Err e -> exists x, In x l /\ f x = Err e.
Proof.
  induction l as [|x l IH]; cbn [mapM]; [discriminate|]. destruct (f x) eqn:E; cbn [bind]; [|intros [= <-]; exists x; split; [now left|exact E]].
  destruct (mapM f l); cbn [bind]; [discriminate|]. intros [= <-]. destruct (IH eq_refl) as (z & Hz & Ez). exists z. split; [now right|exact Ez].
Qed.
Lemma mapM_nth {A B} (f : A -> res B) l r : mapM f l = Ok r -> length r = length l /\ forall i a b, (i < length l)%nat -> f (nth i l a) = Ok (nth i r b).
Proof.
  revert r. induction l as [|x l IH]; intros r; cbn [mapM].
  - intros [= <-]. split; [reflexivity|]. intros i a b Hi. cbn in Hi. lia.
  - destruct (f x) eqn:E; cbn [bind]; [|discriminate]. destruct (mapM f l) eqn:El; cbn [bind]; [|discriminate]. intros [= <-]. destruct (IH _ eq_refl) as [L N]. split; [cbn; congruence|].
    intros [|i] p q Hi; cbn [nth]; [exact E|]. apply N. cbn in Hi. lia.
Qed.

(** The text holds every value, ending in its column of its line, and blanks elsewhere. *)
Theorem C56_text : forall values, drawable values -> room values ->
  exists s, diagram_2d (at_whole values) = Ok s /\
    forall x y, 0 <= x -> 0 <= y ->
      (forall X v, In ((X, y), v) values -> covers X v x -> char_at s x y = nth (Z.to_nat (x - (X - Z.of_nat (String.length v) + 1))) (list_ascii_of_string v) " "%char) /\
      ((forall X v, In ((X, y), v) values -> ~ covers X v x) -> char_at s x y = " "%char).
Proof.
  intros values D R. unfold diagram_2d.
  assert (A1 : forallb (fun '((a, _), _) => Qeq_bool a (inject_Z (int_of a))) (at_whole values) = true).
  { apply forallb_forall. intros [[a b] s] H. apply in_map_iff in H as ([[x y] t] & [= <- <- <-] & H). rewrite int_of_whole. apply Qeq_bool_iff. reflexivity. }
  assert (A2 : forallb (fun '((_, b), _) => Qeq_bool b (inject_Z (int_of b))) (at_whole values) = true).
  { apply forallb_forall. intros [[a b] s] H. apply in_map_iff in H as ([[x y] t] & [= <- <- <-] & H). rewrite int_of_whole. apply Qeq_bool_iff. reflexivity. }
  assert (A3 : forallb (fun '((a, b), _) => Qle_bool 0 a && Qle_bool 0 b) (at_whole values) = true).
  { apply forallb_forall. intros [[a b] s] H. apply in_map_iff in H as ([[x y] t] & [= <- <- <-] & H). apply (dr_pos _ D) in H. change 0%Q with (inject_Z 0). rewrite !Qle_bool_whole. lia. }
  rewrite A1, A2, A3. cbn [assert_ bind].
  replace (map (fun v : Q * Q * string => fst (fst v)) (at_whole values)) with (map inject_Z (map (fun v => fst (fst v)) values)) by (unfold at_whole; rewrite !map_map; apply map_ext; now intros [[? ?] ?]).
  replace (map (fun v : Q * Q * string => snd (fst v)) (at_whole values)) with (map inject_Z (map (fun v => snd (fst v)) values)) by (unfold at_whole; rewrite !map_map; apply map_ext; now intros [[? ?] ?]).
  destruct (size_whole (map (fun v => fst (fst v)) values)) as (w & -> & Hw & Ww). { intros z Hz. apply in_map_iff in Hz as ([[x y] t] & <- & H). apply (dr_pos _ D) in H. cbn. lia. }
  destruct (size_whole (map (fun v => snd (fst v)) values)) as (h & -> & Hh & Wh). { intros z Hz. apply in_map_iff in Hz as ([[x y] t] & <- & H). apply (dr_pos _ D) in H. cbn. lia. }
  assert (Row : forall y, exists l, row_from (at_whole values) y (zrange 0 w) [] = Ok l /\ Z.of_nat (length l) = w /\ forall i, 0 <= i < w -> written values y w i (nth (Z.to_nat i) l sp)).
  { intros y. unfold zrange. destruct (row_ok values D y R (Z.to_nat (w - 0)) 0 [] ltac:(lia)) as (l & E & L & W); [split; [reflexivity|intros i Hi; lia]|].
    exists l. replace (0 + Z.of_nat (Z.to_nat (w - 0))) with w in * by lia. auto. }
  destruct (mapM _ _) as [rows|e] eqn:M.
  2:{ apply mapM_err in M as (y & _ & M). destruct (Row y) as (l & E & _). congruence. }
  cbn [bind]. destruct (mapM_nth _ _ _ M) as [Lr Nr]. rewrite length_zrange in Lr, Nr. replace (Z.to_nat (h - 0)) with (Z.to_nat h) in * by (f_equal; lia).
  assert (Nz : forall i, (i < Z.to_nat h)%nat -> nth i (zrange 0 h) 0 = Z.of_nat i).
  { intros i Hi. unfold zrange. rewrite (nth_indep _ 0 (0 + Z.of_nat 0)) by (rewrite map_length, seq_length; lia). rewrite (map_nth (fun i => 0 + Z.of_nat i)). rewrite seq_nth by lia. lia. }
  assert (Rows : forall i, (i < Z.to_nat h)%nat -> Z.of_nat (length (nth i rows [])) = w /\ forall j, 0 <= j < w -> written values (Z.of_nat i) w j (nth (Z.to_nat j) (nth i rows []) sp)).
  { intros i Hi. specialize (Nr i 0 [] Hi). rewrite Nz in Nr by exact Hi. destruct (Row (Z.of_nat i)) as (l & E & L & W). rewrite E in Nr. injection Nr as <-. auto. }
  assert (Chars : forall l, In l rows -> Forall (fun c => is_space c = false \/ c = sp) l).
  { intros l Hl. apply (In_nth _ _ []) in Hl as (i & Hi & <-). rewrite Lr in Hi. destruct (Rows i Hi) as [L W]. apply Forall_forall. intros c Hc. apply (In_nth _ _ sp) in Hc as (j & Hj & <-).
    specialize (W (Z.of_nat j) ltac:(lia)). rewrite Nat2Z.id in W. destruct W as [(X & s & A & _ & C & ->)|[_ ->]]; [|now right]. left.
    destruct (dr_text _ D _ _ A) as [_ T]. rewrite Forall_forall in T. apply T, nth_In. rewrite length_list_ascii. unfold covers in C. lia. }
  assert (Free : Forall (fun l => ~ In newline l) rows).
  { apply Forall_forall. intros l Hl Hn. specialize (Chars l Hl). rewrite Forall_forall in Chars. destruct (Chars _ Hn) as [K|K]; discriminate. }
  eexists. split; [reflexivity|]. intros x y Hx Hy. unfold char_at. rewrite (rows_lines rows Free).
  assert (Ch : nth (Z.to_nat x) (rstrip (nth (Z.to_nat y) rows [])) " "%char = nth (Z.to_nat x) (nth (Z.to_nat y) rows []) sp).
  { apply rstrip_nth. destruct (le_lt_dec (length rows) (Z.to_nat y)); [rewrite nth_overflow by assumption; constructor|].
    eapply Forall_impl; [|apply Chars, nth_In; eassumption]. intros c [K|K] K2; congruence. }
  rewrite Ch. clear Ch. destruct (Z_lt_le_dec y h) as [Hyh|Hyh].
  2:{ rewrite (nth_overflow rows) by lia. split; [|intros _; now destruct (Z.to_nat x)]. intros X v Hv. specialize (Wh y). rewrite in_map_iff in Wh. assert (y < h) by (apply Wh; now exists ((X, y), v)). lia. }
  destruct (Rows (Z.to_nat y) ltac:(lia)) as [L W]. rewrite Z2Nat.id in W by lia.
  destruct (Z_lt_le_dec x w) as [Hxw|Hxw].
  2:{ rewrite nth_overflow by lia. split; [|reflexivity]. intros X v Hv [_ Hc]. specialize (Ww X). rewrite in_map_iff in Ww. assert (X < w) by (apply Ww; now exists ((X, y), v)). lia. }
  specialize (W x ltac:(lia)). destruct W as [(X & s & A & B & C & E)|[A E]].
  - split.
    + intros X' v Hv Hc. assert (X' = X /\ v = s) as [-> ->]; [|exact E].
      destruct (R X y s A) as [_ R1]. destruct (R X' y v Hv) as [_ R2]. destruct (Ztrichotomy X X') as [K|[K|K]].
      * exfalso. apply (R2 X s A K). unfold covers in *. lia.
      * subst X'. split; [reflexivity|]. pose proof (dr_keys _ D) as N. apply (dget_whole _ _ _ _ N) in A. apply (dget_whole _ _ _ _ N) in Hv. congruence.
      * exfalso. apply (R1 X' v Hv ltac:(lia)). unfold covers in *. lia.
    + intros K. exfalso. exact (K X s A C).
  - split.
    + intros X v Hv Hc. exfalso. apply (A X v Hv); [|exact Hc]. apply Ww. apply in_map_iff. now exists ((X, y), v).
    + intros _. exact E.
Qed.
(** Values that do not fit are refused, never overwritten. *)
Theorem C56_text_refused : forall values, drawable values -> ~ room values -> diagram_2d (at_whole values) = Err AssertionError.
Proof.
  intros values D NR. destruct (diagram_2d (at_whole values)) as [s|e] eqn:E; unfold diagram_2d in E.
  - exfalso. apply NR. do 3 (destruct (forallb _ _); [|discriminate]; cbn [assert_ bind] in E).
    replace (map (fun v : Q * Q * string => fst (fst v)) (at_whole values)) with (map inject_Z (map (fun v => fst (fst v)) values)) in E by (unfold at_whole; rewrite !map_map; apply map_ext; now intros [[? ?] ?]).
    replace (map (fun v : Q * Q * string => snd (fst v)) (at_whole values)) with (map inject_Z (map (fun v => snd (fst v)) values)) in E by (unfold at_whole; rewrite !map_map; apply map_ext; now intros [[? ?] ?]).
    destruct (size_whole (map (fun v => fst (fst v)) values)) as (w & Ew & Hw & Ww). { intros z Hz. apply in_map_iff in Hz as ([[x y] t] & <- & H). apply (dr_pos _ D) in H. cbn. lia. }
    destruct (size_whole (map (fun v => snd (fst v)) values)) as (h & Eh & Hh & Wh). { intros z Hz. apply in_map_iff in Hz as ([[x y] t] & <- & H). apply (dr_pos _ D) in H. cbn. lia. }
    rewrite Ew, Eh in E. destruct (mapM _ _) as [rows|] eqn:M; [|discriminate]. intros x y s' Hs.
    assert (0 <= x /\ 0 <= y) as [Hx Hy] by (now apply (dr_pos _ D) in Hs).
    assert (Hyh : y < h) by (apply Wh, in_map_iff; now exists ((x, y), s')). assert (Hxw : x < w) by (apply Ww, in_map_iff; now exists ((x, y), s')).
    destruct (row_from (at_whole values) y (zrange 0 w) []) as [l|e] eqn:Er.
    + unfold zrange in Er. eapply (row_room values D y _ 0 [] l); [lia|split; [reflexivity|intros i Hi; lia]|exact Er|exact Hs|lia].
    + exfalso. destruct (mapM_nth _ _ _ M) as [_ N]. destruct (In_nth (zrange 0 h) y 0) as (i & Hi & Ei); [apply in_zrange; lia|]. specialize (N i 0 [] Hi). rewrite Ei, Er in N. discriminate.
  - do 3 (destruct (forallb _ _); [|cbn [assert_ bind] in E; congruence]; cbn [assert_ bind] in E).
    destruct (mapM _ _) as [rows|e'] eqn:M; cbn [bind] in E; [discriminate|]. injection E as <-. apply mapM_err in M as (y & _ & M). apply row_err in M. now subst.
Qed.
Example C56_text_example :
  let values := [((3, 0), "ab"%string); ((1, 2), "c"%string)] in
  drawable values /\ room values /\ diagram_2d (at_whole values) = Ok ("  ab" ++ String newline (String newline " c"))%string.
Proof.
  cbv zeta. split; [split|split; [|reflexivity]].
  - repeat constructor; cbn; intuition discriminate.
  - intros x y s [[= <- <- _]|[[= <- <- _]|[]]]; lia.
  - intros p s [[= _ <-]|[[= _ <-]|[]]]; split; try discriminate; repeat constructor.
  - intros x y s [[= <- <- <-]|[[= <- <- <-]|[]]]; cbn; (split; [lia|]); intros x' s' [[= <- _]|[[= <- _]|[]]]; unfold covers; cbn; lia.
Qed.
Print Assumptions C56_text.
Print Assumptions C56_text_refused.
