(** C36, C37, C38, C42, continued: what the nodes of the matching graph carry, which ids count
    as observables, answers of the wrong length, a missing decoder, and files whose columns
    are in another order. *)
From Coq Require Import QArith.
From Coq Require Import Ascii DecimalString.
From Verif Require Import Prelude Text Decoding Prop_Decoding Collect Prop_Collect.
Open Scope nat_scope.

(** ** C36: nodes *)
(** The last coordinates reported for detector k. *)
Definition coords_of (k : nat) (l : list event) (c : list Q) : Prop :=
  exists l1 l2, l = l1 ++ ECoords k c :: l2 /\ forall c', ~ In (ECoords k c') l2.

Lemma assoc_put {V} k (v : V) l k' : assoc Nat.eqb k' (put Nat.eqb k v l) = if Nat.eqb k' k then Some v else assoc Nat.eqb k' l.
Proof.
  induction l as [|[a b] l IH]; cbn [put assoc]; [destruct (Nat.eqb k' k); reflexivity|].
  destruct (Nat.eqb_spec k a) as [->|N]; cbn [assoc]; [destruct (Nat.eqb k' a); reflexivity|]. rewrite IH.
  destruct (Nat.eqb_spec k' a) as [->|N']; [|reflexivity]. destruct (Nat.eqb_spec a k); [congruence | reflexivity].
Qed.
Lemma node_coords u c g k : node_data (add_coords u c g) k = if Nat.eqb k u then Some (mkN match node_data g u with Some a => n_boundary a | None => false end (Some c)) else node_data g k.
Proof. unfold node_data, add_coords. cbn [g_nodes]. apply assoc_put. Qed.
Lemma node_add u v w q p g k : node_data (add_edge u v w q p g) k = node_data (touch_node v (touch_node u g)) k.
Proof. unfold node_data. now rewrite add_edge_nodes. Qed.

(** what the nodes carry after the events l *)
Definition carries (n : nat) (l : list event) (g : graph) : Prop :=
  node_data g n = Some (mkN true (Some [-1; -1; -1]%Q)) /\
  forall k, k <> n -> (forall a, node_data g k = Some a -> n_boundary a = false) /\ forall c, (exists a, node_data g k = Some a /\ n_coords a = Some c) <-> coords_of k l c.
Lemma carries_touch n l u g : carries n l g -> carries n l (touch_node u g).
Proof.
  intros [H1 H2]. split.
  - rewrite node_touch. destruct (Nat.eqb_spec n u) as [<-|]; [now rewrite H1 | exact H1].
  - intros k Hk. destruct (H2 k Hk) as [A B]. rewrite node_touch. destruct (Nat.eqb_spec k u) as [<-|]; [|auto]. split.
    + intros a [= <-]. destruct (node_data g k) as [a|]; [now apply A | reflexivity].
    + intros c. rewrite <- B. split.
      * intros (a & [= <-] & Q). destruct (node_data g k) as [a|]; [eauto | discriminate].
      * intros (a & Q & Qc). rewrite Q. eauto.
Qed.
Lemma carries_add n l u v w q p g : carries n l g -> carries n l (add_edge u v w q p g).
Proof.
  intros H. apply (carries_touch n l u) in H. apply (carries_touch n l v) in H. destruct H as [H1 H2]. split; [rewrite node_add; exact H1|].
  intros k Hk. rewrite node_add. exact (H2 k Hk).
Qed.
Lemma coords_of_other k l e c : (forall c', e <> ECoords k c') -> coords_of k (l ++ [e]) c <-> coords_of k l c.
Proof.
  intros He. split.
  - intros (l1 & l2 & E & H). destruct l2 as [|x l2 _] using rev_ind.
    + apply app_inj_tail in E. destruct E as [_ E]. now destruct (He c).
    + rewrite app_comm_cons, app_assoc in E. apply app_inj_tail in E. destruct E as [-> ->]. exists l1, l2. split; [reflexivity|]. intros c' K. apply (H c'). apply in_or_app. now left.
  - intros (l1 & l2 & -> & H). exists l1, (l2 ++ [e]). split; [now rewrite <- app_assoc|]. intros c' K. apply in_app_or in K. destruct K as [K|[K|[]]]; [now apply (H c') | now apply (He c')].
Qed.
Lemma carries_step n l g e g' : (forall k, In k (dets_of e) -> k < n) -> carries n l g -> graph_handler n g e = Ok g' -> carries n (l ++ [e]) g'.
Proof.
  intros Hk H. destruct e as [p d f|k c]; cbn [graph_handler].
  - intros E. assert (K : carries n l g').
    { unfold handle_error in E. destruct (Qeq_bool p 0); [injection E as <-; exact H|]. destruct d as [|x d]; [injection E as <-; exact H|].
      destruct (match x :: d with [u] => Ok (u, n) | [u; v] => Ok (u, v) | _ => Err NotImplementedError end) as [[u v]|]; [|discriminate]. cbn [bind] in E.
      assert (G : forall (r : res (Q * graph)), (forall q g1, r = Ok (q, g1) -> carries n l g1) -> (let! (p, g) := r in let! w := log_odds p in Ok (add_edge u v w (Some f) (Some p) g)) = Ok g' -> carries n l g').
      { intros [[q g1]|] Hr Q; [|discriminate]. cbn [bind] in Q. destruct (log_odds q) as [w|]; [|discriminate]. cbn [bind] in Q. injection Q as <-. apply carries_add. now apply (Hr q). }
      refine (G _ _ E). intros q g1. destruct (edge_data g u v) as [a|]; [|intros [= <- <-]; exact H].
      destruct (e_prob a); [|discriminate]. destruct (e_qubit_id a); [|discriminate]. cbn [bind]. destruct (same_set _ _); intros [= <- <-]; exact H. }
    destruct K as [K1 K2]. split; [exact K1|]. intros k Hn. destruct (K2 k Hn) as [A B]. split; [exact A|]. intros c. rewrite B. symmetry. apply coords_of_other. discriminate.
  - intros [= <-]. destruct H as [H1 H2]. pose proof (Hk k (or_introl eq_refl)) as Lk. split; [rewrite node_coords; destruct (Nat.eqb_spec n k); [lia | exact H1]|].
    intros j Hj. destruct (H2 j Hj) as [A B]. rewrite node_coords. destruct (Nat.eqb_spec j k) as [->|N].
    + split; [intros a [= <-]; cbn [n_boundary]; destruct (node_data g k) as [a|]; [now apply A | reflexivity]|].
      intros c'. split.
      * intros (a & [= <-] & [= <-]). exists l, []. split; [reflexivity | intros c' []].
      * intros (l1 & l2 & E & K). destruct l2 as [|x l2 _] using rev_ind; [apply app_inj_tail in E; destruct E as [_ [= ->]]; eexists; split; reflexivity|].
        rewrite app_comm_cons, app_assoc in E. apply app_inj_tail in E. destruct E as [_ <-]. exfalso. apply (K c). apply in_or_app. right. now left.
    + split; [exact A|]. intros c'. rewrite B. symmetry. apply coords_of_other. intros c0 [= Q _]. congruence.
Qed.
Lemma carries_fold n l2 : forall l1 g g', (forall e k, In e l2 -> In k (dets_of e) -> k < n) -> carries n l1 g -> foldM (graph_handler n) l2 g = Ok g' -> carries n (l1 ++ l2) g'.
Proof.
  induction l2 as [|e l2 IH]; intros l1 g g' Hk H; cbn [foldM]; [intros [= <-]; now rewrite app_nil_r|].
  destruct (graph_handler n g e) as [g1|] eqn:E; [|discriminate]. cbn [bind]. intros F.
  change (e :: l2) with ([e] ++ l2). rewrite app_assoc. apply (IH (l1 ++ [e]) g1 g'); [intros e' k He; apply Hk; now right | | exact F].
  apply (carries_step n l1 g e g1); [intros k; apply Hk; now left | exact H | exact E].
Qed.

(** The graph given to pymatching: the boundary node, and no other, is marked; every other
    node has the coordinates last reported for that detector, if any. *)
Theorem C36_nodes : forall (m : dmodel) h, small_args (unrolled m) -> detector_error_model_to_pymatching_graph m = Ok h ->
  (forall k, (exists a, node_data h k = Some a /\ n_boundary a = true) <-> k = num_detectors m) /\
  (forall k c, k <> num_detectors m -> (exists a, node_data h k = Some a /\ n_coords a = Some c) <-> coords_of k (reports (unrolled m)) c).
Proof.
  intros m h Hs E. unfold detector_error_model_to_pymatching_graph in E. destruct (detector_error_model_to_nx_graph m) as [g|] eqn:Eg; [|discriminate]. cbn [bind] in E.
  assert (K : carries (num_detectors m) (reports (unrolled m)) h).
  { assert (C : carries (num_detectors m) (reports (unrolled m)) g).
    { unfold detector_error_model_to_nx_graph in Eg. rewrite C33_flatten in Eg by assumption.
      change (reports (unrolled m)) with ([] ++ reports (unrolled m)). refine (carries_fold _ _ _ _ _ _ _ Eg).
      - intros e k He Hk. exact (reports_ids m e k He Hk).
      - split; [unfold node_data; cbn [g_nodes assoc]; now rewrite Nat.eqb_refl|]. intros k Hk. unfold node_data. cbn [g_nodes assoc]. destruct (Nat.eqb_spec k (num_detectors m)); [congruence|].
        split; [discriminate|]. intros c. split; [intros (a & Q & _); discriminate | intros (l1 & l2 & Q & _); destruct l1; discriminate]. }
    injection E as <-. apply carries_add.
    assert (F1 : forall ks g, carries (num_detectors m) (reports (unrolled m)) g -> carries (num_detectors m) (reports (unrolled m)) (fold_left (fun g k => touch_node k g) ks g)) by (induction ks as [|k ks IH]; intros g0 H0; [exact H0 | apply IH, carries_touch, H0]).
    assert (F2 : forall ks g, carries (num_detectors m) (reports (unrolled m)) g -> carries (num_detectors m) (reports (unrolled m)) (fold_left (fun g k => add_edge k (num_detectors m + 1) Huge None None g) ks g)) by (induction ks as [|k ks IH]; intros g0 H0; [exact H0 | apply IH, carries_add, H0]).
    apply F2, carries_touch, F1, C. }
  destruct K as [K1 K2]. split.
  - intros k. split; [|intros ->; eexists; split; [exact K1 | reflexivity]]. intros (a & Q & Qb). destruct (Nat.eq_dec k (num_detectors m)) as [|N]; [assumption|]. rewrite (proj1 (K2 k N) a Q) in Qb. discriminate.
  - intros k c N. exact (proj2 (K2 k N) c).
Qed.
Print Assumptions C36_nodes.
Example C36_nodes_example : small_args (unrolled ex_graph_model) /\ exists h, detector_error_model_to_pymatching_graph ex_graph_model = Ok h /\ num_detectors ex_graph_model = 3 /\ length (g_nodes h) = 5.
Proof. split; [intros x Hx; cbn in Hx; repeat (destruct Hx as [<-|Hx]; [cbn; (exact Logic.I || lia)|]); destruct Hx|]. vm_compute. eexists. repeat split; reflexivity. Qed.

(** ** C36: observables *)
(** Observable o is mentioned: as a target of an error, in a declaration, or inside a block. *)
Inductive mentions (o : nat) : ditem -> Prop :=
| in_error p ts : In (DObs o) ts -> mentions o (DError p ts)
| in_declaration ids : In o ids -> mentions o (DObservable ids)
| in_block n body x : In x body -> mentions o x -> mentions o (DRepeat n body).

Lemma above_iff l n : n < above l <-> exists k, In k l /\ n <= k.
Proof.
  induction l as [|k l IH]; cbn [above fold_right]; [split; [lia | intros (k & [] & _)]|]. fold (above l). rewrite Nat.max_lt_iff, IH. split.
  - intros [H|(j & Hj & L)]; [exists k; split; [now left | lia] | exists j; split; [now right | exact L]].
  - intros (j & [<-|Hj] & L); [left; lia | right; eauto].
Qed.
Lemma obs_ids_in ts k : In k (obs_ids ts) <-> In (DObs k) ts.
Proof. induction ts as [|t ts IH]; [reflexivity|]. destruct t; cbn [obs_ids In]; rewrite IH; split; intros H; try (destruct H as [H|H]); try discriminate; auto; try (injection H as ->; auto); now left; congruence. Qed.
Fixpoint depth (x : ditem) : nat := match x with DRepeat _ body => S (fold_right (fun y m => Nat.max (depth y) m) O body) | _ => O end.
Lemma obs_item_iff n : forall x, depth x <= n -> forall o, o < obs_item x <-> exists o', o <= o' /\ mentions o' x.
Proof.
  induction n as [n IHn] using lt_wf_ind. intros x Hx o. destruct x as [p ts|a k|a ids|ids|reps body]; cbn [obs_item].
  - rewrite above_iff. split; [intros (k & Hk & L); exists k; split; [exact L | constructor; now apply obs_ids_in] | intros (k & L & M); inversion M; subst; exists k; split; [now apply obs_ids_in | exact L]].
  - split; [lia | intros (o' & _ & M); inversion M].
  - split; [lia | intros (o' & _ & M); inversion M].
  - rewrite above_iff. split; [intros (k & Hk & L); exists k; split; [exact L | now constructor] | intros (k & L & M); inversion M; subst; eauto].
  - cbn [depth] in Hx. assert (B : forall y, In y body -> depth y < n).
    { intros y Hy. assert (depth y <= fold_right (fun y m => Nat.max (depth y) m) O body); [|lia]. clear -Hy. induction body as [|z body IH]; [destruct Hy|]. cbn [fold_right]. destruct Hy as [<-|Hy]; [lia | specialize (IH Hy); lia]. }
    assert (G : o < fold_right (fun y m => Nat.max (obs_item y) m) O body <-> exists y, In y body /\ o < obs_item y).
    { clear. induction body as [|z body IH]; cbn [fold_right]; [split; [lia | intros (y & [] & _)]|]. rewrite Nat.max_lt_iff, IH. split; [intros [H|(y & Hy & H)]; [exists z; split; [now left | exact H] | exists y; split; [now right | exact H]] | intros (y & [<-|Hy] & H); [now left | right; eauto]]. }
    rewrite G. split.
    + intros (y & Hy & H). apply (IHn (depth y) (B y Hy) y (Nat.le_refl _)) in H. destruct H as (o' & L & M). exists o'. split; [exact L | econstructor; eauto].
    + intros (o' & L & M). inversion M; subst. exists x. split; [assumption|]. match goal with K : In x body |- _ => apply (IHn (depth x) (B x K) x (Nat.le_refl _)) end. eauto.
Qed.
(** Every observable up to the largest one mentioned in the model is on some edge of the
    matching graph, and no others count. *)
Theorem C36_observables : forall (m : dmodel) g, small_args (unrolled m) -> detector_error_model_to_nx_graph m = Ok g ->
  (forall o, o < num_observables m <-> exists o' x, o <= o' /\ In x m /\ mentions o' x) /\
  exists h, detector_error_model_to_pymatching_graph m = Ok h /\
    forall x o, In x m -> mentions o x -> exists u v a ids, edge_data h u v = Some a /\ e_qubit_id a = Some ids /\ In o ids.
Proof.
  intros m g Hs Eg. assert (A : forall o, o < num_observables m <-> exists o' x, o <= o' /\ In x m /\ mentions o' x).
  { intros o. unfold num_observables. rewrite (obs_item_iff _ (DRepeat 1 m) (Nat.le_refl _)). split.
    - intros (o' & L & M). inversion M; subst. eauto.
    - intros (o' & x & L & Hx & M). exists o'. split; [exact L | econstructor; eauto]. }
  split; [exact A|]. destruct (C36_pymatching_graph m g Hs Eg) as (h & Eh & _ & _ & _ & _ & _ & K). exists h. split; [exact Eh|].
  intros x o Hx M. apply K, A. eauto.
Qed.
Print Assumptions C36_observables.
Example C36_observables_example : mentions 3 (DRepeat 2 [DObservable [1; 3]]) /\ num_observables [DRepeat 2 [DObservable [1; 3]]; DError (1 # 10) [DDet 0; DObs 2]] = 4 /\
  exists g, detector_error_model_to_nx_graph [DRepeat 2 [DObservable [1; 3]]; DError (1 # 10) [DDet 0; DObs 2]] = Ok g.
Proof. split; [eapply in_block; [now left | constructor; cbn; auto]|]. vm_compute. split; [reflexivity|]. eexists. reflexivity. Qed.

(** ** C37: answers of another length *)
(** An answer with one bit per observable is taken as it is, a single bit is taken for all
    observables; other lengths do not fit. *)
Definition taken (num_obs : nat) (answer row : list bool) : Prop :=
  length row = num_obs /\ (row = answer \/ length answer = 1 /\ length answer <> num_obs /\ forall b, In b row -> In b answer).
Theorem C37_answer_length : forall matcher dem num_dets num_obs ds h,
  detector_error_model_to_pymatching_graph dem = Ok h -> rect ds -> a_cols ds = num_dets ->
  (exists p, decode_using_pymatching matcher dem num_dets num_obs ds false = Ok p /\ a_cols p = num_obs /\
     Forall2 (fun r row => taken num_obs (matcher h (r ++ [false])) row) (a_rows ds) (a_rows p)) \/
  (decode_using_pymatching matcher dem num_dets num_obs ds false = Err ValueError /\
     exists r, In r (a_rows ds) /\ length (matcher h (r ++ [false])) <> num_obs /\ length (matcher h (r ++ [false])) <> 1).
Proof.
  intros matcher dem nd no [rows cols] h Eh Hr Hc. cbn in Hc. subst cols. unfold decode_using_pymatching. rewrite Eh. cbn [bind a_cols a_rows]. rewrite Nat.eqb_refl. cbn [bind assert_].
  assert (X : forall r, In r rows -> clear_last (np_resize r (nd + 1)) = r ++ [false]).
  { intros r Hin. pose proof (C37_pymatching_input (fun _ s => s) dem nd (nd + 1) (mkA [r] nd) h Eh) as K.
    cbn [a_rows a_cols map] in K. specialize (K ltac:(intros x [<-|[]]; exact (Hr r Hin)) eq_refl ltac:(intros x [<-|[]]; rewrite app_length; cbn [length]; rewrite (Hr r Hin); reflexivity)).
    unfold decode_using_pymatching in K. rewrite Eh in K. cbn [bind a_cols a_rows mapM] in K. rewrite Nat.eqb_refl in K. cbn [bind assert_] in K.
    destruct (fit (nd + 1) (clear_last (np_resize r (nd + 1)))) as [row|] eqn:Ef; [|discriminate]. cbn [bind] in K. injection K as ->.
    unfold fit in Ef. destruct (_ =? _) eqn:El; [congruence|]. exfalso. apply Nat.eqb_neq in El. apply El. clear.
    assert (L : length (np_resize r (nd + 1)) = nd + 1) by (destruct r; unfold np_resize; [apply repeat_length | rewrite map_length; apply seq_length]).
    unfold clear_last. destruct (np_resize r (nd + 1)) as [|b l] eqn:E; [cbn in L; lia|]. rewrite app_length. cbn [length].
    assert (Q : length (removelast (b :: l)) = length l) by (clear; revert b; induction l as [|x l IH]; intros b; [reflexivity|]; cbn [removelast length] in *; now rewrite IH). rewrite Q. cbn [length] in L. lia. }
  assert (F : forall a, (exists row, fit no a = Ok row /\ taken no a row) \/ (fit no a = Err ValueError /\ length a <> no /\ length a <> 1)).
  { intros a. unfold fit. destruct (Nat.eqb_spec (length a) no) as [El|N]; [left; exists a; split; [reflexivity | split; [exact El | now left]]|].
    destruct a as [|b [|c a]]; [right; split; [reflexivity|]; cbn in *; lia | | right; split; [reflexivity|]; cbn in *; lia].
    left. exists (repeat b no). split; [reflexivity|]. split; [apply repeat_length|]. right. split; [reflexivity|]. split; [exact N|]. intros x Hx. apply repeat_spec in Hx. now left. }
  clear Hr. induction rows as [|r rows IH].
  - left. exists (mkA [] no). cbn [mapM bind a_rows a_cols]. split; [reflexivity|]. split; [reflexivity | constructor].
  - cbn [mapM]. rewrite (X r (or_introl eq_refl)). destruct (F (matcher h (r ++ [false]))) as [(row & E & T)|(E & N1 & N2)]; rewrite E; cbn [bind].
    2:{ right. split; [reflexivity|]. exists r. split; [now left | auto]. }
    destruct IH as [(p & Ep & Cp & Fp)|(Ep & r' & Hr' & N1 & N2)]; [intros x Hx; apply X; now right | |].
    + left. destruct (mapM _ rows) as [rs|]; [|discriminate]. cbn [bind] in Ep |- *. injection Ep as <-. exists (mkA (row :: rs) no). split; [reflexivity|]. split; [reflexivity|]. constructor; [exact T | exact Fp].
    + right. destruct (mapM _ rows) as [rs|]; [discriminate|]. cbn [bind] in Ep |- *. split; [exact Ep|]. exists r'. split; [now right | auto].
Qed.
Print Assumptions C37_answer_length.
Example C37_answer_length_example : exists h, detector_error_model_to_pymatching_graph ex_graph_model = Ok h /\ rect (mkA [[true; false; false]] 3) /\
  decode_using_pymatching (fun _ _ => [true]) ex_graph_model 3 2 (mkA [[true; false; false]] 3) false = Ok (mkA [[true; true]] 2) /\
  decode_using_pymatching (fun _ _ => []) ex_graph_model 3 2 (mkA [[true; false; false]] 3) false = Err ValueError.
Proof. vm_compute. eexists. split; [reflexivity|]. split; [intros r [<-|[]]; reflexivity | split; reflexivity]. Qed.

(** ** C38: without the binary *)
Theorem C38_binary_missing : forall binary num_dets num_obs ds correlated,
  (a_cols ds <> num_dets -> decode_using_internal_decoder binary num_dets num_obs ds correlated = Err AssertionError) /\
  (a_cols ds = num_dets -> decode_using_internal_decoder None num_dets num_obs ds correlated = Err RuntimeError).
Proof.
  intros binary nd no ds co. unfold decode_using_internal_decoder. split; intros H.
  - apply Nat.eqb_neq in H. rewrite H. reflexivity.
  - rewrite H, Nat.eqb_refl. reflexivity.
Qed.
Print Assumptions C38_binary_missing.

(** ** C42: columns in another order *)
(** The row's value in column k is v: the last column with that name that the row reaches. *)
Definition column (names row : list string) (k v : string) : Prop :=
  exists i, nth_error names i = Some k /\ nth_error row i = Some v /\ forall j, i < j -> nth_error names j = Some k -> nth_error row j = None.
Lemma row_get_column names row k v : column names row k v -> row_get names row k = Ok v.
Proof.
  intros (i & Hn & Hr & Hlast). unfold row_get.
  assert (F : find (fun '(n, _) => (n =? k)%string) (rev (combine names row)) = Some (k, v)); [|now rewrite F].
  revert row i Hn Hr Hlast. induction names as [|x names IH]; intros row i Hn Hr Hlast; [destruct i; discriminate|].
  destruct row as [|y row]; [destruct i; discriminate|]. cbn [combine rev].
  assert (App : forall (l : list (string * string)) z, find (fun '(n, _) => (n =? k)%string) (l ++ [z]) = match find (fun '(n, _) => (n =? k)%string) l with Some r => Some r | None => find (fun '(n, _) => (n =? k)%string) [z] end).
  { clear. induction l as [|a l IHl]; intros z; [reflexivity|]. cbn [app find]. destruct a as [n m]. destruct (n =? k)%string; [reflexivity | apply IHl]. }
  rewrite App. destruct i as [|i].
  - cbn in Hn, Hr. injection Hn as ->. injection Hr as ->.
    assert (N : find (fun '(n, _) => (n =? k)%string) (rev (combine names row)) = None).
    { destruct (find _ _) as [[n w]|] eqn:Ef; [|reflexivity]. apply find_some in Ef. destruct Ef as [Hin E]. apply String.eqb_eq in E. subst n. apply in_rev in Hin. exfalso.
      apply In_nth_error in Hin. destruct Hin as (j & Hj). clear IH App.
      assert (K : nth_error names j = Some k /\ nth_error row j = Some w).
      { revert row j Hj Hlast. induction names as [|a names IH2]; intros row j Hj Hlast; [destruct j; discriminate|]. destruct row as [|b row]; [destruct j; discriminate|]. destruct j as [|j]; cbn in *; [injection Hj as -> ->; auto|].
        apply IH2; [exact Hj|]. intros j' Lj Hn'. destruct j' as [|j']; [lia|]. cbn in Hn'. specialize (Hlast (S (S j')) ltac:(lia) Hn'). exact Hlast. }
      destruct K as [K1 K2]. specialize (Hlast (S j) ltac:(lia) K1). cbn in Hlast. congruence. }
    rewrite N. cbn [find]. now rewrite String.eqb_refl.
  - cbn in Hn, Hr. rewrite (IH row i Hn Hr); [reflexivity|]. intros j Lj Hj. exact (Hlast (S j) ltac:(lia) Hj).
Qed.
(** The columns that are read. *)
Definition needed : list string :=
  ["code_distance"; "num_qubits"; "data_width"; "data_height"; "rounds"; "noise"; "circuit_style"; "preserved_observable"; "decoder"; "num_shots"; "num_correct"; "total_processing_seconds"]%string.
Lemma row_get_missing names row k : ~ In k names -> row_get names row k = Err KeyError.
Proof.
  intros H. unfold row_get. destruct (find _ _) as [[n v]|] eqn:E.
  - apply find_some in E. destruct E as [E Q]. apply String.eqb_eq in Q. subst n. apply in_rev in E. apply in_combine_l in E. now destruct H.
  - destruct (existsb (String.eqb k) names) eqn:Ex; [|reflexivity]. apply existsb_exists in Ex. destruct Ex as (x & Hx & Q). apply String.eqb_eq in Q. subst x. now destruct H.
Qed.
(** A row whose columns, in whatever order and among whatever others, hold the fields of a
    batch (as they are written in a record, see C41) is that batch.  A file in which a column
    is missing is refused. *)
Theorem C42_any_columns : forall {F} (fmt : F -> string) parse fadd fzero feqb names row (data : problem_data F) b,
  float_io fmt parse feqb ->
  ((forall k v, In (k, v) (combine header_fields (record_fields fmt b)) -> In k needed -> column names row k v) ->
     read_row parse fadd fzero feqb names data row =
       Ok (dupd (desc_eqb feqb) (b_desc b) (no_shots fzero) (fun s => add_shots fadd s (b_shots b) (b_correct b) (b_secs b)) data)) /\
  (forall k, In k needed -> ~ In k names -> exists e, read_row parse fadd fzero feqb names data row = Err e).
Proof.
  intros F fmt parse fadd fzero feqb names row data b IO. split.
  - intros H. assert (G : forall k v, In (k, v) (combine header_fields (record_fields fmt b)) -> In k needed -> row_get names row k = Ok v) by (intros k v Hi Hk; apply row_get_column, H; assumption).
    pose proof (read_row_record fmt parse fadd fzero feqb IO data b) as E. refine (eq_trans _ E). clear E. unfold read_row.
    assert (X : forall k, In k needed -> row_get names row k = row_get header_fields (record_fields fmt b) k).
    { intros k Hk. cbn [needed In] in Hk.
      repeat (destruct Hk as [<-|Hk]; [match goal with |- _ = row_get ?h ?r ?k => let v := eval cbv [row_get record_fields header_fields combine rev app find String.eqb Ascii.eqb Bool.eqb] in (row_get h r k) in change (row_get h r k) with v end; apply G; [cbn; tauto | cbn; tauto]|]). destruct Hk. }
    repeat match goal with |- context [row_get names row ?k] => rewrite (X k) by (cbn; tauto) end. reflexivity.
  - intros k Hk Hn. pose proof (row_get_missing names row k Hn) as E. unfold read_row. cbn [needed In] in Hk.
    assert (T : forall {A B} (x : res A) (g : A -> res B), (forall a, exists e, g a = Err e) -> exists e, bind x g = Err e) by (intros A B [a|e0] g Hg; [apply Hg | exists e0; reflexivity]).
    repeat (destruct Hk as [<-|Hk]; [cbv zeta; repeat first [solve [rewrite E; cbn [bind]; eexists; reflexivity] | apply T; intros ?]|]). destruct Hk.
Qed.
Print Assumptions C42_any_columns.
Example C42_any_columns_example : let b := mkBatch (mkDesc 4 6 1 30 10 1%Z "honeycomb_EM3" "H" "pymatching") 7 5 2%Z in
  exists names row, length names = 14 /\ (forall k v, In (k, v) (combine header_fields (record_fields str_int b)) -> In k needed -> column names row k v) /\ names <> header_fields.
Proof.
  intros b. exists ("note" :: rev needed ++ ["decoder"])%string, ("x" :: rev (map (fun k => match find (fun '(n, _) => (n =? k)%string) (combine header_fields (record_fields str_int b)) with Some (_, v) => v | None => "" end) needed) ++ ["pymatching"])%string.
  split; [reflexivity|]. split; [|discriminate].
  assert (X : forall k v, In (k, v) (combine header_fields (record_fields str_int b)) -> In k needed -> exists i, i < 14 /\ nth_error ("note" :: rev needed ++ ["decoder"])%string i = Some k /\ nth_error ("x" :: rev (map (fun k => match find (fun '(n, _) => (n =? k)%string) (combine header_fields (record_fields str_int b)) with Some (_, v) => v | None => "" end) needed) ++ ["pymatching"])%string i = Some v /\ forallb (fun j => match nth_error ("note" :: rev needed ++ ["decoder"])%string j with Some n => negb (n =? k)%string | None => true end) (seq (S i) 14) = true).
  { intros k v H. vm_compute in H.
    repeat (destruct H as [H|H]; [injection H as <- <-; intros Hn;
      first [ exists 1; (split; [lia|]); vm_compute; repeat split; reflexivity | exists 2; (split; [lia|]); vm_compute; repeat split; reflexivity | exists 3; (split; [lia|]); vm_compute; repeat split; reflexivity | exists 5; (split; [lia|]); vm_compute; repeat split; reflexivity | exists 6; (split; [lia|]); vm_compute; repeat split; reflexivity | exists 7; (split; [lia|]); vm_compute; repeat split; reflexivity
            | exists 8; (split; [lia|]); vm_compute; repeat split; reflexivity | exists 9; (split; [lia|]); vm_compute; repeat split; reflexivity | exists 10; (split; [lia|]); vm_compute; repeat split; reflexivity | exists 11; (split; [lia|]); vm_compute; repeat split; reflexivity | exists 12; (split; [lia|]); vm_compute; repeat split; reflexivity
            | exists 13; (split; [lia|]); vm_compute; repeat split; reflexivity
            | exfalso; cbn [needed In] in Hn; repeat (destruct Hn as [Hn|Hn]; [discriminate Hn|]); exact Hn ]|]). destruct H. }
  intros k v H Hn. destruct (X k v H Hn) as (i & Li & A & B & C). exists i. split; [exact A|]. split; [exact B|]. intros j Lj Hj. rewrite forallb_forall in C.
  destruct (Nat.lt_ge_cases j 14) as [L|L]; [|apply nth_error_None; vm_compute; lia]. specialize (C j ltac:(apply in_seq; lia)). rewrite Hj, String.eqb_refl in C. discriminate.
Qed.

(** ** C43: the logical error rate *)
(** The rate times the shots is the number of errors; it lies between 0 and 1; without shots
    it is 1. *)
Theorem C43_rate : forall s : shot_data Q, (0 <= num_correct s <= num_shots s)%Z ->
  (logical_error_rate s * inject_Z (num_shots s) == inject_Z (num_shots s - num_correct s))%Q /\ (0 <= logical_error_rate s <= 1)%Q /\
  (num_shots s = 0%Z -> logical_error_rate s = 1%Q).
Proof.
  intros [n c x] H. unfold logical_error_rate. cbn [num_shots num_correct] in *. destruct (Z.eqb_spec n 0) as [->|N].
  - assert (c = 0%Z) by lia. subst. split; [reflexivity|]. split; [split; discriminate | reflexivity].
  - assert (P : (0 < inject_Z n)%Q) by (change 0%Q with (inject_Z 0); rewrite <- Zlt_Qlt; lia). split; [field; intros K; rewrite K in P; discriminate|]. split; [|congruence].
    split; [apply Qle_shift_div_l; [exact P|]; rewrite Qmult_0_l; change 0%Q with (inject_Z 0); rewrite <- Zle_Qle; lia | apply Qle_shift_div_r; [exact P|]; rewrite Qmult_1_l, <- Zle_Qle; lia].
Qed.
Print Assumptions C43_rate.
Example C43_rate_example : logical_error_rate (mkShots 10 7 1%Q) == 3 # 10.
Proof. reflexivity. Qed.

(** ** C42: fields that are not numbers *)
Definition digit (a : ascii) : Prop := exists k, k < 10 /\ a = ascii_of_nat (48 + k).
Fixpoint all_digits (s : string) : Prop := match s with EmptyString => True | String a s => digit a /\ all_digits s end.
Definition numeral (s : string) : Prop := exists t, (s = t \/ s = String "-" t) /\ t <> EmptyString /\ all_digits t.
Definition int_columns : list string := ["code_distance"; "num_qubits"; "data_width"; "data_height"; "rounds"; "num_shots"; "num_correct"]%string.
Definition float_columns : list string := ["noise"; "total_processing_seconds"]%string.

Lemma uint_digits s : forall d, NilEmpty.uint_of_string s = Some d -> all_digits s.
Proof.
  induction s as [|a s IH]; intros d H; [exact Logic.I|]. cbn [NilEmpty.uint_of_string] in H. destruct (NilEmpty.uint_of_string s) as [e|] eqn:E; [|discriminate H].
  split; [|exact (IH e eq_refl)]. apply uint_of_char_spec in H. unfold digit.
  repeat (destruct H as [[-> _]|H]; [first [exists 0; (split; [lia|reflexivity]) | exists 1; (split; [lia|reflexivity]) | exists 2; (split; [lia|reflexivity]) | exists 3; (split; [lia|reflexivity]) | exists 4; (split; [lia|reflexivity])
    | exists 5; (split; [lia|reflexivity]) | exists 6; (split; [lia|reflexivity]) | exists 7; (split; [lia|reflexivity]) | exists 8; (split; [lia|reflexivity]) | exists 9; (split; [lia|reflexivity])]|]).
  destruct H as [-> _]. exists 9. split; [lia|reflexivity].
Qed.
Lemma int_numeral s z : int_str s = Ok z -> numeral s.
Proof.
  unfold int_str, NilZero.int_of_string. destruct s as [|a s]; [discriminate|]. destruct (Ascii.eqb_spec a "-") as [->|N].
  - destruct (NilZero.uint_of_string s) as [d|] eqn:E; [|discriminate]. intros _. exists s. split; [now right|]. destruct s as [|b s]; [discriminate E|]. split; [discriminate | exact (uint_digits _ d E)].
  - destruct (NilZero.uint_of_string (String a s)) as [d|] eqn:E; [|discriminate]. intros _. exists (String a s). split; [now left|]. split; [discriminate | exact (uint_digits _ d E)].
Qed.
(** A row with something else than a number where a number belongs is refused, so that no
    data is made up. *)
Theorem C42_bad_numbers : forall {F} parse fadd (fzero : F) feqb names row (data : problem_data F) k v, column names row k v ->
  (In k int_columns /\ ~ numeral v) \/ (In k float_columns /\ parse v = None) -> exists e, read_row parse fadd fzero feqb names data row = Err e.
Proof.
  intros F parse fadd fzero feqb names row data k v Hc Hk. pose proof (row_get_column _ _ _ _ Hc) as E. unfold read_row.
  assert (T : forall {A B} (x : res A) (g : A -> res B), (forall a, exists e, g a = Err e) -> exists e, bind x g = Err e) by (intros A B [a|e0] g Hg; [apply Hg | exists e0; reflexivity]).
  assert (U : forall {A B} e (x : res A) (g : A -> res B), x = Err e -> exists e, bind x g = Err e) by (intros A B e x g ->; exists e; reflexivity).
  destruct Hk as [[Hk Hv]|[Hk Hv]].
  - assert (Ei : exists e, int_str v = Err e) by (destruct (int_str v) as [z|e] eqn:Ez; [destruct Hv; exact (int_numeral v z Ez) | eauto]). destruct Ei as (e & Ei). cbn [int_columns In] in Hk.
    repeat (destruct Hk as [<-|Hk]; [cbv zeta; repeat first [solve [eapply U; rewrite E; exact Ei] | apply T; intros ?]|]). destruct Hk.
  - assert (Ei : float_str parse v = Err ValueError) by (unfold float_str; now rewrite Hv). cbn [float_columns In] in Hk.
    repeat (destruct Hk as [<-|Hk]; [cbv zeta; repeat first [solve [eapply U; rewrite E; exact Ei] | apply T; intros ?]|]). destruct Hk.
Qed.
Print Assumptions C42_bad_numbers.
Example C42_bad_numbers_example : (column ["noise"; "rounds"] ["1"; "ten"] "rounds" "ten" /\ ~ numeral "ten" /\ numeral "-10")%string.
Proof.
  split; [|split].
  - exists 1. split; [reflexivity|]. split; [reflexivity|]. intros j Lj. destruct j as [|[|[|j]]]; [lia | lia | reflexivity | reflexivity].
  - intros (t & [<-|E] & _ & H).
    + destruct H as [(k & Lk & E) _]. do 10 (destruct k as [|k]; [discriminate E|]). lia.
    + discriminate E.
  - exists "10"%string. split; [now right|]. split; [discriminate|]. split; [exists 1; split; [lia | reflexivity]|]. split; [exists 0; split; [lia | reflexivity] | exact Logic.I].
Qed.
