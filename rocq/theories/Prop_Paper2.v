(** C53, C55, C59: LambdaGroup's tables and qubit counts, and the aggregation script. *)
From Coq Require Import QArith Qround Qabs.
From Coq Require Import Ascii Lqa.
From Verif Require Import Prelude Text Layout LayoutFacts Collect Prop_Collect Paper Prop_Paper.
Open Scope Z_scope.

(** ** C53: projected qubit counts *)
Lemma near_int_ok q n : (q == inject_Z n)%Q -> Qle_bool (1 # 100000) (Qabs (q - inject_Z (Qfloor (q + (1 # 2))))) = false.
Proof.
  intros E. assert (F : Qfloor (q + (1 # 2)) = n).
  { rewrite E. pose proof (Qfloor_le (inject_Z n + (1 # 2))) as A. pose proof (Qlt_floor (inject_Z n + (1 # 2))) as B.
    set (k := Qfloor _) in *. assert (inject_Z k < inject_Z (n + 1))%Q by (rewrite inject_Z_plus; change (inject_Z 1) with 1%Q; lra).
    assert (inject_Z n < inject_Z (k + 1))%Q by (rewrite inject_Z_plus in *; change (inject_Z 1) with 1%Q in *; lra).
    rewrite <- Zlt_Qlt in *. lia. }
  rewrite F. assert (Z0 : (Qabs (q - inject_Z n) == 0)%Q) by (rewrite E; setoid_replace (inject_Z n - inject_Z n)%Q with 0%Q by ring; reflexivity).
  apply not_true_iff_false. intros K. apply Qle_bool_iff in K. rewrite Z0 in K. unfold Qle in K. simpl in K. lia.
Qed.
Lemma inject_nz z : z <> 0 -> ~ (inject_Z z == 0)%Q.
Proof. intros H K. unfold Qeq in K. simpl in K. lia. Qed.

(** From a member of the 4u x 6u honeycomb family the answer for a wanted distance is the
    qubit count of the member whose distance is the wanted one rounded up to a multiple
    of 4. *)
Theorem C53_honeycomb : forall F (g : lambda_group F) u sr st ob p lay dec d circuit_style,
  1 <= u -> HoneycombLayout (4 * u) (6 * u) sr st ob p = Ok lay -> g_rep g = as_decoder_problem_desc lay dec ->
  str_in "honeycomb" circuit_style = true -> str_in "surface" circuit_style = false -> 1 <= d ->
  exists u' lay' q, 1 <= u' /\ HoneycombLayout (4 * u') (6 * u') sr st ob p = Ok lay' /\
    d <= code_distance_1qdep lay' < d + 4 /\
    d_to_q g d circuit_style = Ok q /\ (q == inject_Z (num_qubits lay'))%Q.
Proof.
  intros F g u sr st ob p lay dec d cs Hu E Hg Hh Hs Hd.
  assert (HL : forall u, HoneycombLayout (4 * u) (6 * u) sr st ob p = Ok (mkLayout (4 * u) (6 * u) sr st ob p)).
  { intros v. unfold HoneycombLayout. replace (4 * v mod 2) with 0 by dlia. replace (6 * v mod 6) with 0 by dlia. reflexivity. }
  assert (HD : forall v, 1 <= v -> code_distance_1qdep (mkLayout (4 * v) (6 * v) sr st ob p) = 4 * v) by (intros; unfold code_distance_1qdep; simpl; dlia).
  assert (HQ : forall v, 1 <= v -> num_qubits (mkLayout (4 * v) (6 * v) sr st ob p) = v * v * (if is_em3 st then 24 else 60)).
  { intros v Hv. unfold num_qubits. cbn [style data_width data_height]. destruct (is_em3 st); [lia|].
    rewrite Z.quot_div_nonneg by nia. replace (5 * (4 * v * (6 * v))) with (v * v * 60 * 2) by ring. now rewrite Z.div_mul. }
  rewrite HL in E. injection E as <-.
  pose proof (ceil_div_spec d 4 ltac:(lia)) as C. set (u' := ceil_div d 4) in *. assert (Hu' : 1 <= u') by lia.
  assert (Ed : d_distance (g_rep g) = 4 * u) by (rewrite Hg; cbn [as_decoder_problem_desc d_distance]; now apply HD).
  assert (Eq : d_qubits (g_rep g) = u * u * (if is_em3 st then 24 else 60)) by (rewrite Hg; cbn [as_decoder_problem_desc d_qubits]; now apply HQ).
  unfold d_to_q. rewrite Hs, Hh, Ed, Eq. cbv zeta. replace (4 * u =? 0) with false by lia. fold u'. cbn [bind].
  set (q := (inject_Z (u * u * (if is_em3 st then 24 else 60)) * _)%Q).
  exists u', (mkLayout (4 * u') (6 * u') sr st ob p), q. rewrite (HD u' Hu'), (HQ u' Hu'). split; [exact Hu'|]. split; [apply HL|]. split; [lia|].
  assert (V : (q == inject_Z (u' * u' * (if is_em3 st then 24 else 60)))%Q).
  { unfold q. rewrite !inject_Z_mult. field. apply inject_nz. lia. }
  split; [|exact V]. rewrite (near_int_ok _ _ V). reflexivity.
Qed.
Print Assumptions C53_honeycomb.

Theorem C53_surface : forall F (g : lambda_group F) dir name p ob D dec d circuit_style,
  1 <= D -> g_rep g = fst (surface_code_problem dir name p ob D dec) -> str_in "surface" circuit_style = true ->
  exists q, d_to_q g d circuit_style = Ok q /\ (q == inject_Z (d_qubits (fst (surface_code_problem dir name p ob d dec))))%Q.
Proof.
  intros F g dir name p ob D dec d cs HD Hg Hs. unfold d_to_q. rewrite Hs, Hg. cbn [surface_code_problem fst d_qubits d_distance].
  replace (D =? 0) with false by lia. cbn [bind].
  set (q := ((inject_Z (2 * D * D - 1) + 1) * _ - 1)%Q). exists q.
  assert (V : (q == inject_Z (2 * d * d - 1))%Q).
  { unfold q. unfold Z.sub. rewrite !inject_Z_plus, !inject_Z_mult. change (inject_Z (- (1))) with (-(1))%Q. field. apply inject_nz. lia. }
  split; [|exact V]. rewrite (near_int_ok _ _ V). reflexivity.
Qed.
Print Assumptions C53_surface.
(** Any other circuit style is refused; and the answer is never far from a whole number. *)
Theorem C53_refused : forall F (g : lambda_group F) d circuit_style,
  (str_in "honeycomb" circuit_style = false -> str_in "surface" circuit_style = false -> d_to_q g d circuit_style = Err NotImplementedError) /\
  (forall q, d_to_q g d circuit_style = Ok q -> exists n, (Qabs (q - inject_Z n) < 1 # 100000)%Q).
Proof.
  intros F g d cs. split.
  - intros H1 H2. unfold d_to_q. rewrite H1, H2. reflexivity.
  - intros q. unfold d_to_q. match goal with |- bind ?m _ = _ -> _ => destruct m as [x|e]; [|discriminate] end. cbn [bind].
    destruct (Qle_bool _ _) eqn:E; [discriminate|]. intros [= <-]. exists (Qfloor (x + (1 # 2))). apply Qnot_le_lt. intros K. apply Qle_bool_iff in K. congruence.
Qed.
Print Assumptions C53_refused.
(** Outside the families the assertion can fail: a 10 by 18 honeycomb projected to
    distance 4. *)
Theorem C53_other_shapes_refuted : exists lay (g : lambda_group Q), valid lay /\ g_rep g = as_decoder_problem_desc lay "internal" /\
  d_to_q g 4 "honeycomb_EM3" = Err AssertionError.
Proof.
  exists (mkLayout 10 18 30 "EM3" "V" (1#100)), (mkGroup (1#100) (as_decoder_problem_desc (mkLayout 10 18 30 "EM3" "V" (1#100)) "internal") [] []).
  split; [unfold valid; simpl; repeat split; reflexivity|]. split; [reflexivity|]. vm_compute. reflexivity.
Qed.
Print Assumptions C53_other_shapes_refuted.
Example C53_example : forall q,
  d_to_q (mkGroup (1#100) (as_decoder_problem_desc (mkLayout 8 12 30 "SD6" "V" (1#100)) "internal") [] [] : lambda_group Q) 21 "honeycomb_SD6" = Ok q -> (q == 2160)%Q.
Proof. intros q. vm_compute. intros [= <-]. reflexivity. Qed.

(** ** C55: grouping by noise, observable side and distance *)
(** The H/X side: the letters H and X (and, as Python's substring test has it, the empty
    text and the text HX). *)
Definition hx_side (o : string) : Prop := In o ["H"; "X"; ""; "HX"]%string.
Lemma hx_side_iff o : str_in o "HX" = true <-> hx_side o.
Proof.
  unfold hx_side, str_in. split.
  - destruct o as [|a o]; [cbn [In]; tauto|]. cbn [String.index String.prefix].
    destruct (ascii_dec a "H") as [->|Ha].
    + destruct o as [|b o]; [cbn [In]; tauto|]. cbn [String.prefix]. destruct (ascii_dec b "X") as [->|Hb].
      * destruct o as [|c o]; [cbn [In]; tauto|]. cbn. discriminate.
      * destruct (ascii_dec "H" "X"); [discriminate|]. discriminate.
    + destruct (ascii_dec a "X") as [->|Hb]; [|discriminate]. destruct o as [|b o]; [cbn [In]; tauto|]. cbn. discriminate.
  - cbn [In]. intuition subst; reflexivity.
Qed.

Notation entry F := (desc Q * shot_data F)%type (only parsing).
(** Entries [e1] and [e2] want the same cell of the same table. *)
Definition same_cell {F} (e1 e2 : entry F) : Prop :=
  (d_noise (fst e1) == d_noise (fst e2))%Q /\ (hx_side (d_obs (fst e1)) <-> hx_side (d_obs (fst e2))) /\ d_distance (fst e1) = d_distance (fst e2).
Definition clash {F} (data : list (entry F)) : Prop :=
  exists i j e1 e2, i <> j /\ nth_error data i = Some e1 /\ nth_error data j = Some e2 /\ same_cell e1 e2.
(** The distances and values of the entries with noise [n] on one side, in order. *)
Definition table {F} (data : list (entry F)) (n : Q) (side : bool) : list (Z * shot_data F) :=
  map (fun e => (d_distance (fst e), snd e)) (filter (fun e => Qeq_bool (d_noise (fst e)) n && Bool.eqb (str_in (d_obs (fst e)) "HX") side) data).

Lemma in_table {F} (data : list (entry F)) n side d v :
  In (d, v) (table data n side) <-> exists e, In e data /\ (d_noise (fst e) == n)%Q /\ (hx_side (d_obs (fst e)) <-> side = true) /\ d_distance (fst e) = d /\ snd e = v.
Proof.
  unfold table. rewrite in_map_iff. split.
  - intros (e & [= <- <-] & H). apply filter_In in H as [H K]. apply andb_true_iff in K as [K1 K2]. apply Qeq_bool_iff in K1. apply eqb_prop in K2.
    exists e. rewrite <- hx_side_iff, K2. tauto.
  - intros (e & H & K1 & K2 & <- & <-). exists e. split; [reflexivity|]. apply filter_In. split; [exact H|]. apply andb_true_iff. split; [now apply Qeq_bool_iff|].
    rewrite <- hx_side_iff in K2. destruct (str_in _ _), side; simpl; try reflexivity; exfalso; intuition discriminate.
Qed.

Lemma Qeqb_refl x : Qeq_bool x x = true.
Proof. apply Qeq_bool_iff. reflexivity. Qed.
Lemma Qeqb_sub x y z : Qeq_bool x y = true -> Qeq_bool z x = Qeq_bool z y.
Proof.
  intros H. apply Qeq_bool_iff in H. destruct (Qeq_bool z x) eqn:A, (Qeq_bool z y) eqn:B; try reflexivity.
  - apply Qeq_bool_iff in A. assert (K : Qeq_bool z y = true) by (apply Qeq_bool_iff; now rewrite A). congruence.
  - apply Qeq_bool_iff in B. assert (K : Qeq_bool z x = true) by (apply Qeq_bool_iff; now rewrite B, H). congruence.
Qed.
Lemma Qeqb_sym x y : Qeq_bool x y = Qeq_bool y x.
Proof.
  destruct (Qeq_bool x y) eqn:A, (Qeq_bool y x) eqn:B; try reflexivity.
  - assert (Qeq_bool y x = true) by (apply Qeq_bool_iff; symmetry; now apply Qeq_bool_iff). congruence.
  - assert (Qeq_bool x y = true) by (apply Qeq_bool_iff; symmetry; now apply Qeq_bool_iff). congruence.
Qed.

Definition group_for {F} (key : desc Q) (groups : list (Q * lambda_group F)) : lambda_group F :=
  match dget Qeq_bool (d_noise key) groups with Some g => g | None => mkGroup (d_noise key) key [] [] end.
Lemma update_group_spec {F} key val (groups : list (Q * lambda_group F)) :
  match add_entry key val (group_for key groups) with
  | Err e => update_group key val groups = Err e
  | Ok g' => exists groups', update_group key val groups = Ok groups' /\
      (forall n, dget Qeq_bool n groups' = if Qeq_bool n (d_noise key) then Some g' else dget Qeq_bool n groups) /\
      (map fst groups' = map fst groups \/ map fst groups' = map fst groups ++ [d_noise key] /\ dget Qeq_bool (d_noise key) groups = None)
  end.
Proof.
  unfold group_for. induction groups as [|[n g] r IH]; cbn [dget update_group].
  - destruct (add_entry _ _ _) as [g'|e]; [|reflexivity]. cbn [bind]. eexists. split; [reflexivity|]. split; [reflexivity|]. right. auto.
  - destruct (Qeq_bool (d_noise key) n) eqn:E; cbv iota.
    + clear IH. destruct (add_entry _ _ _) as [g'|e]; [|reflexivity]. cbn [bind]. eexists. split; [reflexivity|]. split; [|now left].
      intros n'. cbn [dget]. rewrite (Qeqb_sub _ _ n' E). destruct (Qeq_bool n' n); reflexivity.
    + revert IH. destruct (add_entry _ _ _) as [g'|e]; intros IH.
      * destruct IH as (r' & -> & Hr & Hk). cbn [bind]. eexists. split; [reflexivity|]. split.
        -- intros n'. cbn [dget]. rewrite Hr. destruct (Qeq_bool n' n) eqn:E1; [|reflexivity].
           destruct (Qeq_bool n' (d_noise key)) eqn:E2; [|reflexivity]. rewrite (Qeqb_sym n' (d_noise key)) in E2. rewrite <- (Qeqb_sub _ _ (d_noise key) E1), E2 in E. discriminate.
        -- destruct Hk as [Hk|[Hk Hn]]; [left|right]; simpl; rewrite Hk; auto.
      * rewrite IH. reflexivity.
Qed.

(** What the tables must be after the entries [pre]. *)
Definition tables_of {F} (pre : list (entry F)) (groups : list (Q * lambda_group F)) : Prop :=
  distinct_values (map fst groups) /\
  forall n, match dget Qeq_bool n groups with
    | None => forall e, In e pre -> ~ (d_noise (fst e) == n)%Q
    | Some g => exists e, find (fun e => Qeq_bool (d_noise (fst e)) n) pre = Some e /\ g_rep g = fst e /\ (g_noise g == n)%Q /\
        pairs_h g = table pre n true /\ pairs_v g = table pre n false
    end.

Lemma find_app' {A} (f : A -> bool) l m : find f (l ++ m) = match find f l with Some x => Some x | None => find f m end.
Proof. induction l as [|a l IH]; simpl; [reflexivity|]. destruct (f a); auto. Qed.
Lemma table_app {F} (a b : list (entry F)) n s : table (a ++ b) n s = table a n s ++ table b n s.
Proof. unfold table. now rewrite filter_app, map_app. Qed.
Lemma table_one {F} (e : entry F) n s : table [e] n s = if Qeq_bool (d_noise (fst e)) n && Bool.eqb (str_in (d_obs (fst e)) "HX") s then [(d_distance (fst e), snd e)] else [].
Proof. unfold table. cbn [filter]. destruct (_ && _); reflexivity. Qed.
Lemma dget_none {V} k (l : list (Z * V)) : dget Z.eqb k l = None <-> ~ In k (map fst l).
Proof.
  induction l as [|[a v] l IH]; simpl; [tauto|]. destruct (Z.eqb_spec k a) as [->|Hn]; [split; [discriminate|tauto]|].
  rewrite IH. intuition congruence.
Qed.
Lemma dget_key_none {F} n (groups : list (Q * lambda_group F)) : dget Qeq_bool n groups = None -> forall k, In k (map fst groups) -> ~ (n == k)%Q.
Proof.
  induction groups as [|[a g] r IH]; simpl; [intros _ k []|]. destruct (Qeq_bool n a) eqn:E; [discriminate|]. intros H k [<-|Hk]; [|now apply IH].
  intros K. apply Qeq_bool_iff in K. congruence.
Qed.
Lemma distinct_snoc l x : distinct_values l -> (forall k, In k l -> ~ (x == k)%Q) -> distinct_values (l ++ [x]).
Proof.
  intros H Hx i j p q Hi Hj E.
  assert (L : forall i p, nth_error (l ++ [x]) i = Some p -> (i < length l)%nat /\ nth_error l i = Some p \/ i = length l /\ p = x).
  { intros k r Hk. destruct (Nat.lt_ge_cases k (length l)) as [K|K]; [left; rewrite nth_error_app1 in Hk by assumption; auto|right].
    rewrite nth_error_app2 in Hk by assumption. destruct (k - length l)%nat eqn:D; [simpl in Hk; split; [lia|congruence]|]. destruct n; discriminate. }
  destruct (L _ _ Hi) as [[_ Ki]|[-> ->]], (L _ _ Hj) as [[_ Kj]|[-> ->]]; [eapply H; eauto| | |reflexivity].
  - exfalso. eapply Hx; [eapply nth_error_In; exact Ki|]. now symmetry.
  - exfalso. eapply Hx; [eapply nth_error_In; exact Kj|exact E].
Qed.

Lemma step_tables {F} (pre : list (entry F)) groups key val : tables_of pre groups ->
  (In (d_distance key) (map fst (table pre (d_noise key) (str_in (d_obs key) "HX"))) -> update_group key val groups = Err AssertionError) /\
  (~ In (d_distance key) (map fst (table pre (d_noise key) (str_in (d_obs key) "HX"))) -> exists groups', update_group key val groups = Ok groups' /\ tables_of (pre ++ [(key, val)]) groups').
Proof.
  intros [Hd Ht]. pose proof (update_group_spec key val groups) as U. pose proof (Ht (d_noise key)) as Hn.
  assert (G : exists e, find (fun e => Qeq_bool (d_noise (fst e)) (d_noise key)) (pre ++ [(key, val)]) = Some e /\ g_rep (group_for key groups) = fst e /\ (g_noise (group_for key groups) == d_noise key)%Q /\
     pairs_h (group_for key groups) = table pre (d_noise key) true /\ pairs_v (group_for key groups) = table pre (d_noise key) false).
  { unfold group_for. destruct (dget _ _ _) as [g|].
    - destruct Hn as (e & H1 & H2). exists e. rewrite find_app', H1. split; [reflexivity|exact H2].
    - exists (key, val). assert (N : forall e, In e pre -> Qeq_bool (d_noise (fst e)) (d_noise key) = false).
      { intros e He. apply not_true_iff_false. intros K. apply Qeq_bool_iff in K. apply (Hn e He K). }
      assert (T : forall s, table pre (d_noise key) s = []).
      { intros s. destruct (table pre (d_noise key) s) as [|[dd vv] l] eqn:E; [reflexivity|].
        assert (I1 : In (dd, vv) (table pre (d_noise key) s)) by (rewrite E; now left). apply in_table in I1 as (e & He & K & _). exfalso. apply (Hn e He K). }
      rewrite !T. split; [|repeat split; reflexivity]. rewrite find_app'.
      replace (find _ pre) with (@None (entry F)); [simpl; now rewrite Qeqb_refl|].
      symmetry. clear -N. induction pre as [|a l IH]; simpl; [reflexivity|]. rewrite (N a (or_introl eq_refl)). apply IH. intros e He. apply N. now right. }
  destruct G as (e & Gf & Gr & Gn & Gh & Gv).
  unfold add_entry in U.
  assert (Fin : forall g' groups', (forall n, dget Qeq_bool n groups' = if Qeq_bool n (d_noise key) then Some g' else dget Qeq_bool n groups) ->
     (map fst groups' = map fst groups \/ map fst groups' = map fst groups ++ [d_noise key] /\ dget Qeq_bool (d_noise key) groups = None) ->
     g_rep g' = g_rep (group_for key groups) -> g_noise g' = g_noise (group_for key groups) ->
     pairs_h g' = table (pre ++ [(key, val)]) (d_noise key) true -> pairs_v g' = table (pre ++ [(key, val)]) (d_noise key) false ->
     tables_of (pre ++ [(key, val)]) groups').
  { intros g' groups' D K R N H V. split.
    - destruct K as [->|[-> K]]; [exact Hd|]. apply distinct_snoc; [exact Hd|]. now apply dget_key_none.
    - intros n. rewrite D. destruct (Qeq_bool n (d_noise key)) eqn:E.
      + assert (X : forall x, Qeq_bool x n = Qeq_bool x (d_noise key)) by (intros x; now apply Qeqb_sub).
        exists e. repeat split.
        * rewrite <- Gf. clear -X. induction (pre ++ [(key, val)]) as [|a l IH]; [reflexivity|]. cbn [find]. rewrite X. destruct (Qeq_bool _ _); [reflexivity|exact IH].
        * congruence.
        * apply Qeq_bool_iff in E. rewrite N, Gn. now symmetry.
        * rewrite H. unfold table. f_equal. apply filter_ext. intros a. now rewrite X.
        * rewrite V. unfold table. f_equal. apply filter_ext. intros a. now rewrite X.
      + pose proof (Ht n) as Hn'. rewrite Qeqb_sym in E. destruct (dget Qeq_bool n groups) as [g|].
        * destruct Hn' as (e' & H1 & H2 & H3 & H4 & H5). exists e'. rewrite find_app', H1, !table_app, !table_one. cbn [fst]. rewrite E. cbn [andb]. rewrite !app_nil_r. auto.
        * intros e' He K'. apply in_app_or in He as [He|[<-|[]]]; [apply (Hn' e' He K')|]. cbn [fst] in K'. apply Qeq_bool_iff in K'. congruence. }
  destruct (str_in (d_obs key) "HX") eqn:S.
  - rewrite Gh in U. split.
    + intros Hin. destruct (dget Z.eqb (d_distance key) (table pre (d_noise key) true)) eqn:E; [|apply dget_none in E; contradiction]. exact U.
    + intros Hin. apply dget_none in Hin. rewrite Hin in U. cbn [assert_ bind] in U. destruct U as (groups' & E & D & K). exists groups'. split; [exact E|].
      eapply Fin; [exact D|exact K|reflexivity|reflexivity| |]; cbn [pairs_h pairs_v]; rewrite table_app, table_one; cbn [fst snd]; rewrite S, Qeqb_refl; cbn [andb Bool.eqb]; [congruence|now rewrite app_nil_r].
  - rewrite Gv in U. split.
    + intros Hin. destruct (dget Z.eqb (d_distance key) (table pre (d_noise key) false)) eqn:E; [|apply dget_none in E; contradiction]. exact U.
    + intros Hin. apply dget_none in Hin. rewrite Hin in U. cbn [assert_ bind] in U. destruct U as (groups' & E & D & K). exists groups'. split; [exact E|].
      eapply Fin; [exact D|exact K|reflexivity|reflexivity| |]; cbn [pairs_h pairs_v]; rewrite table_app, table_one; cbn [fst snd]; rewrite S, Qeqb_refl; cbn [andb Bool.eqb]; [now rewrite app_nil_r|congruence].
Qed.

Lemma cell_in_table {F} (pre : list (entry F)) key val :
  In (d_distance key) (map fst (table pre (d_noise key) (str_in (d_obs key) "HX"))) <-> exists e, In e pre /\ same_cell e (key, val).
Proof.
  rewrite in_map_iff. unfold same_cell. cbn [fst]. split.
  - intros ([dd v] & <- & H). apply in_table in H as (e & He & K1 & K2 & K3 & _). exists e. rewrite hx_side_iff in K2. auto.
  - intros (e & He & K1 & K2 & K3). exists (d_distance key, snd e). split; [reflexivity|]. apply in_table. exists e. rewrite hx_side_iff. auto.
Qed.
Lemma same_cell_sym {F} (a b : entry F) : same_cell a b -> same_cell b a.
Proof. intros (A & B & C). split; [now symmetry|]. split; [tauto|now symmetry]. Qed.
Lemma clash_snoc {F} (pre : list (entry F)) x : ~ clash pre -> (clash (pre ++ [x]) <-> exists e, In e pre /\ same_cell e x).
Proof.
  intros N.
  assert (L : forall i p, nth_error (pre ++ [x]) i = Some p -> (i < length pre)%nat /\ nth_error pre i = Some p \/ i = length pre /\ p = x).
  { intros k r Hk. destruct (Nat.lt_ge_cases k (length pre)) as [K|K]; [left; rewrite nth_error_app1 in Hk by assumption; auto|right].
    rewrite nth_error_app2 in Hk by assumption. destruct (k - length pre)%nat eqn:D; [simpl in Hk; split; [lia|congruence]|]. destruct n; discriminate. }
  split.
  - intros (i & j & e1 & e2 & Hij & H1 & H2 & S). destruct (L _ _ H1) as [[_ K1]|[-> ->]], (L _ _ H2) as [[_ K2]|[-> ->]].
    + exfalso. apply N. exists i, j, e1, e2. auto.
    + exists e1. split; [eapply nth_error_In; eauto|exact S].
    + exists e2. split; [eapply nth_error_In; eauto|now apply same_cell_sym].
    + congruence.
  - intros (e & He & S). apply In_nth_error in He as [i Hi]. exists i, (length pre), e, x.
    assert (K : (i < length pre)%nat) by (apply nth_error_Some; rewrite Hi; discriminate).
    repeat split; [lia|rewrite nth_error_app1; assumption|rewrite nth_error_app2, Nat.sub_diag by lia; reflexivity|apply S|apply S|apply S|apply S].
Qed.
Lemma clash_app {F} (a b : list (entry F)) : clash a -> clash (a ++ b).
Proof.
  intros (i & j & e1 & e2 & Hij & H1 & H2 & S). exists i, j, e1, e2.
  assert (K : forall k e, nth_error a k = Some e -> nth_error (a ++ b) k = Some e).
  { intros k e H. rewrite nth_error_app1; [exact H|]. apply nth_error_Some. rewrite H. discriminate. }
  auto.
Qed.
Lemma groups_from_spec {F} (data : list (entry F)) : forall pre groups, tables_of pre groups -> ~ clash pre ->
  (clash (pre ++ data) /\ groups_from groups data = Err AssertionError) \/
  (~ clash (pre ++ data) /\ exists groups', groups_from groups data = Ok groups' /\ tables_of (pre ++ data) groups').
Proof.
  induction data as [|[key val] r IH]; intros pre groups Ht Hc; cbn [groups_from].
  - right. rewrite app_nil_r. eauto.
  - destruct (step_tables pre groups key val Ht) as [S1 S2].
    change ((key, val) :: r) with ([(key, val)] ++ r). rewrite app_assoc.
    destruct (in_dec Z.eq_dec (d_distance key) (map fst (table pre (d_noise key) (str_in (d_obs key) "HX")))) as [Hin|Hin].
    + left. rewrite (S1 Hin). split; [|reflexivity]. apply clash_app. apply clash_snoc; [exact Hc|]. now apply cell_in_table.
    + destruct (S2 Hin) as (g' & -> & Ht'). cbn [bind]. apply IH; [exact Ht'|]. rewrite clash_snoc by exact Hc. rewrite <- cell_in_table. exact Hin.
Qed.
Lemma table_nodup {F} (data : list (entry F)) n s : ~ clash data -> NoDup (map fst (table data n s)).
Proof.
  induction data as [|a l IH] using rev_ind; intros C; [constructor|].
  assert (Cl : ~ clash l) by (intros K; apply C, clash_app, K).
  rewrite table_app, table_one, map_app. destruct (_ && _) eqn:E; [|rewrite app_nil_r; now apply IH].
  apply NoDup_app_intro; [now apply IH|repeat constructor; intros []|]. intros x Hx [<-|[]]. apply C, clash_snoc; [exact Cl|].
  apply andb_true_iff in E as [E1 E2]. apply eqb_prop in E2. apply Qeq_bool_iff in E1.
  apply in_map_iff in Hx as ([d v] & Hd & Hx). cbn [fst] in Hd. subst d. apply in_table in Hx as (e & He & K1 & K2 & K3 & _). exists e. split; [exact He|].
  split; [now rewrite K1, E1|]. split; [|exact K3]. rewrite K2, <- E2. apply hx_side_iff.
Qed.
Lemma no_clash_nil {F} : ~ clash (@nil (entry F)).
Proof. intros (i & j & e1 & e2 & _ & H & _). destruct i; discriminate. Qed.
Lemma tables_nil {F} : tables_of (@nil (entry F)) [].
Proof. split; [intros i j p q Hi; destruct i; discriminate|]. intros n. cbn. intros e []. Qed.

(** AssertionError exactly when two entries of one side share noise and distance;
    otherwise a table for exactly the noises that occur, with exactly the entries of that
    noise on each side; the representative is the first entry of that noise. *)
Theorem C55_groups : forall F (data : list (entry F)),
  (clash data -> groups_from_data data = Err AssertionError) /\
  (~ clash data -> exists groups, groups_from_data data = Ok groups /\ distinct_values (map fst groups) /\
    (forall e, In e data -> exists g, dget Qeq_bool (d_noise (fst e)) groups = Some g) /\
    forall n g, dget Qeq_bool n groups = Some g -> (g_noise g == n)%Q /\
      (exists e i, nth_error data i = Some e /\ (d_noise (fst e) == n)%Q /\ g_rep g = fst e /\ forall j e', (j < i)%nat -> nth_error data j = Some e' -> ~ (d_noise (fst e') == n)%Q) /\
      NoDup (map fst (pairs_h g)) /\ NoDup (map fst (pairs_v g)) /\
      (forall d v, In (d, v) (pairs_h g) <-> exists k, In (k, v) data /\ (d_noise k == n)%Q /\ hx_side (d_obs k) /\ d_distance k = d) /\
      (forall d v, In (d, v) (pairs_v g) <-> exists k, In (k, v) data /\ (d_noise k == n)%Q /\ ~ hx_side (d_obs k) /\ d_distance k = d)).
Proof.
  intros F data. unfold groups_from_data. destruct (groups_from_spec data [] [] tables_nil no_clash_nil) as [[C E]|[C (groups & E & D & T)]]; simpl in C; (split; [|]); try tauto.
  intros _. exists groups. split; [exact E|]. split; [exact D|]. cbn [app] in T. split.
  - intros e He. specialize (T (d_noise (fst e))). destruct (dget _ _ _) as [g|]; [eauto|]. exfalso. apply (T e He). reflexivity.
  - intros n g Hg. specialize (T n). rewrite Hg in T. destruct T as (e & T1 & T2 & T3 & T4 & T5). split; [exact T3|]. split; [|rewrite T4, T5; split; [|split; [|split]]].
    + clear -T1 T2. revert T1. induction data as [|a l IH]; cbn [find]; [discriminate|]. destruct (Qeq_bool (d_noise (fst a)) n) eqn:K.
      * intros [= <-]. exists a, O. split; [reflexivity|]. split; [now apply Qeq_bool_iff|]. split; [exact T2|]. intros j e' Hj. lia.
      * intros H. destruct (IH H) as (e' & i & I1 & I2 & I3 & I4). exists e', (S i). split; [exact I1|]. split; [exact I2|]. split; [exact I3|].
        intros [|j] e0 Hj; cbn [nth_error]; [intros [= <-] X; apply Qeq_bool_iff in X; congruence|]. apply I4. lia.
    + apply (table_nodup data n true C).
    + apply (table_nodup data n false C).
    + intros d v. rewrite in_table. split; [intros ([k v0] & H1 & H2 & H3 & H4 & H5); cbn [fst snd] in *; subst v0; exists k; tauto|intros (k & H1 & H2 & H3 & H4); exists (k, v); cbn [fst snd]; tauto].
    + intros d v. rewrite in_table. split; [intros ([k v0] & H1 & H2 & H3 & H4 & H5); cbn [fst snd] in *; subst v0; exists k; intuition discriminate|intros (k & H1 & H2 & H3 & H4); exists (k, v); cbn [fst snd]; intuition discriminate].
Qed.
Print Assumptions C55_groups.
