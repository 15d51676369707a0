(** Properties of collected data (src/collect_data.py): grouping (C43), remaining work
    (C44), changing descriptions (C45). *)
From Coq Require Import QArith Lqa.
From Verif Require Import Prelude Text Collect Prop_Collect.
Open Scope Z_scope.

Lemma desc_eqb_iff {F} (feqb : F -> F -> bool) : (forall a b, feqb a b = true <-> a = b) -> forall a b, desc_eqb feqb a b = true <-> a = b.
Proof.
  intros Hf a b. destruct a, b. unfold desc_eqb. simpl. rewrite !andb_true_iff, !Z.eqb_eq, !String.eqb_eq, Hf. split.
  - intros H. decompose [and] H. subst. reflexivity.
  - intros [= -> -> -> -> -> -> -> -> ->]. tauto.
Qed.

Lemma zsum_perm l l' : Permutation l l' -> zsum l = zsum l'.
Proof. induction 1; simpl; lia. Qed.

Lemma dget_in {K V} (eqb : K -> K -> bool) (H : forall a b, eqb a b = true <-> a = b) (l : list (K * V)) k v :
  NoDup (map fst l) -> dget eqb k l = Some v <-> In (k, v) l.
Proof.
  induction l as [|[k0 v0] l IH]; simpl; intros Hn; [split; [discriminate|intros []]|].
  inversion Hn as [|? ? Hn1 Hn2]; subst. destruct (eqb k k0) eqn:E.
  - apply H in E. subst k0. split; [intros [= <-]; now left|]. intros [[= ->]|Hin]; [reflexivity|]. destruct Hn1. now apply (in_map fst) in Hin.
  - rewrite IH by assumption. split; [now right|]. intros [[= -> _]|Hin]; [|exact Hin]. rewrite (proj2 (H k k) eq_refl) in E. discriminate.
Qed.
Lemma dupd_fresh {K V} (eqb : K -> K -> bool) (H : forall a b, eqb a b = true <-> a = b) k (def : V) f l :
  ~ In k (map fst l) -> dupd eqb k def f l = l ++ [(k, f def)].
Proof.
  induction l as [|[k0 v0] l IH]; simpl; intros Hn; [reflexivity|]. destruct (eqb k k0) eqn:E; [apply H in E; subst; tauto|]. rewrite IH by tauto. reflexivity.
Qed.

Section Group.
  Context {F : Type} (fadd : F -> F -> F) (fzero : F) (feqb : F -> F -> bool) (Hf : forall a b, feqb a b = true <-> a = b).
  Context {K : Type} (keqb kleb : K -> K -> bool) (Hk : forall a b, keqb a b = true <-> a = b).

  (** Specification: the entries of the data with a given key, in order. *)
  Definition with_key (key : desc F -> K) (data : problem_data F) (k : K) : problem_data F := filter (fun e => keqb (key (fst e)) k) data.
  Definition gstep (key : desc F -> K) (res : list (K * problem_data F)) (e : desc F * shot_data F) : list (K * problem_data F) :=
    let '(k, v) := e in dupd keqb (key k) [] (fun g => dupd (desc_eqb feqb) k v (fun _ => v) g) res.

  Lemma grouping key data : forall pre res, NoDup (map fst (pre ++ data)) ->
    NoDup (map fst res) -> (forall k, dget keqb k res = match with_key key pre k with [] => None | g => Some g end) ->
    let res' := fold_left (gstep key) data res in
    NoDup (map fst res') /\ forall k, dget keqb k res' = match with_key key (pre ++ data) k with [] => None | g => Some g end.
  Proof.
    induction data as [|[d s] data IH]; intros pre res Hn Hr Hg; [rewrite app_nil_r; split; assumption|].
    cbn [fold_left]. cbv zeta. change ((d, s) :: data) with ([(d, s)] ++ data) in Hn |- *. rewrite app_assoc in Hn |- *.
    apply IH; [exact Hn| |].
    - unfold gstep. apply dupd_NoDup; [assumption|exact Hr].
    - intros k. unfold gstep. rewrite dget_dupd by assumption. rewrite !Hg. unfold with_key. rewrite filter_app. cbn [filter fst].
      assert (Hfresh : ~ In d (map fst pre)).
      { rewrite !map_app in Hn. apply NoDup_app_inv in Hn as (Hn & _). apply NoDup_app_inv in Hn as (_ & _ & Hn). intros Hin. apply (Hn d Hin). now left. }
      destruct (keqb k (key d)) eqn:E.
      + apply Hk in E. subst k. rewrite (proj2 (Hk (key d) (key d)) eq_refl).
        rewrite dupd_fresh.
        * destruct (filter (fun e => keqb (key (fst e)) (key d)) pre); reflexivity.
        * now apply desc_eqb_iff.
        * intros Hin. apply Hfresh. destruct (filter (fun e => keqb (key (fst e)) (key d)) pre) as [|y g] eqn:Ef; [destruct Hin|]. rewrite <- Ef in Hin.
          apply in_map_iff in Hin as (e & <- & He). apply filter_In in He as [He _]. now apply in_map.
      + destruct (keqb (key d) k) eqn:E2; [apply Hk in E2; subst; rewrite (proj2 (Hk _ _) eq_refl) in E; discriminate|]. rewrite app_nil_r. reflexivity.
  Qed.
  Definition mstep (key : desc F -> K) (res : list (K * shot_data F)) (e : desc F * shot_data F) : list (K * shot_data F) :=
    let '(k, v) := e in dupd keqb (key k) (no_shots fzero) (fun d => add_shots fadd d (num_shots v) (num_correct v) (total_processing_seconds v)) res.
  (** Specification: totals of a list of entries. *)
  Definition total (l : problem_data F) : shot_data F :=
    mkShots (zsum (map (fun e => num_shots (snd e)) l)) (zsum (map (fun e => num_correct (snd e)) l))
            (fold_left fadd (map (fun e => total_processing_seconds (snd e)) l) fzero).
  Lemma merging key data : forall pre res,
    NoDup (map fst res) -> (forall k, dget keqb k res = match with_key key pre k with [] => None | g => Some (total g) end) ->
    let res' := fold_left (mstep key) data res in
    NoDup (map fst res') /\ forall k, dget keqb k res' = match with_key key (pre ++ data) k with [] => None | g => Some (total g) end.
  Proof.
    induction data as [|[d s] data IH]; intros pre res Hr Hg; [rewrite app_nil_r; split; assumption|].
    cbn [fold_left]. cbv zeta. change ((d, s) :: data) with ([(d, s)] ++ data). rewrite app_assoc. apply IH.
    - unfold mstep. apply dupd_NoDup; [assumption|exact Hr].
    - intros k. unfold mstep. rewrite dget_dupd by assumption. rewrite !Hg. unfold with_key. rewrite filter_app. cbn [filter fst].
      destruct (keqb k (key d)) eqn:E.
      + apply Hk in E. subst k. rewrite (proj2 (Hk (key d) (key d)) eq_refl).
        assert (T : total (filter (fun e => keqb (key (fst e)) (key d)) pre ++ [(d, s)]) =
                    add_shots fadd (total (filter (fun e => keqb (key (fst e)) (key d)) pre)) (num_shots s) (num_correct s) (total_processing_seconds s)).
        { unfold total, add_shots. cbn [num_shots num_correct total_processing_seconds]. rewrite !map_app, !zsum_app, fold_left_app. simpl. f_equal; lia. }
        destruct (filter (fun e => keqb (key (fst e)) (key d)) pre) as [|y g]; cbn [app] in *; [|now rewrite T].
        rewrite T. reflexivity.
      + destruct (keqb (key d) k) eqn:E2; [apply Hk in E2; subst; rewrite (proj2 (Hk _ _) eq_refl) in E; discriminate|]. rewrite app_nil_r. reflexivity.
  Qed.
End Group.

(** C43: the groups are exactly the non-empty sets of entries with a common key, one per
    key, in order of the keys; together they are the data. *)
Theorem C43_grouped_by : forall {F K} (feqb : F -> F -> bool) (keqb kleb : K -> K -> bool) key data,
  (forall a b, feqb a b = true <-> a = b) -> (forall a b, keqb a b = true <-> a = b) -> NoDup (map fst data) ->
  let G := grouped_by feqb keqb kleb key data in
  NoDup (map fst G) /\
  (forall k g, In (k, g) G <-> g <> [] /\ g = filter (fun e => keqb (key (fst e)) k) data) /\
  (forall d s, In (d, s) data <-> exists k g, In (k, g) G /\ In (d, s) g) /\
  (forall k g k' g' d s s', In (k, g) G -> In (k', g') G -> In (d, s) g -> In (d, s') g' -> k = k' /\ g = g' /\ s = s') /\
  ((forall x y, kleb x y = true \/ kleb y x = true) -> (forall x y z, kleb x y = true -> kleb y z = true -> kleb x z = true) ->
   StronglySorted (fun a b => kleb a b = true) (map fst G)).
Proof.
  intros F K feqb keqb kleb key data Hf Hk Hn G.
  destruct (grouping feqb Hf keqb Hk key data [] []) as [G1 G2]; [exact Hn|constructor|reflexivity|]. cbv zeta in G1, G2. cbn [app] in G2.
  set (R := fold_left (gstep feqb keqb key) data []) in *.
  assert (EG : G = isort (fun a b => kleb (fst a) (fst b)) R) by reflexivity.
  assert (A1 : NoDup (map fst G)).
  { rewrite EG. eapply Permutation_NoDup; [|exact G1]. apply Permutation_map, isort_perm. }
  assert (A2 : forall k g, In (k, g) G <-> g <> [] /\ g = filter (fun e => keqb (key (fst e)) k) data).
  { intros k g. rewrite EG, in_isort, <- (dget_in keqb Hk) by assumption. rewrite G2. unfold with_key.
    destruct (filter _ data) eqn:E; split; [discriminate|intros [? ->]; congruence|intros [= <-]; split; [discriminate|reflexivity]|intros [_ ->]; reflexivity]. }
  split; [exact A1|]. split; [exact A2|]. split; [|split].
  - intros d s. split.
    + intros Hin. exists (key d), (filter (fun e => keqb (key (fst e)) (key d)) data).
      assert (Hg : In (d, s) (filter (fun e => keqb (key (fst e)) (key d)) data)) by (apply filter_In; split; [exact Hin|now apply Hk]).
      split; [|exact Hg]. apply A2. split; [|reflexivity]. intros E. rewrite E in Hg. destruct Hg.
    + intros (k & g & Hg & Hin). apply A2 in Hg as [_ ->]. now apply filter_In in Hin as [Hin _].
  - intros k g k' g' d s s' H1 H2 I1 I2. apply A2 in H1 as [_ ->]. apply A2 in H2 as [_ ->].
    apply filter_In in I1 as [I1 E1]. apply filter_In in I2 as [I2 E2]. cbn [fst] in E1, E2. apply Hk in E1, E2. subst k k'.
    split; [reflexivity|]. split; [reflexivity|].
    pose proof (desc_eqb_iff feqb Hf) as Hd. apply (dget_in _ Hd) in I1; [|exact Hn]. apply (dget_in _ Hd) in I2; [|exact Hn]. congruence.
  - intros Ht Htr. rewrite EG.
    assert (S : StronglySorted (le_ (fun a b : K * problem_data F => kleb (fst a) (fst b))) (isort (fun a b => kleb (fst a) (fst b)) R)).
    { apply isort_sorted; [intros x y; apply Ht|intros x y z; apply Htr]. }
    revert S. generalize (isort (fun a b : K * problem_data F => kleb (fst a) (fst b)) R). intros l. induction 1 as [|a l S IH Hl]; simpl; [constructor|].
    constructor; [exact IH|]. apply Forall_map. exact Hl.
Qed.
Print Assumptions C43_grouped_by.

(** merged_by: per key, the sums over the entries with that key; grand totals kept. *)
Theorem C43_merged_by : forall {F K} (fadd : F -> F -> F) fzero (keqb kleb : K -> K -> bool) key (data : problem_data F),
  (forall a b, keqb a b = true <-> a = b) ->
  let M := merged_by fadd fzero keqb kleb key data in
  NoDup (map fst M) /\
  (forall k s, In (k, s) M <-> (exists d t, In (d, t) data /\ key d = k) /\
     let g := filter (fun e => keqb (key (fst e)) k) data in
     num_shots s = zsum (map (fun e => num_shots (snd e)) g) /\ num_correct s = zsum (map (fun e => num_correct (snd e)) g) /\
     total_processing_seconds s = fold_left fadd (map (fun e => total_processing_seconds (snd e)) g) fzero) /\
  zsum (map (fun e => num_shots (snd e)) M) = zsum (map (fun e => num_shots (snd e)) data) /\
  zsum (map (fun e => num_correct (snd e)) M) = zsum (map (fun e => num_correct (snd e)) data) /\
  ((forall x y, kleb x y = true \/ kleb y x = true) -> (forall x y z, kleb x y = true -> kleb y z = true -> kleb x z = true) ->
   StronglySorted (fun a b => kleb a b = true) (map fst M)).
Proof.
  intros F K fadd fzero keqb kleb key data Hk M.
  destruct (merging fadd fzero keqb Hk key data [] []) as [G1 G2]; [constructor|reflexivity|]. cbv zeta in G1, G2. cbn [app] in G2.
  set (R := fold_left (mstep fadd fzero keqb key) data []) in *.
  assert (EM : M = isort (fun a b => kleb (fst a) (fst b)) R) by reflexivity.
  split; [|split; [|split; [|split]]].
  - rewrite EM. eapply Permutation_NoDup; [|exact G1]. apply Permutation_map, isort_perm.
  - intros k s. rewrite EM, in_isort, <- (dget_in keqb Hk) by assumption. rewrite G2. unfold with_key. cbv zeta.
    assert (W : filter (fun e => keqb (key (fst e)) k) data <> [] <-> exists d t, In (d, t) data /\ key d = k).
    { split.
      - destruct (filter _ data) as [|[d t] g] eqn:E; [congruence|]. intros _. exists d, t.
        assert (Hin : In (d, t) (filter (fun e => keqb (key (fst e)) k) data)) by (rewrite E; now left).
        apply filter_In in Hin as [Hin He]. split; [exact Hin|now apply Hk].
      - intros (d & t & Hin & <-) E. assert (Hi : In (d, t) (filter (fun e => keqb (key (fst e)) (key d)) data)) by (apply filter_In; split; [exact Hin|now apply Hk]).
        rewrite E in Hi. destruct Hi. }
    rewrite <- W. destruct (filter _ data) as [|e g] eqn:E; [split; [discriminate|intros [? _]; congruence]|]. split.
    + intros [= <-]. split; [discriminate|]. split; [reflexivity|]. split; reflexivity.
    + intros (_ & H1 & H2 & H3). f_equal. unfold total. destruct s as [s1 s2 s3]. cbn [num_shots num_correct total_processing_seconds] in *. congruence.
  - rewrite EM. transitivity (zsum (map (fun e => num_shots (snd e)) R)).
    { apply zsum_perm, Permutation_map, Permutation_sym, isort_perm. }
    unfold R. clear. enough (G : forall res, zsum (map (fun e => num_shots (snd e)) (fold_left (mstep fadd fzero keqb key) data res)) =
      zsum (map (fun e => num_shots (snd e)) res) + zsum (map (fun e => num_shots (snd e)) data)) by (rewrite G; simpl; lia).
    induction data as [|[d s] data IH]; intros res; simpl; [lia|]. rewrite IH. unfold mstep.
    enough (E : zsum (map (fun e => num_shots (snd e)) (dupd keqb (key d) (no_shots fzero) (fun d0 => add_shots fadd d0 (num_shots s) (num_correct s) (total_processing_seconds s)) res))
      = zsum (map (fun e => num_shots (snd e)) res) + num_shots s) by (rewrite E; lia).
    induction res as [|[k v] res IHr]; simpl; [lia|]. destruct (keqb (key d) k); simpl; lia.
  - rewrite EM. transitivity (zsum (map (fun e => num_correct (snd e)) R)).
    { apply zsum_perm, Permutation_map, Permutation_sym, isort_perm. }
    unfold R. clear. enough (G : forall res, zsum (map (fun e => num_correct (snd e)) (fold_left (mstep fadd fzero keqb key) data res)) =
      zsum (map (fun e => num_correct (snd e)) res) + zsum (map (fun e => num_correct (snd e)) data)) by (rewrite G; simpl; lia).
    induction data as [|[d s] data IH]; intros res; simpl; [lia|]. rewrite IH. unfold mstep.
    enough (E : zsum (map (fun e => num_correct (snd e)) (dupd keqb (key d) (no_shots fzero) (fun d0 => add_shots fadd d0 (num_shots s) (num_correct s) (total_processing_seconds s)) res))
      = zsum (map (fun e => num_correct (snd e)) res) + num_correct s) by (rewrite E; lia).
    induction res as [|[k v] res IHr]; simpl; [lia|]. destruct (keqb (key d) k); simpl; lia.
  - intros Ht Htr. rewrite EM.
    assert (S : StronglySorted (le_ (fun a b : K * shot_data F => kleb (fst a) (fst b))) (isort (fun a b => kleb (fst a) (fst b)) R)).
    { apply isort_sorted; [intros x y; apply Ht|intros x y z; apply Htr]. }
    revert S. generalize (isort (fun a b : K * shot_data F => kleb (fst a) (fst b)) R). intros l. induction 1 as [|a l S IH Hl]; simpl; [constructor|].
    constructor; [exact IH|]. apply Forall_map. exact Hl.
Qed.
Print Assumptions C43_merged_by.

Theorem C43_filter : forall {F} (feqb : F -> F -> bool) pred (data : problem_data F),
  (forall a b, feqb a b = true <-> a = b) -> NoDup (map fst data) ->
  filter_data feqb pred data = filter (fun e => pred (fst e)) data.
Proof.
  intros F feqb pred data Hf Hn. unfold filter_data.
  enough (G : forall pre res, NoDup (map fst (pre ++ data)) -> res = filter (fun e => pred (fst e)) pre ->
    fold_left (fun res '(k, v) => if pred k then dupd (desc_eqb feqb) k v (fun _ => v) res else res) data res = filter (fun e => pred (fst e)) (pre ++ data)).
  { apply (G [] []); [exact Hn|reflexivity]. }
  clear Hn. induction data as [|[d s] data IH]; intros pre res Hn ->; [now rewrite app_nil_r|].
  cbn [fold_left]. change ((d, s) :: data) with ([(d, s)] ++ data) in Hn |- *. rewrite app_assoc in Hn |- *. apply IH; [exact Hn|].
  rewrite filter_app. cbn [filter fst]. destruct (pred d); [|now rewrite app_nil_r].
  apply dupd_fresh; [now apply desc_eqb_iff|]. rewrite !map_app in Hn. apply NoDup_app_inv in Hn as (Hn & _). apply NoDup_app_inv in Hn as (_ & _ & Hn).
  intros Hin. apply (Hn d); [|now left]. apply in_map_iff in Hin as (e & <- & He). apply filter_In in He as [He _]. now apply in_map.
Qed.
Print Assumptions C43_filter.

(** The data read from files is such a dict. *)
Example C43_example :
  let data := [(ex_desc, mkShots 100 90 35); (ex_desc2, mkShots 130 117 49); (with_changes ex_desc None None None None None (Some 5) None None None, mkShots 10 4 1)] in
  NoDup (map fst data) /\
  map (fun '(k, g) => (k, map (fun e => num_shots (snd e)) g)) (grouped_by Z.eqb String.eqb String.leb d_style data) = [("EM3", [100; 10]); ("SD6", [130])]%string /\
  map (fun '(k, s) => (k, num_shots s, num_correct s, total_processing_seconds s)) (merged_by Z.add 0 String.eqb String.leb d_style data)
    = [("EM3", 110, 94, 36); ("SD6", 130, 117, 49)]%string /\
  map (fun e => num_shots (snd e)) (filter_data Z.eqb (fun d => d_noise d =? 1) data) = [100; 130].
Proof. split; [repeat constructor; simpl; intuition discriminate|]. vm_compute. auto. Qed.

(** ** C44: remaining work *)
(** Specification: when the work is over. *)
Definition over (d : shot_data Q) (ms me : Z) (breaker : Q) : Prop :=
  ms <= num_shots d \/ me <= num_shots d - num_correct d \/
  (10 <= num_shots d /\ (breaker * inject_Z (num_shots d) <= inject_Z (num_shots d - num_correct d))%Q).

Lemma finished_over d ms me br : finished (mkWork d ms me br) = true <-> over d ms me br.
Proof.
  unfold finished, over, num_errors. cbn [w_data w_max_shots w_max_errors w_breaker].
  destruct (Z.leb_spec ms (num_shots d)) as [H1|H1]; [tauto|].
  destruct (Z.leb_spec me (num_shots d - num_correct d)) as [H2|H2]; [tauto|].
  destruct (Z.leb_spec 10 (num_shots d)) as [H3|H3].
  - unfold logical_error_rate. destruct (Z.eqb_spec (num_shots d) 0) as [H0|H0]; [lia|].
    rewrite andb_true_r.
    assert (P : (0 < inject_Z (num_shots d))%Q) by (change 0%Q with (inject_Z 0); rewrite <- Zlt_Qlt; lia).
    destruct (Qle_bool br (inject_Z (num_shots d - num_correct d) / inject_Z (num_shots d))) eqn:E.
    + split; [intros _|reflexivity]. right; right. split; [exact H3|]. apply Qle_bool_iff in E.
      setoid_replace (inject_Z (num_shots d - num_correct d)) with ((inject_Z (num_shots d - num_correct d) / inject_Z (num_shots d)) * inject_Z (num_shots d))%Q by (field; lra).
      apply Qmult_le_compat_r; [exact E|lra].
    + split; [discriminate|]. intros [?|[?|[_ H]]]; try lia.
      assert (E2 : Qle_bool br (inject_Z (num_shots d - num_correct d) / inject_Z (num_shots d)) = true); [|congruence].
      apply Qle_bool_iff. apply Qle_shift_div_l; assumption.
  - rewrite andb_false_r. split; [discriminate|]. intros [?|[?|[? _]]]; lia.
Qed.

Theorem C44_remaining_work : forall d ms me br,
  let w := mkWork d ms me br in
  (finished w = true <-> over d ms me br) /\
  (finished w = true -> remaining_shots w = 0 /\ remaining_errors w = 0 /\ remaining_time w = Some 0%Q) /\
  (finished w = false -> 0 < remaining_shots w /\ 0 < remaining_errors w /\
     num_shots d + remaining_shots w = ms /\ (num_shots d - num_correct d) + remaining_errors w = me).
Proof.
  intros d ms me br w. split; [apply finished_over|]. unfold remaining_shots, remaining_errors, remaining_time.
  destruct (finished w) eqn:E; split; intros H; try discriminate; [auto|].
  assert (N : ~ over d ms me br) by (rewrite <- finished_over; fold w; congruence). unfold over in N.
  unfold w, num_errors. cbn [w_data w_max_shots w_max_errors]. lia.
Qed.
Print Assumptions C44_remaining_work.

(** The time estimate: none without shots; otherwise the smaller of the two proportional
    estimates, and non-negative. *)
Theorem C44_remaining_time : forall d ms me br,
  0 <= num_correct d <= num_shots d -> (0 <= total_processing_seconds d)%Q ->
  let w := mkWork d ms me br in finished w = false ->
  (num_shots d = 0 -> remaining_time w = None) /\
  (0 < num_shots d -> exists t, remaining_time w = Some t /\ (0 <= t)%Q /\
     let by_shots := (inject_Z (remaining_shots w) * total_processing_seconds d / inject_Z (num_shots d))%Q in
     (num_correct d = num_shots d -> t = by_shots) /\
     (num_correct d < num_shots d ->
        let by_errors := (inject_Z (remaining_errors w) * total_processing_seconds d / inject_Z (num_shots d - num_correct d))%Q in
        (t <= by_shots)%Q /\ (t <= by_errors)%Q /\ (t = by_shots \/ t = by_errors))).
Proof.
  intros d ms me br Hc Hs w E. pose proof (proj2 (proj2 (C44_remaining_work d ms me br)) E) as (R1 & R2 & _). fold w in R1, R2.
  assert (Pos : forall n k : Z, 0 < n -> 0 < k -> (0 <= inject_Z n * total_processing_seconds d / inject_Z k)%Q).
  { intros n k Hn Hk. apply Qle_shift_div_l; [change 0%Q with (inject_Z 0); rewrite <- Zlt_Qlt; lia|].
    rewrite Qmult_0_l. apply Qmult_le_0_compat; [change 0%Q with (inject_Z 0); rewrite <- Zle_Qle; lia|exact Hs]. }
  unfold remaining_time. rewrite E. unfold num_errors. change (w_data w) with d. split.
  - intros H0. replace (num_shots d - num_correct d) with 0 by lia. rewrite H0. reflexivity.
  - intros H0. destruct (Z.eqb_spec (num_shots d) 0) as [?|_]; [lia|]. cbn [min_time].
    destruct (Z.eqb_spec (num_shots d - num_correct d) 0) as [H1|H1].
    + eexists. split; [reflexivity|]. split; [apply Pos; lia|]. cbv zeta. split; [reflexivity|lia].
    + unfold min_time. eexists. split; [reflexivity|].
      assert (P1 := Pos (remaining_shots w) (num_shots d) R1 ltac:(lia)). assert (P2 := Pos (remaining_errors w) (num_shots d - num_correct d) R2 ltac:(lia)).
      cbv zeta. destruct (Qle_bool _ _) eqn:EQ.
      * apply Qle_bool_iff in EQ. split; [exact P1|]. split; [lia|]. intros _. split; [apply Qle_refl|]. split; [exact EQ|now left].
      * assert (EQ' : ~ (inject_Z (remaining_shots w) * total_processing_seconds d / inject_Z (num_shots d) <= inject_Z (remaining_errors w) * total_processing_seconds d / inject_Z (num_shots d - num_correct d))%Q).
        { rewrite <- Qle_bool_iff. congruence. }
        apply Qnot_le_lt, Qlt_le_weak in EQ'. split; [exact P2|]. split; [lia|]. intros _. split; [exact EQ'|]. split; [apply Qle_refl|now right].
Qed.
Print Assumptions C44_remaining_time.

(** No data: finished exactly when nothing is asked for. *)
Theorem C44_no_data : forall ms me br, finished (mkWork (mkShots 0 0 0%Q) ms me br) = true <-> ms <= 0 \/ me <= 0.
Proof. intros. rewrite finished_over. unfold over. cbn [num_shots num_correct]. intuition lia. Qed.
Print Assumptions C44_no_data.
Example C44_example :
  let w := mkWork (mkShots 100 96 50%Q) 1000 8 (2#5) in
  finished w = false /\ remaining_shots w = 900 /\ remaining_errors w = 4 /\ (exists t, remaining_time w = Some t /\ (t == 50)%Q) /\
  finished (mkWork (mkShots 100 60 50%Q) 1000 80 (2#5)) = true /\ finished (mkWork (mkShots 9 0 50%Q) 1000 80 (2#5)) = false.
Proof. cbv zeta. split; [reflexivity|]. split; [reflexivity|]. split; [reflexivity|]. split; [eexists; split; [reflexivity|reflexivity]|]. split; reflexivity. Qed.

(** ** C45: with_changes *)
Theorem C45_with_changes : forall {F} (d : desc F) w h dist q r n st ob de,
  let d' := with_changes d w h dist q r n st ob de in
  (match w with Some x => d_width d' = x | None => d_width d' = d_width d end) /\
  (match h with Some x => d_height d' = x | None => d_height d' = d_height d end) /\
  (match dist with Some x => d_distance d' = x | None => d_distance d' = d_distance d end) /\
  (match q with Some x => d_qubits d' = x | None => d_qubits d' = d_qubits d end) /\
  (match r with Some x => d_rounds d' = x | None => d_rounds d' = d_rounds d end) /\
  (match n with Some x => d_noise d' = x | None => d_noise d' = d_noise d end) /\
  (match st with Some x => d_style d' = x | None => d_style d' = d_style d end) /\
  (match ob with Some x => d_obs d' = x | None => d_obs d' = d_obs d end) /\
  (match de with Some x => d_decoder d' = x | None => d_decoder d' = d_decoder d end).
Proof. intros. destruct w, h, dist, q, r, n, st, ob, de; repeat split; reflexivity. Qed.
Print Assumptions C45_with_changes.
Theorem C45_identity : forall {F} (d : desc F), with_changes d None None None None None None None None None = d.
Proof. intros F []. reflexivity. Qed.
Print Assumptions C45_identity.
(** Grouping by [with_changes(noise=0)], as plot_data does: two problems fall together
    exactly when they differ at most in noise. *)
Theorem C45_forget_noise : forall {F} (a b : desc F) z,
  let forget d := with_changes d None None None None None (Some z) None None None in
  forget a = forget b <-> exists n, a = with_changes b None None None None None n None None None.
Proof.
  intros F a b z forget. unfold forget. split.
  - destruct a as [aw ah ad aq ar an ast ao ade], b. unfold with_changes. cbn. intros [= -> -> -> -> -> -> -> ->]. exists (Some an). reflexivity.
  - intros [n ->]. destruct b, n; reflexivity.
Qed.
Print Assumptions C45_forget_noise.
Example C45_example : with_changes ex_desc None (Some 9) None None None None None None (Some "pymatching"%string)
  = mkDesc 4 9 2 60 30 1 "EM3"%string "V"%string "pymatching"%string.
Proof. reflexivity. Qed.
