(** C52, C55, C73: what main_collect_all.py's options select, which files the surface code
    problems read, when a group is marked as poorly extrapolated, and that the summary
    figures have a place for every problem of the tables. *)
From Coq Require Import QArith Qround Qabs.
From Coq Require Import Ascii Lqa.
From Verif Require Import Prelude Text Layout LayoutFacts Collect Prop_Collect Paper Prop_Paper Prop_Paper2 Plot.
Open Scope Z_scope.

(** ** Specification *)
(** The problems selected by --problem_id: all of them without the option; with it, the
    one that has that many problems before it or, counting from -1 backwards, after it. *)
Inductive picks {A} (l : list A) : option Z -> list A -> Prop :=
| picks_all : picks l None l
| picks_front pre x post : l = pre ++ x :: post -> picks l (Some (Z.of_nat (length pre))) [x]
| picks_back pre x post : l = pre ++ x :: post -> picks l (Some (- Z.of_nat (length post) - 1)) [x].
(** A limit: the given one; otherwise the full one without --case_reduction (or with 0),
    and its whole part after division by the reduction with it. *)
Inductive limit (full : Z) (red : option Z) : option Z -> Z -> Prop :=
| limit_given x : limit full red (Some x) x
| limit_full : red = None \/ red = Some 0 -> limit full red None full
| limit_part r q rem : red = Some r -> full = r * q + rem -> 0 <= rem < r \/ r < rem <= 0 -> limit full red None q.

(** ** C52: what is collected *)
Lemma py_index_spec {A} (l : list A) i :
  (exists x, py_index l i = Ok x /\ picks l (Some i) [x]) \/
  ((i < - Z.of_nat (length l) \/ Z.of_nat (length l) <= i) /\ py_index l i = Err IndexError).
Proof.
  unfold py_index. set (n := Z.of_nat (length l)). set (j := if i <? 0 then i + n else i).
  destruct ((0 <=? j) && (j <? n)) eqn:E.
  - apply andb_true_iff in E as [E1 E2]. apply Z.leb_le in E1. apply Z.ltb_lt in E2. left.
    destruct (nth_error l (Z.to_nat j)) as [x|] eqn:En; [|apply nth_error_None in En; lia]. exists x. split; [reflexivity|].
    apply nth_error_split in En as (pre & post & El & Hl). unfold j in *. destruct (Z.ltb_spec i 0) as [Hi|Hi].
    + replace i with (- Z.of_nat (length post) - 1); [now apply (picks_back l pre x post)|]. unfold n in *. rewrite El, app_length in *. cbn [length] in *. lia.
    + replace i with (Z.of_nat (length pre)) by lia. now apply (picks_front l pre x post).
  - right. split; [|reflexivity]. apply andb_false_iff in E. rewrite Z.leb_gt, Z.ltb_ge in E. unfold j in *. destruct (Z.ltb_spec i 0); lia.
Qed.
Lemma limit_spec full red o : 0 <= full ->
  exists x, from_default o full (main_case_reduction red) = Ok x /\ limit full red o x.
Proof.
  intros Hf. unfold from_default. destruct o as [x|]; [exists x; split; [reflexivity|constructor]|].
  destruct red as [r|]; cbn [main_case_reduction].
  - destruct (Z.eqb_spec r 0) as [->|Hr].
    + exists full. split; [rewrite Z.div_1_r; reflexivity|]. apply limit_full. now right.
    + rewrite (proj2 (Z.eqb_neq r 0) Hr). exists (full / r). split; [reflexivity|]. apply (limit_part full (Some r) r (full / r) (full mod r)); [reflexivity|apply Z.div_mod; exact Hr|].
      destruct (Z.neg_pos_cases r) as [H _]. specialize (H Hr). destruct H as [H|H]; [right; apply Z.mod_neg_bound; exact H|left; apply Z.mod_pos_bound; exact H].
  - exists full. split; [cbn; rewrite Z.div_1_r; reflexivity|]. apply limit_full. now left.
Qed.

(** Whatever the options: the problem asked for and nothing else, with at least 25 shots
    for each, batches of at most the given size (or 32768), and the limits on shots and
    on errors given (or 10^8 and 1000 divided by the reduction); IndexError exactly when
    there is no such problem. *)
Theorem C52_selected : forall default_dir sdir pid red ms me mb, exists hs, honeycomb_problems = Ok hs /\
  let all := hs ++ surface_code_problems match sdir with None => Some default_dir | _ => sdir end in
  (exists ds P, collect_data default_dir sdir pid (main_case_reduction red) ms me mb = Ok (ds, P) /\ picks all pid ds /\
    min_shots P = 25 /\ limit 100000000 red ms (max_shots P) /\ limit 1000 red me (min_seen_logical_errors P) /\
    max_batch P = Some match mb with Some b => b | None => 32768 end) \/
  (exists i, pid = Some i /\ (i < - Z.of_nat (length all) \/ Z.of_nat (length all) <= i) /\
    collect_data default_dir sdir pid (main_case_reduction red) ms me mb = Err IndexError).
Proof.
  intros dd sdir pid red ms me mb. unfold collect_data. eexists. split; [apply honeycomb_problems_ok|].
  change honeycomb_problems with (honeycomb_problems_from USED_NOISE_VALUES HONEYCOMB_UNITS HONEYCOMB_STYLES HONEYCOMB_OBS DECODERS).
  rewrite honeycomb_problems_ok. cbn [bind]. cbv zeta.
  replace (match sdir with Some d => Some d | None => Some dd end) with (match sdir with None => Some dd | _ => sdir end) by (destruct sdir; reflexivity).
  match goal with |- context [length ?l] => set (all := l) end. clearbody all.
  destruct (limit_spec (10 ^ 8) red ms ltac:(lia)) as (ms' & Em & Lm). destruct (limit_spec (10 ^ 3) red me ltac:(lia)) as (me' & Ee & Le).
  rewrite Em, Ee. cbn [bind]. destruct pid as [i|].
  - destruct (py_index_spec all i) as [(x & E & K)|(R & E)]; rewrite E; cbn [bind].
    + left. eexists _, _. split; [reflexivity|]. cbn [min_shots max_shots min_seen_logical_errors max_batch]. auto 6.
    + right. exists i. auto.
  - left. eexists _, _. split; [reflexivity|]. cbn [bind min_shots max_shots min_seen_logical_errors max_batch]. repeat split; auto. constructor.
Qed.
Print Assumptions C52_selected.
(** The last problem with a tenth of the budget; problem number 1500 does not exist. *)
Example C52_selected_example : exists x P,
  collect_data "dir" None (Some (-1)) (main_case_reduction (Some 10)) None None None = Ok ([x], P) /\
  d_distance (fst x) = 19 /\ d_obs (fst x) = "Z"%string /\ d_decoder (fst x) = "internal_correlated"%string /\ max_shots P = 10000000 /\ min_seen_logical_errors P = 100 /\
  collect_data "dir" None (Some 1500) (main_case_reduction (Some 10)) None None None = Err IndexError.
Proof. eexists _, _. split; [vm_compute; reflexivity|]. repeat split; vm_compute; reflexivity. Qed.

(** ** C52: the files of the surface code problems *)
Lemma free_unsplit c a a' b b' : free c a -> free c a' -> (a ++ String c b = a' ++ String c b')%string -> a = a' /\ b = b'.
Proof.
  revert a'. induction a as [|x a IH]; intros [|y a'] Ha Ha' E; cbn [append free] in *.
  - injection E as ->. auto.
  - injection E as -> E. destruct Ha' as [K _]. rewrite Ascii.eqb_refl in K. discriminate.
  - injection E as -> E. destruct Ha as [K _]. rewrite Ascii.eqb_refl in K. discriminate.
  - injection E as -> E. destruct (IH a' (proj2 Ha) (proj2 Ha') E) as [-> ->]. auto.
Qed.
Lemma str_int_inj a b : str_int a = str_int b -> a = b.
Proof. intros E. pose proof (int_read a) as A. rewrite E, int_read in A. congruence. Qed.
Lemma surface_path_inj dir n1 n2 o1 o2 d1 d2 : In n1 SURFACE_NOISES -> In n2 SURFACE_NOISES -> In o1 SURFACE_OBS -> In o2 SURFACE_OBS ->
  surface_path dir n1 o1 d1 = surface_path dir n2 o2 d2 -> n1 = n2 /\ o1 = o2 /\ d1 = d2.
Proof.
  unfold surface_path. intros N1 N2 O1 O2 E. apply app_inv_pre in E. 
  assert (D : (str_int d1 ++ "_p0.0.stim" = str_int d2 ++ "_p0.0.stim")%string -> d1 = d2).
  { intros K. assert (Fr : forall d, free "_" (str_int d)) by (intros d; apply int_free; [apply nondigit_of; repeat constructor|reflexivity]).
    apply str_int_inj. exact (proj1 (free_unsplit "_" _ _ "p0.0.stim" "p0.0.stim" (Fr d1) (Fr d2) K)). }
  cbn [In SURFACE_NOISES SURFACE_OBS] in *. 
  destruct N1 as [<-|[<-|[]]], N2 as [<-|[<-|[]]], O1 as [<-|[<-|[]]], O2 as [<-|[<-|[]]]; cbn in E; try discriminate; injection E as E; auto.
Qed.
(** Two surface code problems of the table read the same file exactly when they have the
    same kind of noise, observable and distance; the noise added to it is the noise of the
    description. *)
Theorem C52_files : forall dir a m b m', In (a, m) (surface_code_problems (Some dir)) -> In (b, m') (surface_code_problems (Some dir)) ->
  exists f name p f' name' p', m = Surface f name p /\ m' = Surface f' name' p' /\
    d_style a = ("surface_" ++ name)%string /\ d_noise a = p /\
    (f = f' <-> d_style a = d_style b /\ d_obs a = d_obs b /\ d_distance a = d_distance b).
Proof.
  intros dir a m b m' Ha Hb. unfold surface_code_problems in *. rewrite surface_problems_ok in Ha, Hb. destruct (_ || _); [destruct Ha|].
  apply in_map_iff in Ha as ([dec [d [p [name ob]]]] & E & Ha). apply in_map_iff in Hb as ([dec' [d' [p' [name' ob']]]] & E' & Hb).
  unfold sf_params in *. rewrite !in_prod2 in Ha, Hb. cbn [sf_problem] in E, E'. unfold surface_code_problem in E, E'. injection E as <- <-. injection E' as <- <-.
  eexists _, _, _, _, _, _. split; [reflexivity|]. split; [reflexivity|]. cbn [d_style d_noise d_obs d_distance]. split; [reflexivity|]. split; [reflexivity|]. split.
  - intros E. apply surface_path_inj in E as (-> & -> & ->); tauto.
  - intros (E1 & -> & ->). injection E1 as ->. reflexivity.
Qed.
Print Assumptions C52_files.
Example C52_files_example : exists a b m m', In (a, m) (surface_code_problems (Some "circuits"%string)) /\ In (b, m') (surface_code_problems (Some "circuits"%string)) /\ d_obs a <> d_obs b /\
  m = Surface "circuits/sd6_X/d3_p0.0.stim" "SD6" (1 # 10000) /\ m' = Surface "circuits/si1000_Z/d3_p0.0.stim" "SI1000" (1 # 10000).
Proof.
  eexists _, _, _, _. split; [apply (nth_error_In _ 0); vm_compute; reflexivity|]. split; [apply (nth_error_In _ 3); vm_compute; reflexivity|]. split; [discriminate|]. split; reflexivity.
Qed.

(** ** C55: groups marked as poorly extrapolated *)
(** How many entries with noise [n] there are on one side. *)
Definition entries_of {F} (data : list (entry F)) (n : Q) (side : bool) : Z :=
  Z.of_nat (length (filter (fun e => Qeq_bool (d_noise (fst e)) n && Bool.eqb (str_in (d_obs (fst e)) "HX") side) data)).
(** Exactly when one of the two observables has data for fewer than three sizes. *)
Theorem C55_low_confidence : forall F (data : list (entry F)) groups n g,
  groups_from_data data = Ok groups -> dget Qeq_bool n groups = Some g ->
  (has_low_confidence_extrapolation g = true <-> exists side, entries_of data n side < 3).
Proof.
  intros F data groups n g E Hg. unfold groups_from_data in E.
  destruct (groups_from_spec data [] [] tables_nil no_clash_nil) as [[_ E']|[_ (groups' & E' & _ & T)]]; [congruence|]. assert (groups' = groups) by congruence. subst groups'. cbn [app] in T.
  specialize (T n). rewrite Hg in T. destruct T as (e & _ & _ & _ & Th & Tv). unfold has_low_confidence_extrapolation. rewrite Th, Tv. unfold table. rewrite !map_length.
  fold (entries_of data n false) (entries_of data n true). rewrite Z.ltb_lt. split.
  - intros H. destruct (Z.lt_ge_cases (entries_of data n false) 3); [now exists false|exists true; lia].
  - intros [[|] H]; lia.
Qed.
Print Assumptions C55_low_confidence.
Definition low_data : list (entry Z) :=
  map (fun '(o, d) => (mkDesc d d d 10 9 (1 # 10) "surface_SD6" o "internal", mkShots 100 90 1%Z)) [("X", 3); ("X", 7); ("Z", 3); ("Z", 7); ("X", 11)]%string.
Example C55_low_confidence_example : exists g g', groups_from_data low_data = Ok [(1 # 10, g)] /\ has_low_confidence_extrapolation g = true /\
  groups_from_data (low_data ++ [(mkDesc 11 11 11 10 9 (1 # 10) "surface_SD6"%string "Z"%string "internal"%string, mkShots 100 90 1%Z)]) = Ok [(1 # 10, g')] /\ has_low_confidence_extrapolation g' = false.
Proof. eexists _, _. split; [vm_compute; reflexivity|]. split; [reflexivity|]. split; [vm_compute; reflexivity|]. reflexivity. Qed.

(** ** C73: a column for every problem *)
(** Every kind of problem collected for the paper is drawn in exactly one column of the
    summary figures, at exactly one place of it. *)
Theorem C73_every_problem : forall dir hs d m, honeycomb_problems = Ok hs -> In (d, m) (hs ++ surface_code_problems dir) ->
  exists j name cases i, nth_error combo_styles j = Some (name, cases) /\ nth_error cases i = Some (d_style d, d_decoder d) /\
    forall j' name' cases' i', nth_error combo_styles j' = Some (name', cases') -> nth_error cases' i' = Some (d_style d, d_decoder d) -> j' = j /\ i' = i.
Proof.
  intros dir hs d m E H. change honeycomb_problems with (honeycomb_problems_from USED_NOISE_VALUES HONEYCOMB_UNITS HONEYCOMB_STYLES HONEYCOMB_OBS DECODERS) in E.
  rewrite honeycomb_problems_ok in E. apply (f_equal (fun r => match r with Ok x => x | Err _ => [] end)) in E. cbv beta iota in E. subst hs.
  assert (K : In (d_decoder d) DECODERS /\ In (d_style d) ["honeycomb_SD6"; "honeycomb_SI1000"; "honeycomb_EM3_v2"; "surface_SD6"; "surface_SI1000"]%string).
  { apply in_app_iff in H as [H|H].
    - apply in_map_iff in H as ([dec [[[p u] s] o]] & [= <- _] & H). apply in_prod2 in H as [Hd H]. apply in_hc_params in H as (_ & _ & Hs & _).
      cbn [as_decoder_problem_desc hc_layout d_decoder d_style style]. split; [exact Hd|]. cbn [In HONEYCOMB_STYLES] in Hs. destruct Hs as [<-|[<-|[<-|[]]]]; cbn; tauto.
    - unfold surface_code_problems in H. rewrite surface_problems_ok in H. destruct dir as [dir|]; [|destruct H]. destruct (_ || _); [destruct H|].
      apply in_map_iff in H as ([dec [D [p [name ob]]]] & [= <- _] & H). unfold sf_params in H. rewrite !in_prod2 in H. destruct H as (Hd & _ & _ & Hs & _).
      cbn [d_decoder d_style]. split; [exact Hd|]. cbn [In SURFACE_NOISES] in Hs. destruct Hs as [<-|[<-|[]]]; cbn; tauto. }
  destruct K as [Kd Ks]. revert Kd Ks. generalize (d_style d) (d_decoder d). intros st de Kd Ks.
  assert (U : forall j i, match nth_error combo_styles j with Some (_, cases) => nth_error cases i = Some (st, de) | None => False end ->
    forall j' name' cases' i', nth_error combo_styles j' = Some (name', cases') -> nth_error cases' i' = Some (st, de) -> j' = j /\ i' = i).
  { intros j i H0 j' name' cases' i' H1 H2. unfold combo_styles in *.
    assert (Bj : (j < 3)%nat) by (destruct j as [|[|[|j]]]; [lia..|destruct j; destruct H0]).
    assert (Bj' : (j' < 3)%nat) by (destruct j' as [|[|[|j']]]; [lia..|destruct j'; discriminate]).
    assert (Bi : (i < 4)%nat).
    { destruct j as [|[|[|j]]]; cbn [nth_error] in H0; [| | |lia]; destruct i as [|[|[|[|i]]]]; try lia; cbn in H0; destruct i; discriminate. }
    assert (Bi' : (i' < 4)%nat).
    { destruct j' as [|[|[|j']]]; cbn [nth_error] in H1; [injection H1 as <- <-..|lia]; destruct i' as [|[|[|[|i']]]]; try lia; cbn in H2; destruct i'; discriminate. }
    destruct j as [|[|[|j]]]; try lia; destruct j' as [|[|[|j']]]; try lia; cbn [nth_error] in H0, H1; injection H1 as <- <-;
      destruct i as [|[|[|[|i]]]]; try lia; cbn [nth_error] in H0; try discriminate; injection H0 as <- <-;
      destruct i' as [|[|[|[|i']]]]; try lia; cbn [nth_error] in H2; try discriminate; auto. }
  assert (X : exists j i, match nth_error combo_styles j with Some (_, cases) => nth_error cases i = Some (st, de) | None => False end).
  { cbn [In DECODERS] in Kd. cbn [In] in Ks.
    destruct Kd as [<-|[<-|[]]], Ks as [<-|[<-|[<-|[<-|[<-|[]]]]]];
      ((exists 0%nat, 0%nat; reflexivity) || (exists 0%nat, 1%nat; reflexivity) || (exists 0%nat, 2%nat; reflexivity) || (exists 0%nat, 3%nat; reflexivity) ||
       (exists 1%nat, 0%nat; reflexivity) || (exists 1%nat, 1%nat; reflexivity) || (exists 1%nat, 2%nat; reflexivity) || (exists 1%nat, 3%nat; reflexivity) ||
       (exists 2%nat, 0%nat; reflexivity) || (exists 2%nat, 1%nat; reflexivity)). }
  destruct X as (j & i & X). pose proof (U j i X) as U'. destruct (nth_error combo_styles j) as [[name cases]|] eqn:Ej; [|destruct X].
  exists j, name, cases, i. auto.
Qed.
Print Assumptions C73_every_problem.
Example C73_every_problem_example : exists hs d m, honeycomb_problems = Ok hs /\ In (d, m) (hs ++ surface_code_problems None) /\ d_style d = "honeycomb_EM3_v2"%string /\ d_decoder d = "internal"%string.
Proof.
  eexists _, _, _. split; [apply honeycomb_problems_ok|]. split; [apply (nth_error_In _ 4); vm_compute; reflexivity|]. split; reflexivity.
Qed.
