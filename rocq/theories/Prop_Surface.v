(** C89: the circuits of the surface code problems of main_collect_all.py. *)
From Coq Require Import QArith.
From Verif Require Import Prelude Layout LayoutFacts Prop_Layout Tracker Stim Circuit Noise Collect Paper Gen Gen3 Moments Prop_Circuit NoiseFacts NoiseMoments GenShape NoiseAlign Prop_Noise Prop_Noise2 Prop_Paper Surface.
Open Scope Z_scope.

(** The file of a problem, written out. *)
Definition file_of (dir : string) (a : desc Q) : string :=
  (dir ++ (if (d_style a =? "surface_SD6")%string then "/sd6_" else "/si1000_") ++ d_obs a ++ "/d" ++ str_int (d_distance a) ++ "_p0.0.stim")%string.
(** The name of the noise of a problem. *)
Definition noise_of (a : desc Q) : string := if (d_style a =? "surface_SD6")%string then "SD6"%string else "SI1000"%string.

Definition as_layout (name : string) (p : Q) : layout := mkLayout 0 0 0 name "" p.
Lemma table_problem dir a m : In (a, m) (surface_code_problems (Some dir)) ->
  (d_style a = "surface_SD6"%string \/ d_style a = "surface_SI1000"%string) /\ m = Surface (file_of dir a) (noise_of a) (d_noise a).
Proof.
  intros Ha. unfold surface_code_problems in Ha. rewrite surface_problems_ok in Ha. destruct (_ || _); [destruct Ha|].
  apply in_map_iff in Ha as ([dec [d [p [name ob]]]] & E & Ha). unfold sf_params in Ha. rewrite !in_prod2 in Ha. destruct Ha as (_ & _ & _ & Hn & _).
  cbn [sf_problem] in E. unfold surface_code_problem in E. injection E as <- <-. unfold file_of, noise_of. cbn [d_style d_noise d_obs d_distance].
  destruct Hn as [<-|[<-|[]]]; split; auto; reflexivity.
Qed.
Lemma table_circuit files dir a m : In (a, m) (surface_code_problems (Some dir)) ->
  exists nm, layout_noise_model (as_layout (noise_of a) (d_noise a)) = Ok nm /\ (noise_of a = "SD6"%string \/ noise_of a = "SI1000"%string) /\
    make_circuit files m = match files (file_of dir a) with None => Err RuntimeError | Some c => noisy_circuit nm c end.
Proof.
  intros Ha. destruct (table_problem dir a m Ha) as [_ ->]. cbn [make_circuit]. unfold circuit_from_file, noise_of.
  destruct (d_style a =? "surface_SD6")%string; eexists; (split; [reflexivity|]); (split; [auto|]); destruct (files _); reflexivity.
Qed.
Lemma no_pairs name p g : name = "SD6"%string \/ name = "SI1000"%string -> g = "MPP"%string -> strength name p g = None.
Proof. intros [-> | ->] ->; reflexivity. Qed.

(** Every problem of the table reads one file, the one named by its description: its circuit
    does not depend on any other file, and without that file there is none. *)
Theorem C89_one_file : forall dir a m, In (a, m) (surface_code_problems (Some dir)) ->
  (forall files files' : disk, files (file_of dir a) = files' (file_of dir a) -> make_circuit files m = make_circuit files' m) /\
  (forall files : disk, files (file_of dir a) = None -> make_circuit files m = Err RuntimeError).
Proof.
  intros dir a m Ha. destruct (table_problem dir a m Ha) as [_ ->]. cbn [make_circuit]. unfold circuit_from_file.
  split; [intros files files' -> | intros files ->]; reflexivity.
Qed.
Print Assumptions C89_one_file.

(** The circuit runs the instructions of the file, in order, with noise channels between. *)
Theorem C89_same_operations : forall files dir a m c c', In (a, m) (surface_code_problems (Some dir)) ->
  files (file_of dir a) = Some c -> (forall op, In op (instrs c) -> ideal_op op) -> make_circuit files m = Ok c' ->
  filter (fun i => negb (is_noise i)) (flatten c') = flatten c.
Proof.
  intros files dir a m c c' Ha Hf Hi E. destruct (table_circuit files dir a m Ha) as (nm & Hm & Hn & K). rewrite K, Hf in E.
  rewrite (C26_noise_only_adds_noise _ nm c c' Hm) by (auto; cbn; destruct Hn as [-> | ->]; discriminate).
  rewrite <- (map_id (flatten c)) at 2. apply map_ext. intros op. cbn [as_layout style noise].
  destruct (String.eqb_spec (iname op) "MPP") as [F|F]; [now rewrite (no_pairs _ _ _ Hn F)|]. cbn [andb]. now destruct (strength _ _ _).
Qed.
Print Assumptions C89_same_operations.

(** It exists exactly when the noise named by the description knows every gate of the file. *)
Theorem C89_accepted : forall files dir a m c, In (a, m) (surface_code_problems (Some dir)) -> files (file_of dir a) = Some c ->
  if forallb (fun op => match strength (noise_of a) (d_noise a) (iname op) with Some _ => true | None => false end) (instrs c)
  then exists c', make_circuit files m = Ok c' else make_circuit files m = Err NotImplementedError.
Proof.
  intros files dir a m c Ha Hf. destruct (table_circuit files dir a m Ha) as (nm & Hm & Hn & ->). rewrite Hf.
  pose proof (noisy_circuit_ok nm c) as K. set (lay := as_layout (noise_of a) (d_noise a)) in *.
  assert (Y : forall op q, strength (noise_of a) (d_noise a) (iname op) = Some q -> op_ok nm op = Ok tt).
  { intros op q Hq. apply (op_ok_supported lay nm op q Hm Hq). intros F. rewrite (no_pairs _ _ _ Hn F) in Hq. discriminate. }
  assert (N : forall op, strength (noise_of a) (d_noise a) (iname op) = None -> op_ok nm op = Err NotImplementedError).
  { intros o Ho. unfold op_ok, is_tick_name. destruct (String.eqb_spec (iname o) "TICK") as [E|_]; [rewrite E in Ho; discriminate|].
    rewrite (proj1 (C29_strengths lay nm o Hm)). cbn [lay as_layout style noise]. now rewrite Ho. }
  destruct (forallb _ _) eqn:F.
  - rewrite first_err_all in K; [exact K|]. intros op Hop. rewrite forallb_forall in F. specialize (F op Hop).
    destruct (strength _ _ _) eqn:S; [|discriminate]. eapply Y; eauto.
  - assert (exists op, In op (instrs c) /\ strength (noise_of a) (d_noise a) (iname op) = None) as (op & Hop & Hs).
    { clear -F. induction (instrs c) as [|o l IH]; [discriminate|]. cbn [forallb] in F. destruct (strength _ _ (iname o)) eqn:S; [|exists o; cbn; auto].
      destruct (IH F) as (op & ? & ?). exists op. cbn; auto. }
    rewrite (first_err_one nm (instrs c) op NotImplementedError) in K; auto.
    intros o _. destruct (strength (noise_of a) (d_noise a) (iname o)) eqn:E; [left; eapply Y; eauto | right; auto].
Qed.
Print Assumptions C89_accepted.

(** Each qubit gets the noise of its gate, or of idling, once per moment, with the strengths
    of the noise and the physical error rate in the description. *)
Theorem C89_noise : forall files dir a m c c', In (a, m) (surface_code_problems (Some dir)) ->
  files (file_of dir a) = Some c -> (forall op, In op (instrs c) -> ideal_op op) -> make_circuit files m = Ok c' ->
  exists outs, flatten c' = concat outs /\ flat_map snd (pieces c) = flatten c /\
    Forall2 (fun p out => receives (fun op => match strength (noise_of a) (d_noise a) (iname op) with Some q => Ok q | None => Err NotImplementedError end)
      (idle_strength (noise_of a) (d_noise a)) (wait_strength (noise_of a) (d_noise a)) (circuit_num_qubits c) (snd p) out) (pieces c) outs.
Proof.
  intros files dir a m c c' Ha Hf Hi E. destruct (table_circuit files dir a m Ha) as (nm & Hm & Hn & K). rewrite K, Hf in E.
  set (lay := as_layout (noise_of a) (d_noise a)) in *. destruct (C29_strengths lay nm (mkI "" [] []) Hm) as (_ & Ei & Ew & Ec). cbn [lay as_layout style noise] in Ei, Ew, Ec.
  assert (Hc : use_correlated nm = false).
  { destruct (use_correlated nm); [|reflexivity]. pose proof (proj1 Ec eq_refl) as X. destruct Hn as [Y|Y]; rewrite Y in X; discriminate. }
  destruct (C28_noise_once nm c c' Hc Hi E) as (outs & E1 & F & E2). exists outs. split; [exact E1|]. split; [exact E2|].
  rewrite Ei, Ew in F. clear -F Hm. induction F as [|x out l outs H F IH]; constructor; auto.
  intros Hd q Hq. destruct (H Hd q Hq) as [H1 H2]. split; [|exact H2].
  intros op Hop Hqo. destruct (H1 op Hop Hqo) as (p & Ep & G). exists p. split; [|exact G]. rewrite <- Ep. symmetry. exact (proj1 (C29_strengths lay nm op Hm)).
Qed.
Print Assumptions C89_noise.

(** Other names of noise are refused, but only once the file has been read. *)
Theorem C89_other_noise : forall files dir name p obs d, name <> "SD6"%string -> name <> "SI1000"%string ->
  surface_code_circuit files dir name p obs d =
  match files (surface_path dir name obs d) with None => Err RuntimeError | Some _ => Err NotImplementedError end.
Proof.
  intros files dir name p obs d N1 N2. unfold surface_code_circuit, circuit_from_file.
  destruct (files _); [|reflexivity]. destruct (String.eqb_spec name "SI1000"); [contradiction|]. destruct (String.eqb_spec name "SD6"); [contradiction|]. reflexivity.
Qed.
Print Assumptions C89_other_noise.

(** A disk with one file; the problem that reads it, and one whose file is missing. *)
Definition small_file : circuit :=
  [I (mkI "R" [TQ 0%nat; TQ 1%nat] []); I (mkI "TICK" [] []); I (mkI "CX" [TQ 0%nat; TQ 1%nat] []); I (mkI "TICK" [] []);
   Rep 3 [I (mkI "H" [TQ 0%nat] []); I (mkI "TICK" [] [])]; I (mkI "M" [TQ 0%nat; TQ 1%nat] [])].
Definition small_disk : disk := fun path => if (path =? "circuits/sd6_X/d3_p0.0.stim")%string then Some small_file else None.
Definition small_problem : desc Q := mkDesc 3 3 3 17 9 (1 # 10000) "surface_SD6" "X" "internal".
Definition other_problem : desc Q := mkDesc 3 3 3 17 9 (1 # 10000) "surface_SI1000" "Z" "internal".
Example C89_example :
  In (small_problem, Surface "circuits/sd6_X/d3_p0.0.stim" "SD6" (1 # 10000)) (surface_code_problems (Some "circuits"%string)) /\
  In (other_problem, Surface "circuits/si1000_Z/d3_p0.0.stim" "SI1000" (1 # 10000)) (surface_code_problems (Some "circuits"%string)) /\
  small_disk (file_of "circuits" small_problem) = Some small_file /\ small_disk (file_of "circuits" other_problem) = None /\
  (forall op, In op (instrs small_file) -> ideal_op op) /\
  (exists c', make_circuit small_disk (Surface "circuits/sd6_X/d3_p0.0.stim" "SD6" (1 # 10000)) = Ok c' /\
    length (flatten small_file) = 11%nat /\ length (filter is_noise (flatten c')) = 6%nat) /\
  surface_code_circuit small_disk "circuits" "PC3" (1 # 1000) "X" 3 = Err RuntimeError.
Proof.
  split; [apply (nth_error_In _ 0); vm_compute; reflexivity|]. split; [apply (nth_error_In _ 3); vm_compute; reflexivity|].
  split; [vm_compute; reflexivity|]. split; [vm_compute; reflexivity|]. split.
  { intros op H. cbn in H. decompose [or] H; try contradiction; subst op; (split; [vm_compute; reflexivity|]); (split; [vm_compute; intros; reflexivity || discriminate | vm_compute; reflexivity]). }
  split; [|vm_compute; reflexivity]. eexists. split; [vm_compute; reflexivity|]. split; vm_compute; reflexivity.
Qed.
