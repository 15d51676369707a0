(** C88: the files of the internal decoder: what the binary is given, what is left behind. *)
From Coq Require Import Ascii.
From Verif Require Import Prelude Text Stim Decoding Prop_Decoding InternalDecoder.
Open Scope string_scope.

(** ** Specification *)
(** tempfile.TemporaryDirectory: an absolute path, and nothing in it yet. *)
Definition fresh (d : string) (w : files) : Prop :=
  (exists r, d = String "/"%char r) /\ forall f, w (d ++ "/" ++ f) = None.
(** What the binary finds: the error model and the shots in d, and all other files as they were. *)
Definition given (d model : string) (ds : array) (w w0 : files) : Prop :=
  w0 (d ++ "/model.dem") = Some (model ++ newline) /\ w0 (d ++ "/shots.dets") = Some (shots_file ds) /\
  forall p, p <> d ++ "/model.dem" -> p <> d ++ "/shots.dets" -> w0 p = w p.
(** A binary that writes only to its directory. *)
Definition confined (d : string) (run : string -> files -> bool * files) : Prop :=
  forall cmd w p, (forall f, p <> d ++ "/" ++ f) -> snd (run cmd w) p = w p.
Definition repro (p : string) : Prop := p = "repro.dem" \/ p = "repro.dets" \/ p = "repro.stim".

(** ** Paths *)
Lemma inside_iff d p : inside d p = true <-> exists f, p = d ++ "/" ++ f.
Proof.
  unfold inside. revert p. induction d as [|c d IH]; intros p; cbn [append].
  - destruct p as [|x p]; cbn [String.prefix]; [split; [discriminate | intros (f & H); discriminate]|].
    destruct (Ascii.ascii_dec "/" x) as [<-|N].
    + split; [intros _; exists p; reflexivity|]. destruct p; reflexivity.
    + split; [discriminate|]. intros (f & H). injection H as H _. congruence.
  - destruct p as [|x p]; cbn [String.prefix]; [split; [discriminate | intros (f & H); discriminate]|].
    destruct (Ascii.ascii_dec c x) as [<-|N].
    + rewrite IH. split; intros (f & H); exists f; [now f_equal | now injection H].
    + split; [discriminate|]. intros (f & H). injection H as H _. congruence.
Qed.
Lemma sapp_cancel a x y : a ++ x = a ++ y -> x = y.
Proof. induction a as [|c a IH]; cbn; [auto|]. intros H. injection H as H. auto. Qed.
Lemma written_same p c w : write p c w p = Some c.
Proof. unfold write. now rewrite String.eqb_refl. Qed.
Lemma written_other p c w q : q <> p -> write p c w q = w q.
Proof. intros H. unfold write. now rewrite (proj2 (String.eqb_neq q p) H). Qed.
Lemma abs_ne d q : (exists r, d = String "/"%char r) -> forall c s, q = String c s -> c <> "/"%char -> inside d q = false.
Proof.
  intros (r & ->) c s -> N. destruct (inside (String "/"%char r) (String c s)) eqn:E; [|reflexivity]. apply inside_iff in E. destruct E as (f & H). injection H as H _. congruence.
Qed.
Lemma repro_outside d q : (exists r, d = String "/"%char r) -> repro q -> inside d q = false.
Proof. intros H [-> | [-> | ->]]; (eapply abs_ne; [exact H | reflexivity | discriminate]). Qed.
Lemma files_inside d f : inside d (d ++ String "/"%char f) = true.
Proof. apply inside_iff. now exists f. Qed.
Lemma given_spec d model ds w : given d model ds w (write (dets_file d) (shots_file ds) (write (dem_file d) (model ++ newline) w)).
Proof.
  unfold given, dets_file, dem_file. split; [|split].
  - rewrite written_other; [apply written_same|]. intros H%sapp_cancel. discriminate.
  - apply written_same.
  - intros p H1 H2. rewrite !written_other by assumption. reflexivity.
Qed.
Lemma path_given d model ds w w0 : (exists r, d = String "/"%char r) -> given d model ds w w0 -> internal_decoder_path w0 = internal_decoder_path w.
Proof.
  intros (r & ->) (_ & _ & H). unfold internal_decoder_path. cbn [map find]. rewrite !H by discriminate. reflexivity.
Qed.

(** ** Theorems *)
(** Which binary is taken: the first that exists. *)
Theorem C88_which_binary : forall w,
  match internal_decoder_path w with
  | Some p => exists before after, ["./internal_decoder.binary"; "src/internal_decoder.binary"; "../internal_decoder.binary"] = (before ++ p :: after)%list /\
              (exists t, w p = Some t) /\ forall q, In q before -> w q = None
  | None => forall q, In q ["./internal_decoder.binary"; "src/internal_decoder.binary"; "../internal_decoder.binary"] -> w q = None
  end.
Proof.
  intros w. unfold internal_decoder_path. cbn [map find append].
  destruct (w "./internal_decoder.binary") as [t1|] eqn:E1; [exists [], ["src/internal_decoder.binary"; "../internal_decoder.binary"]; split; [reflexivity|]; split; [eauto | intros q []]|].
  destruct (w "src/internal_decoder.binary") as [t2|] eqn:E2; [exists ["./internal_decoder.binary"], ["../internal_decoder.binary"]; split; [reflexivity|]; split; [eauto | intros q [<-|[]]; exact E1]|].
  destruct (w "../internal_decoder.binary") as [t3|] eqn:E3; [exists ["./internal_decoder.binary"; "src/internal_decoder.binary"], []; split; [reflexivity|]; split; [eauto | intros q [<-|[<-|[]]]; assumption]|].
  intros q [<-|[<-|[<-|[]]]]; assumption.
Qed.
Print Assumptions C88_which_binary.

(** What the call returns, in terms of what the binary did with the files it was given. *)
Theorem C88_answer : forall run d model circuit num_dets num_obs ds correlated w path,
  fresh d w -> a_cols ds = num_dets -> internal_decoder_path w = Some path ->
  exists w0, given d model ds w w0 /\ forall ok w1, run (command path d correlated) w0 = (ok, w1) ->
  let answer := fst (call_internal_decoder run d model circuit num_dets num_obs ds correlated w) in
  (forall rows, ok = true -> w1 (d ++ "/out.predictions") = Some (predictions_file rows) -> length rows = length (a_rows ds) ->
     (forall r, In r rows -> length r = num_obs) -> answer = Returned (mkA rows num_obs)) /\
  (ok = true -> w1 (d ++ "/out.predictions") = None -> answer = FileNotFoundError) /\
  (forall a, answer = Returned a -> ok = true /\ exists rest, w1 (d ++ "/out.predictions") = Some (predictions_file (a_rows a) ++ rest) /\
     length (a_rows a) = length (a_rows ds) /\ forall r, In r (a_rows a) -> length r = num_obs).
Proof.
  intros run d model circuit nd no ds co w path [Hd Hf] Hc Hp.
  exists (write (dets_file d) (shots_file ds) (write (dem_file d) (model ++ newline) w)). split; [apply given_spec|]. intros ok w1 E. cbn zeta.
  unfold call_internal_decoder, in_dir. rewrite Hc, Nat.eqb_refl.
  rewrite (path_given d model ds w _ Hd (given_spec d model ds w)), Hp, E.
  split; [|split].
  - intros rows -> Ho Hl Hr. cbn [fst]. unfold read_answer. change (out_file d) with (d ++ "/out.predictions"). rewrite Ho, <- Hl.
    rewrite <- (sapp_nil (predictions_file rows)), C38_predictions_read by assumption. reflexivity.
  - intros -> Ho. cbn [fst]. unfold read_answer. change (out_file d) with (d ++ "/out.predictions"). rewrite Ho. reflexivity.
  - intros a. destruct ok.
    + cbn [fst]. unfold read_answer. change (out_file d) with (d ++ "/out.predictions"). destruct (w1 (d ++ "/out.predictions")) as [t|]; [|discriminate].
      destruct (read_predictions (length (a_rows ds)) no t) as [rows|] eqn:R; [|discriminate]. cbn [bind ending_of]. intros H. injection H as <-.
      destruct (C38_predictions_accepted _ _ _ _ R) as (L & Lr & rest & ->). cbn [a_rows]. split; [reflexivity|]. exists rest. auto.
    + unfold keep_case. destruct (w1 (dem_file d)) as [t|]; [|discriminate]. destruct (write "repro.dem" (t ++ newline) w1 (dets_file d)) as [t'|]; discriminate.
Qed.
Print Assumptions C88_answer.

(** The temporary files are gone after the call, however it ended and whatever the binary did. *)
Theorem C88_nothing_left : forall run d model circuit num_dets num_obs ds correlated w f,
  fresh d w -> snd (call_internal_decoder run d model circuit num_dets num_obs ds correlated w) (d ++ "/" ++ f) = None.
Proof.
  intros run d model circuit nd no ds co w f [Hd Hf]. unfold call_internal_decoder. destruct (a_cols ds =? nd)%nat; [|apply Hf].
  destruct (in_dir run d model circuit no ds co w) as [e w1]. cbn [snd]. unfold remove_dir. cbn [append]. rewrite files_inside. reflexivity.
Qed.
Print Assumptions C88_nothing_left.

(** No other file changes, except the three that keep a failed case; and those only if the command failed. *)
Theorem C88_other_files : forall run d model circuit num_dets num_obs ds correlated w p,
  fresh d w -> confined d run ->
  let (e, w') := call_internal_decoder run d model circuit num_dets num_obs ds correlated w in
  (~ repro p -> w' p = w p) /\
  ((forall cmd w0, fst (run cmd w0) = true) \/ internal_decoder_path w = None \/ a_cols ds <> num_dets -> w' p = w p).
Proof.
  intros run d model circuit nd no ds co w p [Hd Hf] Hr. unfold call_internal_decoder. destruct (Nat.eqb_spec (a_cols ds) nd) as [Hc|Hc]; [|split; reflexivity].
  unfold in_dir. set (w0 := write (dets_file d) _ _). assert (G : given d model ds w w0) by apply given_spec.
  assert (O : inside d p = false -> w0 p = w p).
  { intros N. destruct G as (_ & _ & G). apply G; intros ->; rewrite files_inside in N; discriminate. }
  assert (In_ : inside d p = true -> w p = None) by (intros (f & ->)%inside_iff; apply Hf).
  rewrite (path_given d model ds w w0 Hd G).
  destruct (internal_decoder_path w) as [path|] eqn:Hp.
  2:{ unfold remove_dir. destruct (inside d p) eqn:I; split; intros _; [symmetry; auto | symmetry; auto | auto | auto]. }
  destruct (run (command path d co) w0) as [ok w1] eqn:E.
  assert (K : inside d p = false -> w1 p = w p).
  { intros N. rewrite <- (O N). change w1 with (snd (ok, w1)). rewrite <- E. apply Hr. intros f ->. cbn [append] in N. rewrite files_inside in N. discriminate. }
  destruct ok.
  - unfold remove_dir. destruct (inside d p) eqn:I; split; intros _; [symmetry; auto | symmetry; auto | auto | auto].
  - assert (C : let (e, w') := keep_case d circuit w1 in ~ repro p -> w' p = w1 p).
    { unfold keep_case, repro. destruct (w1 (dem_file d)) as [t|]; [|reflexivity]. cbn zeta. destruct (write "repro.dem" (t ++ newline) w1 (dets_file d)) as [t'|].
      - intros N. rewrite !written_other by tauto. reflexivity.
      - intros N. rewrite !written_other by tauto. reflexivity. }
    destruct (keep_case d circuit w1) as [e w2]. unfold remove_dir. destruct (inside d p) eqn:I.
    + split; intros _; symmetry; auto.
    + split; [intros N; rewrite (C N); auto|]. intros [A|[A|A]]; [|discriminate|contradiction]. specialize (A (command path d co) w0). rewrite E in A. discriminate.
Qed.
Print Assumptions C88_other_files.

(** A failed command is reported, and its case is kept: the model, the shots and the circuit, each with a newline after it. *)
Theorem C88_failure_kept : forall run d model circuit num_dets num_obs ds correlated w path,
  fresh d w -> a_cols ds = num_dets -> internal_decoder_path w = Some path ->
  (forall w0, given d model ds w w0 -> exists w1, run (command path d correlated) w0 = (false, w1) /\
     w1 (d ++ "/model.dem") = Some (model ++ newline) /\ w1 (d ++ "/shots.dets") = Some (shots_file ds)) ->
  let (e, w') := call_internal_decoder run d model circuit num_dets num_obs ds correlated w in
  e = CalledProcessError /\ w' "repro.dem" = Some ((model ++ newline) ++ newline) /\ w' "repro.dets" = Some (shots_file ds ++ newline) /\
  w' "repro.stim" = Some (circuit ++ newline).
Proof.
  intros run d model circuit nd no ds co w path [Hd Hf] Hc Hp Hr. destruct (Hr _ (given_spec d model ds w)) as (w1 & E & H1 & H2). unfold call_internal_decoder, in_dir. rewrite Hc, Nat.eqb_refl.
  rewrite (path_given d model ds w _ Hd (given_spec d model ds w)), Hp, E.
  unfold keep_case. change (dem_file d) with (d ++ "/model.dem"). change (dets_file d) with (d ++ "/shots.dets"). rewrite H1. cbn zeta.
  rewrite written_other. 2:{ destruct Hd as (r & ->). discriminate. }
  rewrite H2. split; [reflexivity|]. unfold remove_dir.
  rewrite !(repro_outside d) by (exact Hd || (unfold repro; tauto)).
  repeat split; reflexivity.
Qed.
Print Assumptions C88_failure_kept.
(** So the kept shots are never exactly those the binary was given: an empty line follows them. *)
Lemma longer t : t ++ newline <> t.
Proof. intros H. assert (L : String.length (t ++ newline) = String.length t) by now rewrite H. clear H. induction t as [|c t IH]; cbn in L; [discriminate|]. injection L. exact IH. Qed.
Theorem C88_exact_copy_refuted : forall run d model circuit num_dets num_obs ds correlated w path,
  fresh d w -> a_cols ds = num_dets -> internal_decoder_path w = Some path ->
  (forall w0, given d model ds w w0 -> exists w1, run (command path d correlated) w0 = (false, w1) /\
     w1 (d ++ "/model.dem") = Some (model ++ newline) /\ w1 (d ++ "/shots.dets") = Some (shots_file ds)) ->
  let w' := snd (call_internal_decoder run d model circuit num_dets num_obs ds correlated w) in
  w' "repro.dets" <> Some (shots_file ds).
Proof.
  intros run d model circuit nd no ds co w path Hf Hc Hp Hr. cbn zeta.
  pose proof (C88_failure_kept run d model circuit nd no ds co w path Hf Hc Hp Hr) as K.
  destruct (call_internal_decoder _ _ _ _ _ _ _ _ _) as [e w']. destruct K as (_ & _ & K & _). cbn [snd]. rewrite K. intros E. injection E. apply longer.
Qed.
Print Assumptions C88_exact_copy_refuted.

(** The simpler model of C37 and C38, with the binary as a function of the shots, is this call
    for a binary that answers with that function. *)
Theorem C88_refines : forall run d model circuit num_dets num_obs ds correlated w path (b : string -> bool -> string),
  fresh d w -> internal_decoder_path w = Some path ->
  (forall w0, given d model ds w w0 -> exists w1, run (command path d correlated) w0 = (true, w1) /\ w1 (d ++ "/out.predictions") = Some (b (shots_file ds) correlated)) ->
  fst (call_internal_decoder run d model circuit num_dets num_obs ds correlated w) = ending_of (decode_using_internal_decoder (Some b) num_dets num_obs ds correlated).
Proof.
  intros run d model circuit nd no ds co w path b [Hd Hf] Hp Hb. unfold call_internal_decoder, in_dir, decode_using_internal_decoder. destruct (a_cols ds =? nd)%nat; [|reflexivity]. cbn [assert_ bind].
  rewrite (path_given d model ds w _ Hd (given_spec d model ds w)), Hp. destruct (Hb _ (given_spec d model ds w)) as (w1 & -> & E). cbn [fst]. unfold read_answer. change (out_file d) with (d ++ "/out.predictions"). rewrite E. reflexivity.
Qed.
Print Assumptions C88_refines.
Theorem C88_no_binary : forall run d model circuit num_dets num_obs ds correlated w,
  fresh d w -> internal_decoder_path w = None ->
  fst (call_internal_decoder run d model circuit num_dets num_obs ds correlated w) = Raised (if (a_cols ds =? num_dets)%nat then RuntimeError else AssertionError).
Proof.
  intros run d model circuit nd no ds co w [Hd Hf] Hp. unfold call_internal_decoder, in_dir. destruct (a_cols ds =? nd)%nat; [|reflexivity].
  rewrite (path_given d model ds w _ Hd (given_spec d model ds w)), Hp. reflexivity.
Qed.
Print Assumptions C88_no_binary.

(** A binary that answers "1" for one shot, and one that fails, in a directory that holds only the binary. *)
Definition here : files := fun p => if (p =? "src/internal_decoder.binary")%string then Some "x" else None.
Definition answers : string -> files -> bool * files := fun _ w => (true, write "/tmp/a/out.predictions" ("1" ++ newline) w).
Definition fails : string -> files -> bool * files := fun _ w => (false, w).
Example C88_example :
  fresh "/tmp/a" here /\ internal_decoder_path here = Some "src/internal_decoder.binary" /\ confined "/tmp/a" answers /\ confined "/tmp/a" fails /\
  command "src/internal_decoder.binary" "/tmp/a" true =
    "src/internal_decoder.binary -mode fi_match_from_dem -dem_fname '/tmp/a/model.dem' -dets_fname '/tmp/a/shots.dets' -ignore_distance_1_errors -out '/tmp/a/out.predictions' -cheap_corr -edge_corr -node_corr" /\
  command "./internal_decoder.binary" "/tmp/b" false =
    "./internal_decoder.binary -mode fi_match_from_dem -dem_fname '/tmp/b/model.dem' -dets_fname '/tmp/b/shots.dets' -ignore_distance_1_errors -out '/tmp/b/out.predictions'" /\
  (forall w0, given "/tmp/a" "error(0.1) D0 L0" (mkA [[true; false]] 2) here w0 -> exists w1, fails "" w0 = (false, w1) /\
     w1 ("/tmp/a" ++ "/model.dem") = Some ("error(0.1) D0 L0" ++ newline) /\ w1 ("/tmp/a" ++ "/shots.dets") = Some (shots_file (mkA [[true; false]] 2))) /\
  fst (call_internal_decoder answers "/tmp/a" "error(0.1) D0 L0" "M 0" 2 1 (mkA [[true; false]] 2) false here) = Returned (mkA [[true]] 1) /\
  (let (e, w') := call_internal_decoder fails "/tmp/a" "error(0.1) D0 L0" "M 0" 2 1 (mkA [[true; false]] 2) false here in
   e = CalledProcessError /\ w' "repro.dets" = Some ("shot D0" ++ newline ++ newline) /\ w' "/tmp/a/shots.dets" = None).
Proof.
  split; [split; [now exists "tmp/a" | reflexivity]|]. split; [reflexivity|]. split.
  { intros cmd w p H. cbn [snd answers]. apply written_other. intros ->. exact (H "out.predictions" eq_refl). }
  split; [intros cmd w p _; reflexivity|]. split; [reflexivity|]. split; [reflexivity|]. split; [intros w0 (H1 & H2 & _); exists w0; auto|]. split; [reflexivity|]. vm_compute. auto.
Qed.
