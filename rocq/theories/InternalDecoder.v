(** src/decoding.py lines 102-171: the call of the internal decoder with its files.

    A file system is a function from paths to contents.  The shell command is an
    arbitrary function of the command line and the files: whether it exits with
    status 0, and the files afterwards.  str(error_model) and str(circuit) are texts. *)
From Verif Require Import Prelude Text Stim Decoding.
Open Scope string_scope.

(** contents of files by path *)
Definition files := string -> option string.
(** open(p, "w") and printing to it *)
Definition write (p c : string) (w : files) : files := fun q => if (q =? p)%string then Some c else w q.
(** the files in the directory d *)
Definition inside (d p : string) : bool := String.prefix (d ++ "/") p.
(** leaving "with tempfile.TemporaryDirectory() as d", line 119 *)
Definition remove_dir (d : string) (w : files) : files := fun p => if inside d p then None else w p.

(** lines 102-107 *)
Definition internal_decoder_path (w : files) : option string :=
  find (fun p => match w p with Some _ => true | None => false end)
    (map (fun dir => dir ++ "internal_decoder.binary") ["./"; "src/"; "../"]).

(** lines 120-122 *)
Definition dem_file (d : string) : string := d ++ "/model.dem".
(** line 121 *)
Definition dets_file (d : string) : string := d ++ "/shots.dets".
(** line 122 *)
Definition out_file (d : string) : string := d ++ "/out.predictions".
(** lines 139-146 *)
Definition command (path d : string) (correlated : bool) : string :=
  path ++ " " ++ "-mode fi_match_from_dem " ++ "-dem_fname '" ++ dem_file d ++ "' " ++ "-dets_fname '" ++ dets_file d ++ "' "
  ++ "-ignore_distance_1_errors " ++ "-out '" ++ out_file d ++ "'" ++ (if correlated then " -cheap_corr -edge_corr -node_corr" else "").

(** What the call ends with: an array, one of the exceptions of the model, a command
    that failed, or a file that does not exist. *)
Inductive ending := Returned (a : array) | Raised (e : exn) | CalledProcessError | FileNotFoundError.
(** a result of the model as an ending *)
Definition ending_of (r : res array) : ending := match r with Ok a => Returned a | Err e => Raised e end.

(** lines 149-159 *)
Definition keep_case (d circuit : string) (w : files) : ending * files :=
  match w (dem_file d) with
  | None => (FileNotFoundError, w)
  | Some t =>
      let w := write "repro.dem" (t ++ newline) w in
      match w (dets_file d) with
      | None => (FileNotFoundError, w)
      | Some t =>
          let w := write "repro.dets" (t ++ newline) w in
          let w := write "repro.stim" (circuit ++ newline) w in
          (CalledProcessError, w)
      end
  end.
(** lines 161-171 *)
Definition read_answer (d : string) (num_obs : nat) (ds : array) (w : files) : ending :=
  match w (out_file d) with
  | None => FileNotFoundError
  | Some t => ending_of (let! rows := read_predictions (length (a_rows ds)) num_obs t in Ok (mkA rows num_obs))
  end.
(** lines 120-171, inside the temporary directory d *)
Definition in_dir (run : string -> files -> bool * files) (d model circuit : string) (num_obs : nat) (ds : array) (correlated : bool) (w : files) : ending * files :=
  let w := write (dem_file d) (model ++ newline) w in
  let w := write (dets_file d) (shots_file ds) w in
  match internal_decoder_path w with
  | None => (Raised RuntimeError, w)
  | Some path =>
      let (ok, w) := run (command path d correlated) w in
      if ok then (read_answer d num_obs ds w, w) else keep_case d circuit w
  end.
(** lines 110-171 *)
Definition call_internal_decoder (run : string -> files -> bool * files) (d model circuit : string) (num_dets num_obs : nat) (ds : array) (correlated : bool) (w : files) : ending * files :=
  if (a_cols ds =? num_dets)%nat
  then let (e, w) := in_dir run d model circuit num_obs ds correlated w in (e, remove_dir d w)
  else (Raised AssertionError, w).
