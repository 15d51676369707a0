(** Model of the scripts in src/paper: main_collect_all.py, aggregate_csv_data.py and the
    discrete half of LambdaGroup in main_render_lambda_figure.py (the real-valued half is
    in PaperFit.v), and of HoneycombLayout.as_decoder_problem_desc.

    Floats used as noise strengths are rationals. *)
From Coq Require Import QArith Qround Qabs.
From Coq Require Import Ascii.
From Verif Require Import Prelude Text Layout Collect.
Open Scope Z_scope.

(** [a in b] for strings *)
Definition str_in (a b : string) : bool := match String.index 0 a b with Some _ => true | None => false end.
(** int(math.ceil(a / b)) for b > 0, on rationals *)
Definition ceil_div (a b : Z) : Z := Qceiling (inject_Z a / inject_Z b).

(** honeycomb_layout.py lines 140-151 *)
Definition as_decoder_problem_desc (lay : layout) (decoder : string) : desc Q :=
  mkDesc (data_width lay) (data_height lay) (code_distance_1qdep lay) (num_qubits lay) (ceil_div (sub_rounds lay) 3) (noise lay)
         ("honeycomb_" ++ style lay) (obs lay) decoder.

(** ** main_collect_all.py *)
(** lines 141-157 *)
Definition USED_NOISE_VALUES : list Q :=
  [1#10000; 2#10000; 3#10000; 5#10000; 7#10000; 10#10000; 15#10000; 20#10000; 30#10000; 50#10000; 70#10000; 100#10000;
   150#10000; 200#10000; 300#10000]%Q.
(** lines 158-161 *)
Definition DECODERS : list string := ["internal"; "internal_correlated"]%string.
(** lines 174-189 *)
Definition HONEYCOMB_UNITS : list Z := [1; 2; 3; 4; 5].
(** lines 181-185 *)
Definition HONEYCOMB_STYLES : list string := ["SI1000"; "SD6"; "EM3_v2"]%string.
(** lines 186-189 *)
Definition HONEYCOMB_OBS : list string := ["V"; "H"]%string.

(** What a DecodingProblem's circuit_maker is a closure over (the layout, or the
    directory and parameters of a surface code file). *)
Inductive maker :=
| Honeycomb (lay : layout)
| Surface (path : string) (noise_name : string) (p : Q).
(** a DecodingProblem *)
Definition problem := (desc Q * maker)%type.

(** lines 163-195; the literal lists are parameters so that the theorems do not depend
    on them *)
Definition honeycomb_layouts (ps : list Q) (us : list Z) (styles obss : list string) : res (list layout) :=
  mapM (fun '(p, u, style, obs) => HoneycombLayout (u * 4) (u * 6) (u * 3 * 4 * 3) style obs p)
    (flat_map (fun p => flat_map (fun u => flat_map (fun style => map (fun obs => (p, u, style, obs)) obss) styles) us) ps).
(** lines 163-195, for any lists *)
Definition honeycomb_problems_from ps us styles obss decoders : res (list problem) :=
  let! layouts := honeycomb_layouts ps us styles obss in
  Ok (flat_map (fun decoder => map (fun lay => (as_decoder_problem_desc lay decoder, Honeycomb lay)) layouts) decoders).
(** lines 163-195 *)
Definition honeycomb_problems : res (list problem) :=
  honeycomb_problems_from USED_NOISE_VALUES HONEYCOMB_UNITS HONEYCOMB_STYLES HONEYCOMB_OBS DECODERS.

(** str.lower on one character / a text *)
Definition lower_char (c : ascii) : ascii :=
  let n := nat_of_ascii c in if (65 <=? n)%nat && (n <=? 90)%nat then ascii_of_nat (n + 32) else c.
(** str.lower *)
Fixpoint lower (s : string) : string := match s with EmptyString => EmptyString | String c r => String (lower_char c) (lower r) end.
(** line 84: the file read by the circuit maker *)
Definition surface_path (directory noise_name obs : string) (d : Z) : string :=
  (directory ++ "/" ++ lower noise_name ++ "_" ++ obs ++ "/d" ++ str_int d ++ "_p0.0.stim")%string.
(** lines 96-118 *)
Definition surface_code_problem (directory noise_name : string) (p : Q) (obs : string) (d : Z) (decoder : string) : problem :=
  (mkDesc d d d (2 * d * d - 1) (3 * d) p ("surface_" ++ noise_name) obs decoder, Surface (surface_path directory noise_name obs d) noise_name p).
(** lines 134-138 *)
Definition SURFACE_DISTANCES : list Z := [3; 7; 11; 15; 19].
(** line 137 *)
Definition SURFACE_NOISES : list string := ["SD6"; "SI1000"]%string.
(** line 138 *)
Definition SURFACE_OBS : list string := ["X"; "Z"]%string.
(** lines 121-139 *)
Definition surface_code_problems_from (directory : option string) decoders ds ps names obss : list problem :=
  match directory with
  | None => []
  | Some dir =>
      if (dir =? "-")%string || (dir =? "")%string then [] else
      flat_map (fun decoder => flat_map (fun d => flat_map (fun p => flat_map (fun name => map (fun obs =>
        surface_code_problem dir name p obs d decoder) obss) names) ps) ds) decoders
  end.
(** lines 121-139 *)
Definition surface_code_problems (directory : option string) : list problem :=
  surface_code_problems_from directory DECODERS SURFACE_DISTANCES USED_NOISE_VALUES SURFACE_NOISES SURFACE_OBS.

(** l[i] for a Python list: negative indices count from the end *)
Definition py_index {A} (l : list A) (i : Z) : res A :=
  let n := Z.of_nat (length l) in
  let j := if i <? 0 then i + n else i in
  if (0 <=? j) && (j <? n) then match nth_error l (Z.to_nat j) with Some x => Ok x | None => Err IndexError end else Err IndexError.

(** lines 42-76: the problems handed to collect_simulated_experiment_data and its
    parameters; [default_dir] is the directory next to the script.  The powers of ten
    are divided by case_reduction only when the option is absent. *)
Definition from_default (o : option Z) (n case_reduction : Z) : res Z :=
  match o with Some x => Ok x | None => if case_reduction =? 0 then Err ZeroDivisionError else Ok (n / case_reduction) end.
(** lines 42-76 *)
Definition collect_data (default_dir : string) (surface_dir : option string) (problem_id : option Z) (case_reduction : Z)
    (max_shots max_errors max_batch_size : option Z) : res (list problem * params) :=
  let surface_dir := match surface_dir with None => Some default_dir | Some d => Some d end in
  let! hs := honeycomb_problems in
  let problems := hs ++ surface_code_problems surface_dir in
  let! problems := match problem_id with None => Ok problems | Some i => let! x := py_index problems i in Ok [x] end in
  let! ms := from_default max_shots (10 ^ 8) case_reduction in
  let! me := from_default max_errors (10 ^ 3) case_reduction in
  Ok (problems, mkParams 25 ms (Some match max_batch_size with Some b => b | None => 2 ^ 15 end) 1 me).
(** lines 16-39: [args.get('case_reduction') or 1] *)
Definition main_case_reduction (o : option Z) : Z := match o with None => 1 | Some x => if x =? 0 then 1 else x end.

(** ** aggregate_csv_data.py *)
Section Aggregate.
  Context {F : Type} (fmt : F -> string) (parse : string -> option F) (fadd : F -> F -> F) (fzero : F) (feqb fleb : F -> F -> bool).
  (** dataclass(order=True): lexicographic comparison of the fields in declaration order
      (collect_data.py lines 32-55) *)
  Definition lex {A} (eqb leb : A -> A -> bool) (a b : A) (rest : bool) : bool := if eqb a b then rest else leb a b.
  (** <= of descriptions *)
  Definition desc_leb (a b : desc F) : bool :=
    lex Z.eqb Z.leb (d_width a) (d_width b) (lex Z.eqb Z.leb (d_height a) (d_height b) (lex Z.eqb Z.leb (d_distance a) (d_distance b)
    (lex Z.eqb Z.leb (d_qubits a) (d_qubits b) (lex Z.eqb Z.leb (d_rounds a) (d_rounds b) (lex feqb fleb (d_noise a) (d_noise b)
    (lex String.eqb String.leb (d_style a) (d_style b) (lex String.eqb String.leb (d_obs a) (d_obs b)
    (lex String.eqb String.leb (d_decoder a) (d_decoder b) true)))))))).
  (** line 22: items are compared by description; two items never have equal
      descriptions *)
  Definition sorted_items (data : problem_data F) : problem_data F := isort (fun a b => desc_leb (fst a) (fst b)) data.
  (** aggregate_csv_data.py lines 26-40: one row *)
  Definition item_batch (i : desc F * shot_data F) : batch F :=
    mkBatch (fst i) (num_shots (snd i)) (num_correct (snd i)) (total_processing_seconds (snd i)).
  (** lines 21-40: what is printed for these files (the expansion of directories is not
      modelled); with no argument it raises *)
  Definition aggregate (csvs : list file) : res string :=
    if match csvs with [] => true | _ => false end then Err ValueError
    else
      let! data := read_recorded_data parse fadd fzero feqb csvs in
      Ok (match fold_left append_line (CSV_HEADER :: map (fun i => record_line fmt (item_batch i)) (sorted_items data)) None with
          | Some t => t | None => "" end)%string.
End Aggregate.

(** ** LambdaGroup (main_render_lambda_figure.py) *)
Record lambda_group (F : Type) := mkGroup {
  g_noise : Q; g_rep : desc Q;
  pairs_h : list (Z * shot_data F); pairs_v : list (Z * shot_data F) }.
Arguments mkGroup {F}. Arguments g_noise {F}. Arguments g_rep {F}. Arguments pairs_h {F}. Arguments pairs_v {F}.

(** lines 383-393 *)
Definition add_entry {F} (key : desc Q) (val : shot_data F) (g : lambda_group F) : res (lambda_group F) :=
  if str_in (d_obs key) "HX" then
    let! _ := assert_ (match dget Z.eqb (d_distance key) (pairs_h g) with None => true | Some _ => false end) in
    Ok (mkGroup (g_noise g) (g_rep g) (pairs_h g ++ [(d_distance key, val)]) (pairs_v g))
  else
    let! _ := assert_ (match dget Z.eqb (d_distance key) (pairs_v g) with None => true | Some _ => false end) in
    Ok (mkGroup (g_noise g) (g_rep g) (pairs_h g) (pairs_v g ++ [(d_distance key, val)])).
(** groups[key.noise], created when absent, and updated *)
Fixpoint update_group {F} (key : desc Q) (val : shot_data F) (groups : list (Q * lambda_group F)) : res (list (Q * lambda_group F)) :=
  match groups with
  | [] => let! g := add_entry key val (mkGroup (d_noise key) key [] []) in Ok [(d_noise key, g)]
  | (n, g) :: r =>
      if Qeq_bool (d_noise key) n then let! g := add_entry key val g in Ok ((n, g) :: r)
      else let! r := update_group key val r in Ok ((n, g) :: r)
  end.
(** lines 386-392: the loop *)
Fixpoint groups_from {F} (groups : list (Q * lambda_group F)) (data : list (desc Q * shot_data F)) : res (list (Q * lambda_group F)) :=
  match data with
  | [] => Ok groups
  | (key, val) :: r => let! groups := update_group key val groups in groups_from groups r
  end.
(** lines 383-393 *)
Definition groups_from_data {F} (data : list (desc Q * shot_data F)) : res (list (Q * lambda_group F)) := groups_from [] data.

(** lines 400-402 *)
Definition has_low_confidence_extrapolation {F} (g : lambda_group F) : bool :=
  Z.min (Z.of_nat (length (pairs_v g))) (Z.of_nat (length (pairs_h g))) <? 3.

(** lines 440-452: on rationals.  d / self.rep.code_distance raises for distance 0. *)
Definition d_to_q {F} (g : lambda_group F) (d : Z) (style : string) : res Q :=
  let q := inject_Z (d_qubits (g_rep g)) in
  let dist := d_distance (g_rep g) in
  let ratio (d : Z) := (inject_Z d / inject_Z dist * (inject_Z d / inject_Z dist))%Q in
  let! q :=
    if str_in "surface" style then if dist =? 0 then Err ZeroDivisionError else Ok ((q + 1) * ratio d - 1)%Q
    else if str_in "honeycomb" style then
      let d := ceil_div d 4 * 4 in
      if dist =? 0 then Err ZeroDivisionError else Ok (q * ratio d)%Q
    else Err NotImplementedError in
  let! _ := assert_ (negb (Qle_bool (1 # 100000) (Qabs (q - inject_Z (Qfloor (q + (1 # 2))))))) in
  Ok q.
