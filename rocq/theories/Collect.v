(** Model of src/collect_data.py.

    Python ints are Z.  Floats that only travel through the program (noise, seconds) are
    values of an arbitrary type with a printer, a parser, an addition and an equality
    test; probabilities and limits that are compared are rationals.  A file is [None]
    (absent) or its text; appending a line is atomic.  The sampler-decoder is an arbitrary
    function of the number of calls made so far, the problem and the number of shots, and
    may raise. *)
From Coq Require Import QArith.
From Coq Require Import DecimalString DecimalZ Ascii.
From Verif Require Import Prelude Text.
Open Scope Z_scope.

(** str(int) and int(str).  Simplification: int() also accepts spaces, underscores and
    leading plus signs, which are never written. *)
Definition str_int (z : Z) : string := NilZero.string_of_int (Z.to_int z).
(** int(s) *)
Definition int_str (s : string) : res Z :=
  match NilZero.int_of_string s with Some d => Ok (Z.of_int d) | None => Err ValueError end.

Section Floats.
Context {F : Type} (fmt : F -> string) (parse : string -> option F) (fadd : F -> F -> F) (fzero : F) (feqb : F -> F -> bool).

(** lines 32-80: DecodingProblemDesc *)
Record desc := mkDesc {
  d_width : Z; d_height : Z; d_distance : Z; d_qubits : Z; d_rounds : Z; d_noise : F;
  d_style : string; d_obs : string; d_decoder : string }.
(** lines 57-80 *)
Definition with_changes (d : desc) (w h dist q r : option Z) (n : option F) (st ob de : option string) : desc :=
  let pick {A} (old : A) (new : option A) := match new with None => old | Some x => x end in
  mkDesc (pick (d_width d) w) (pick (d_height d) h) (pick (d_distance d) dist) (pick (d_qubits d) q) (pick (d_rounds d) r)
         (pick (d_noise d) n) (pick (d_style d) st) (pick (d_obs d) ob) (pick (d_decoder d) de).
(** dataclass equality *)
Definition desc_eqb (a b : desc) : bool :=
  (d_width a =? d_width b) && (d_height a =? d_height b) && (d_distance a =? d_distance b) && (d_qubits a =? d_qubits b) &&
  (d_rounds a =? d_rounds b) && feqb (d_noise a) (d_noise b) && (d_style a =? d_style b)%string && (d_obs a =? d_obs b)%string &&
  (d_decoder a =? d_decoder b)%string.

(** lines 14-28: the names of the columns *)
Definition header_fields : list string :=
  ["data_width"; "data_height"; "rounds"; "noise"; "circuit_style"; "preserved_observable"; "code_distance"; "num_qubits";
   "num_shots"; "num_correct"; "total_processing_seconds"; "decoder"; "version"]%string.
(** lines 14-28 *)
Definition CSV_HEADER : string := String.concat "," header_fields.
(** line 29 *)
Definition CSV_HEADER_VERSION : Z := 2.

(** One batch: the problem's description, shots, correct shots, seconds. *)
Record batch := mkBatch { b_desc : desc; b_shots : Z; b_correct : Z; b_secs : F }.
(** lines 162-176 *)
Definition record_fields (b : batch) : list string :=
  let d := b_desc b in
  [ str_int (d_width d); str_int (d_height d); str_int (d_rounds d); fmt (d_noise d); d_style d; d_obs d;
    str_int (d_distance d); str_int (d_qubits d); str_int (b_shots b); str_int (b_correct b); fmt (b_secs b); d_decoder d;
    str_int CSV_HEADER_VERSION ].
(** ",".join of lines 162-176 *)
Definition record_line (b : batch) : string := String.concat "," (record_fields b).
(** a file: None if it does not exist *)
Definition file := option string.
(** print(s, file=open(path, "a")) *)
Definition append_line (f : file) (s : string) : file :=
  Some (match f with None => "" | Some t => t end ++ s ++ newline)%string.
(** lines 140-143 *)
Definition open_out (discard : bool) (f : file) : file :=
  if discard || match f with None => true | Some _ => false end then append_line None CSV_HEADER else f.

(** arguments of lines 96-105 *)
Record params := mkParams { min_shots : Z; max_shots : Z; max_batch : option Z; max_sample_std_dev : Q; min_seen_logical_errors : Z }.
Context (P : params).
(** sample_decode_count_correct and the clock; stim refuses a negative number of shots *)
Context (sample : nat -> desc -> Z -> res (Z * F)).
(** lines 155-161 *)
Definition do_sample (t : nat) (d : desc) (n : Z) : res (Z * F) := if n <? 0 then Err ValueError else sample t d n.

(** lines 145-146 *)
Definition the_max_batch : Z := match max_batch P with None => max_shots P | Some b => b end.
(** lines 150-152 *)
Definition first_shots : Z := if the_max_batch <? min_shots P then the_max_batch else min_shots P.
(** math.sqrt(v) <= s for a rational v >= 0 *)
Definition sqrt_le (v s : Q) : bool := Qle_bool 0 s && Qle_bool v (s * s).

(** What one problem's loop leaves behind: the batches written, the clock, and how it
    ended. *)
Definition outcome := (list batch * nat * res unit)%type.
(** lines 177-179: one batch more *)
Definition wrote (b : batch) (o : outcome) : outcome := let '(l, t, r) := o in (b :: l, t, r).
(** lines 154-192, with fuel for the while loop; the batch is written before the
    arithmetic that may raise.  0.48 is 12/25. *)
Fixpoint loop (fuel : nat) (d : desc) (t : nat) (errors total next : Z) : outcome :=
  match fuel with
  | O => ([], t, Err OutOfFuel)
  | S fuel =>
      match do_sample t d next with
      | Err e => ([], S t, Err e)
      | Ok (correct, secs) =>
          wrote (mkBatch d next correct secs)
          (let total := total + next in
           let errors := errors + (next - correct) in
           if total =? 0 then ([], S t, Err ZeroDivisionError)
           else
             let p := (inject_Z errors / inject_Z total)%Q in
             let v := (p * (1 - p) / inject_Z total)%Q in
             if negb (Qle_bool 0 v) then ([], S t, Err ValueError)
             else if max_shots P <=? total then ([], S t, Ok tt)
             else if (min_seen_logical_errors P <=? errors) && sqrt_le v (max_sample_std_dev P) then ([], S t, Ok tt)
             else if Qle_bool (inject_Z total * (12 # 25)) (inject_Z errors) && (10 <=? errors) then ([], S t, Ok tt)
             else loop fuel d (S t) errors total (Z.min the_max_batch (Z.min (2 * next) (max_shots P - total))))
      end
  end.
(** lines 149-192: one problem *)
Definition collect_problem (t : nat) (d : desc) : outcome := loop (S (Z.to_nat (max_shots P))) d t 0 0 first_shots.
(** lines 148-192: the problems in turn; an exception stops everything *)
Fixpoint collect_problems (t : nat) (ds : list desc) : outcome :=
  match ds with
  | [] => ([], t, Ok tt)
  | d :: r =>
      let '(l, t, o) := collect_problem t d in
      match o with
      | Err e => (l, t, Err e)
      | Ok _ => let '(l', t, o) := collect_problems t r in (l ++ l', t, o)
      end
  end.
(** lines 96-192: the file after the call, and how the call ended *)
Definition collect_simulated_experiment_data (ds : list desc) (discard : bool) (f : file) : file * res unit :=
  let '(l, _, o) := collect_problems 0 ds in
  (fold_left append_line (map record_line l) (open_out discard f), o).

(** lines 195-230: collect_detection_fraction_data; a sample is a matrix of detection
    events: rows and number of columns *)
Definition detection_batch (d : desc) (rows : list (list bool)) (cols : Z) (secs : F) : batch :=
  let n := Z.of_nat (length rows) * cols in
  let hits := Z.of_nat (length (filter (fun b => b) (concat rows))) in
  mkBatch (mkDesc (d_width d) (d_height d) (d_distance d) (d_qubits d) (d_rounds d) (d_noise d) (d_style d) "-" "detection_fraction") n (n - hits) secs.
(** lines 206-230 *)
Fixpoint collect_detections (samples : nat -> desc -> res (list (list bool) * Z * F)) (t : nat) (ds : list desc) (f : file) : file * res unit :=
  match ds with
  | [] => (f, Ok tt)
  | d :: r =>
      match samples t d with
      | Err e => (f, Err e)
      | Ok (rows, cols, secs) => collect_detections samples (S t) r (append_line f (record_line (detection_batch d rows cols secs)))
      end
  end.
(** lines 195-230 *)
Definition collect_detection_fraction_data (samples : nat -> desc -> res (list (list bool) * Z * F)) (ds : list desc) (discard : bool) (f : file) : file * res unit :=
  collect_detections samples 0 ds (open_out discard f).

(** lines 275-279: ShotData *)
Record shot_data := mkShots { num_shots : Z; num_correct : Z; total_processing_seconds : F }.
(** lines 281-283 *)
Definition num_errors (s : shot_data) : Z := num_shots s - num_correct s.
(** ShotData() *)
Definition no_shots : shot_data := mkShots 0 0 fzero.
(** lines 331-333 and 361-363 *)
Definition add_shots (s : shot_data) (n c : Z) (x : F) : shot_data := mkShots (num_shots s + n) (num_correct s + c) (fadd (total_processing_seconds s) x).

(** Dicts: association lists in insertion order. *)
Section Dict.
  Context {K V : Type} (eqb : K -> K -> bool).
  (** d.get(k) *)
  Fixpoint dget (k : K) (l : list (K * V)) : option V := match l with [] => None | (k', v) :: r => if eqb k k' then Some v else dget k r end.
  (** d[k] = f(d.get(k, default)) *)
  Fixpoint dupd (k : K) (def : V) (f : V -> V) (l : list (K * V)) : list (K * V) :=
    match l with [] => [(k, f def)] | (k', v) :: r => if eqb k k' then (k', f v) :: r else (k', v) :: dupd k def f r end.
End Dict.
(** lines 317-319: ProblemShotData *)
Definition problem_data := list (desc * shot_data).

(** csv.DictReader: lines, then fields at commas; blank lines after the header are
    skipped.  Simplification: quote characters are not special (they are never written).
    A field missing at the end of a row is None: int and float of it raise TypeError; so
    does, here, a missing text field. *)
Definition lines (t : string) : list string :=
  let ls := split (ascii_of_nat 10) t in if (last ls "" =? "")%string then removelast ls else ls.
(** row[k] of a csv.DictReader row *)
Definition row_get (names row : list string) (k : string) : res string :=
  match find (fun '(n, _) => (n =? k)%string) (rev (combine names row)) with
  | Some (_, v) => Ok v
  | None => if existsb (String.eqb k) names then Err TypeError else Err KeyError
  end.
(** float(s) *)
Definition float_str (s : string) : res F := match parse s with Some x => Ok x | None => Err ValueError end.
(** lines 349-363 *)
Definition read_row (names : list string) (data : problem_data) (row : list string) : res problem_data :=
  let get := row_get names row in
  let int k := let! s := get k in int_str s in
  let float k := let! s := get k in float_str s in
  let! dist := int "code_distance"%string in
  let! q := int "num_qubits"%string in
  let! w := int "data_width"%string in
  let! h := int "data_height"%string in
  let! r := int "rounds"%string in
  let! n := float "noise"%string in
  let! st := get "circuit_style"%string in
  let! ob := get "preserved_observable"%string in
  let! de := get "decoder"%string in
  let! shots := int "num_shots"%string in
  let! correct := int "num_correct"%string in
  let! secs := float "total_processing_seconds"%string in
  Ok (dupd desc_eqb (mkDesc w h dist q r n st ob de) no_shots (fun s => add_shots s shots correct secs) data).
(** lines 348-363: the rows of one file *)
Fixpoint read_rows (names : list string) (data : problem_data) (ls : list string) : res problem_data :=
  match ls with
  | [] => Ok data
  | l :: r => if (l =? "")%string then read_rows names data r else let! data := read_row names data (split "," l) in read_rows names data r
  end.
(** lines 347-363: one file *)
Definition read_file (data : problem_data) (t : string) : res problem_data :=
  match lines t with [] => Ok data | h :: r => read_rows (if (h =? "")%string then [] else split "," h) data r end.
(** lines 344-364: read_recorded_data; a missing file raises (FileNotFoundError, here
    RuntimeError) *)
Fixpoint read_files (data : problem_data) (fs : list file) : res problem_data :=
  match fs with
  | [] => Ok data
  | None :: _ => Err RuntimeError
  | Some t :: r => let! data := read_file data t in read_files data r
  end.
(** lines 344-364 *)
Definition read_recorded_data (fs : list file) : res problem_data := read_files [] fs.

(** lines 317-325: ProblemShotData *)
Definition grouped_by {K} (keqb kleb : K -> K -> bool) (key : desc -> K) (data : problem_data) : list (K * problem_data) :=
  isort (fun a b => kleb (fst a) (fst b)) (fold_left (fun res '(k, v) => dupd keqb (key k) [] (fun g => dupd desc_eqb k v (fun _ => v) g) res) data []).
(** lines 327-334 *)
Definition merged_by {K} (keqb kleb : K -> K -> bool) (key : desc -> K) (data : problem_data) : list (K * shot_data) :=
  isort (fun a b => kleb (fst a) (fst b))
    (fold_left (fun res '(k, v) => dupd keqb (key k) no_shots (fun d => add_shots d (num_shots v) (num_correct v) (total_processing_seconds v)) res) data []).
(** lines 336-341 *)
Definition filter_data (pred : desc -> bool) (data : problem_data) : problem_data :=
  fold_left (fun res '(k, v) => if pred k then dupd desc_eqb k v (fun _ => v) res else res) data [].
End Floats.
Arguments desc F : clear implicits.
Arguments batch F : clear implicits.
Arguments shot_data F : clear implicits.
Arguments problem_data F : clear implicits.

(** lines 310-314 *)
Definition logical_error_rate (s : shot_data Q) : Q :=
  if num_shots s =? 0 then 1%Q else (inject_Z (num_shots s - num_correct s) / inject_Z (num_shots s))%Q.
(** lines 233-238: RemainingWork; None stands for float('inf') *)
Record remaining_work := mkWork { w_data : shot_data Q; w_max_shots : Z; w_max_errors : Z; w_breaker : Q }.
(** lines 240-248 *)
Definition finished (w : remaining_work) : bool :=
  if w_max_shots w <=? num_shots (w_data w) then true
  else if w_max_errors w <=? num_errors (w_data w) then true
  else if Qle_bool (w_breaker w) (logical_error_rate (w_data w)) && (10 <=? num_shots (w_data w)) then true
  else false.
(** lines 250-254 *)
Definition remaining_shots (w : remaining_work) : Z := if finished w then 0 else w_max_shots w - num_shots (w_data w).
(** lines 256-260 *)
Definition remaining_errors (w : remaining_work) : Z := if finished w then 0 else w_max_errors w - num_errors (w_data w).
(** min with a time, line 271 *)
Definition min_time (a : option Q) (b : Q) : option Q :=
  match a with None => Some b | Some x => Some (if Qle_bool x b then x else b) end.
(** lines 262-271 *)
Definition remaining_time (w : remaining_work) : option Q :=
  if finished w then Some 0%Q
  else
    let d := w_data w in
    let a := None in
    let a := if num_shots d =? 0 then a else min_time a (inject_Z (remaining_shots w) * total_processing_seconds d / inject_Z (num_shots d)) in
    if num_errors d =? 0 then a else min_time a (inject_Z (remaining_errors w) * total_processing_seconds d / inject_Z (num_errors d)).
