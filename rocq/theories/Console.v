(** Model of what src/collect_data.py does to the screen and to the file, step by step, in
    the order of the code.  Collect.v has the batches and the finished file; here out_path
    may also be None, and the program may be stopped between any two steps.

    Simplification: one line is printed to one place in a single step (open, print and
    close of lines 178-179 and 228-229 are one step; lines 142-143 and 203-204 are two:
    creating the file empty, and printing the header). *)
From Coq Require Import QArith.
From Verif Require Import Prelude Collect.
Open Scope Z_scope.

(** one thing done to the screen or the file *)
Inductive step :=
| Say (line : string)    (* print(line, flush=True) *)
| Create                 (* open(out_path, "w") *)
| Save (line : string).  (* print(line, file=f) *)

(** The file (None: it does not exist) and the lines shown so far. *)
Definition screen_and_file := (list string * file)%type.
(** the effect of a step *)
Definition act (w : screen_and_file) (s : step) : screen_and_file :=
  let '(shown, f) := w in
  match s with
  | Say line => (shown ++ [line], f)
  | Create => (shown, Some ""%string)
  | Save line => (shown, append_line f line)
  end.
(** the effect of steps on an empty screen and a file *)
Definition happens (steps : list step) (f : file) : screen_and_file := fold_left act steps ([], f).

Section IO.
  Context {F : Type} (fmt : F -> string).
  (** lines 139-143 and 200-204; [named]: out_path is not None *)
  Definition opening (named discard : bool) (f : file) : list step :=
    Say CSV_HEADER ::
    if named then
      if discard || match f with None => true | Some _ => false end then [Create; Save CSV_HEADER] else []
    else [].
  (** lines 177-180 and 227-230 *)
  Definition noting (named : bool) (b : batch F) : list step :=
    (if named then [Save (record_line fmt b)] else []) ++ [Say (record_line fmt b)].
  (** the header and the records of batches: lines 139-143 and 177-180, 200-204 and 227-230 *)
  Definition noted (named discard : bool) (f : file) (l : list (batch F)) : list step :=
    opening named discard f ++ flat_map (noting named) l.

  (** lines 96-192: collect_simulated_experiment_data.  Nothing is shown or saved between
      the records of two batches. *)
  Definition collect_steps (P : params) (sample : nat -> desc F -> Z -> res (Z * F)) (ds : list (desc F)) (named discard : bool) (f : file) : list step * res unit :=
    let '(l, _, o) := collect_problems P sample 0 ds in (noted named discard f l, o).

  (** lines 206-230: collect_detection_fraction_data *)
  Fixpoint detection_batches (samples : nat -> desc F -> res (list (list bool) * Z * F)) (t : nat) (ds : list (desc F)) : list (batch F) * res unit :=
    match ds with
    | [] => ([], Ok tt)
    | d :: r =>
        match samples t d with
        | Err e => ([], Err e)
        | Ok (rows, cols, secs) => let '(l, o) := detection_batches samples (S t) r in (detection_batch d rows cols secs :: l, o)
        end
    end.
  (** lines 195-230 *)
  Definition detection_steps (samples : nat -> desc F -> res (list (list bool) * Z * F)) (ds : list (desc F)) (named discard : bool) (f : file) : list step * res unit :=
    let '(l, o) := detection_batches samples 0 ds in (noted named discard f l, o).
End IO.
