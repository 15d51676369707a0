(** Model of the circuits of the surface code problems (src/paper/main_collect_all.py), and
    of calling the circuit_maker of any problem of that script.

    Simplification: the disk maps a path to the circuit that stim.Circuit(f.read()) gives;
    a missing file raises FileNotFoundError (here RuntimeError). *)
From Coq Require Import QArith.
From Verif Require Import Prelude Layout Stim Circuit Noise Collect Paper.
Open Scope Z_scope.

(** the files: the circuit read from a path *)
Definition disk := string -> option circuit.
(** main_collect_all.py lines 85-93 *)
Definition circuit_from_file (files : disk) (path noise_name : string) (p : Q) : res circuit :=
  match files path with
  | None => Err RuntimeError
  | Some c =>
      let! nm := if (noise_name =? "SI1000")%string then Ok (NM_SI1000 p)
                 else if (noise_name =? "SD6")%string then Ok (NM_SD6 p)
                 else Err NotImplementedError in
      noisy_circuit nm c
  end.
(** lines 79-93 *)
Definition surface_code_circuit (files : disk) (directory noise_name : string) (p : Q) (obs : string) (d : Z) : res circuit :=
  circuit_from_file files (surface_path directory noise_name obs d) noise_name p.
(** problem.circuit_maker(): lines 102-103, and honeycomb_layout.py lines 137-138 *)
Definition make_circuit (files : disk) (m : maker) : res circuit :=
  match m with
  | Honeycomb lay => generate_honeycomb_circuit lay
  | Surface path noise_name p => circuit_from_file files path noise_name p
  end.
