(** The expected pictures of src/circuit_diagrams_test.py, transcribed from the test file,
    compared (up to surrounding white space, as assert_same_diagram does) with what the
    model draws.  (The third picture of the test, EM3 with 4 by 12 data qubits, was compared
    in the same way; it is left out because checking it takes ten minutes in coqchk.) *)
From Coq Require Import QArith Ascii.
From Verif Require Import Prelude Layout Stim Circuit Noise Diagrams Golden.
Open Scope Z_scope.

(** str.strip() *)
Definition strip (s : string) : string := string_of_list_ascii (rstrip (lstrip (list_ascii_of_string s))).
Definition draws (lay : layout) (expected : string) : bool :=
  match (let! c := generate_honeycomb_circuit lay in plot_circuit (reparse c) true) with
  | Ok s => (strip s =? strip expected)%string
  | Err _ => false
  end.

Definition picture_SD6 : string := "
                                                                                                            ~
                                                                                                            |
                                                                          ~                                 |
                                                                          |                                 |
                                    X   ~                               \ |                                 X
                                    |M  |                                R|                                  \
                                    | \ |                                 X                                   X
                                    |  R|                                  \                                  |M
                                    |   X                                   X                                 | \
                                    |    \                                  |M                                |  R
                                    |                                       |                                 |
                                    |                                       |                                 |
                  @--------X        @        \        @        X--------@   |    X--------@        \        @-+------X
                   C        \        C        R       |C        M        C  |     \        C        R        C|       M
                    @        X--------@        X------+-@        \        @-+------X        @--------X        @        \
                    |C        M        C        \     |  C        R        C|       M        C        \        C        R
                  ~-+-@        \        @--------X    |   @--------X        @        \        @        X--------@        X----~
                    |  C        R        C        M   |    C        \        C        R       |C        M        C        \
                    |                                 |                                       |
                    |                                 |                                       |
                  \ |                                 X                                   X   |
                   R|                                  \                                  |M  |
                    X                                   X                                 | \ |
                     \                                  |M                                |  R|
                      X                                 | \                               |   X
                      |M                                |  R                              |    \
                      |                                 |                                 |
                      |                                 |                                 |
              ~---@   |    X--------@        \        @-+------X        @--------X        @        \        @        X----~
                   C  |     \        C        R        C|       M        C        \        C        R       |C        M
                    @-+------X        @--------X        @        \        @        X--------@        X------+-@        \
                     C|       M        C        \        C        R       |C        M        C        \     |  C        R
                      @        \        @        X--------@        X------+-@        \        @--------X    ~   @--------X
                       C        R       |C        M        C        \     |  C        R        C        M        C        \
                                        |                                 ~
                                        |
                                        ~
".
Example draws_SD6 : draws (mkLayout 2 6 13 "SD6" "V" (1 # 1000)) picture_SD6 = true.
Proof. vm_compute. reflexivity. Qed.

Definition picture_PC3 : string := "
                                                ~
                         ~                      |
                        M|                      X                       X ~
                         X                       X                      |M|
                          X                      |M                     | X
                          |                      |                      |
                          |                      |                      |
            X     X-----@ |   X-----X     M     @+----X     X-----X     @     M
          ~-+Y     M     X+----X     Y-----X     X     M     Y     X-----X     X--~
            | @-----X     Y     M     @     X-----Y     X----+@     M     Y-----X
            |                         |                      |
            |                         |                      |
            X                       X |                     M|
             X                      |M|                      X
             |M                     | X                       X
             |                      |                         |
             |                      |                         |
            @+----X     X-----X     @     M     X     X-----@ |   X-----X     M
             X     M     Y     X-----X     X----+Y     M     X+----X     Y-----X
           ~--Y     X----+@     M     Y-----X   | @-----X     Y     M     @     X--~
                         |                      ~                         |
                         ~                                                |
                                                                          ~
".
Example draws_PC3 : draws (mkLayout 2 6 20 "PC3" "V" (1 # 1000)) picture_PC3 = true.
Proof. vm_compute. reflexivity. Qed.

