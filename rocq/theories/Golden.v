(** The expected circuits of src/honeycomb_circuit_test.py, transcribed from the
    test file, compared with what the model generates.  stim merges adjacent
    instructions when it parses text, so both sides are merged first. *)
From Coq Require Import QArith.
From Verif Require Import Prelude Layout Tracker Stim Circuit Noise.
Open Scope Z_scope.

(** stim.Circuit(str(c)): parsing appends instruction by instruction. *)
Fixpoint reparse_item (x : item) : item :=
  match x with
  | I j => I (mkI (canon (iname j)) (itargets j) (iargs j))
  | Rep n body => Rep n (fold_left (fun c y => match reparse_item y with I j => append_instr c j | b => c ++ [b] end) body [])
  end.
Definition reparse (c : circuit) : circuit :=
  match reparse_item (Rep 1 c) with Rep _ b => b | I _ => [] end.

Fixpoint list_eqb {A} (eqb : A -> A -> bool) (a b : list A) : bool :=
  match a, b with
  | [], [] => true
  | x :: a, y :: b => eqb x y && list_eqb eqb a b
  | _, _ => false
  end.
Fixpoint item_eqb (a b : item) : bool :=
  match a, b with
  | I i, I j => (iname i =? iname j)%string && list_eqb target_eqb (itargets i) (itargets j) && nums_eqb (iargs i) (iargs j)
  | Rep n x, Rep m y =>
      (n =? m) && (fix go (a b : list item) := match a, b with
                   | [], [] => true | x :: a, y :: b => item_eqb x y && go a b | _, _ => false end) x y
  | _, _ => false
  end.
Definition matches (lay : layout) (expected : circuit) : bool :=
  match generate_honeycomb_circuit lay with
  | Ok c => list_eqb item_eqb (reparse c) (reparse expected)
  | Err _ => false
  end.
Local Open Scope string_scope.
Local Open Scope nat_scope.
Local Open Scope Z_scope.
Definition i (name : string) (ts : list target) (args : list num) : item := I (mkI name ts args).
Definition recs (l : list Z) : list target := map TRec l.
Definition golden_layout (n : Z) (st ob : string) : layout := mkLayout 2 6 n st ob (1 # 1000).

(** test_circuit_details_SD6, lines 47-285 *)
Definition expected_SD6 : circuit := [
i "QUBIT_COORDS" (qs [0]%nat) [Num (1 # 1); Num (0 # 1)];
i "QUBIT_COORDS" (qs [1]%nat) [Num (1 # 1); Num (1 # 1)];
i "QUBIT_COORDS" (qs [2]%nat) [Num (1 # 1); Num (2 # 1)];
i "QUBIT_COORDS" (qs [3]%nat) [Num (1 # 1); Num (3 # 1)];
i "QUBIT_COORDS" (qs [4]%nat) [Num (1 # 1); Num (4 # 1)];
i "QUBIT_COORDS" (qs [5]%nat) [Num (1 # 1); Num (5 # 1)];
i "QUBIT_COORDS" (qs [6]%nat) [Num (3 # 1); Num (0 # 1)];
i "QUBIT_COORDS" (qs [7]%nat) [Num (3 # 1); Num (1 # 1)];
i "QUBIT_COORDS" (qs [8]%nat) [Num (3 # 1); Num (2 # 1)];
i "QUBIT_COORDS" (qs [9]%nat) [Num (3 # 1); Num (3 # 1)];
i "QUBIT_COORDS" (qs [10]%nat) [Num (3 # 1); Num (4 # 1)];
i "QUBIT_COORDS" (qs [11]%nat) [Num (3 # 1); Num (5 # 1)];
i "QUBIT_COORDS" (qs [12]%nat) [Num (0 # 1); Num (1 # 1)];
i "QUBIT_COORDS" (qs [13]%nat) [Num (0 # 1); Num (3 # 1)];
i "QUBIT_COORDS" (qs [14]%nat) [Num (0 # 1); Num (5 # 1)];
i "QUBIT_COORDS" (qs [15]%nat) [Num (1 # 1); Num (1 # 2)];
i "QUBIT_COORDS" (qs [16]%nat) [Num (1 # 1); Num (3 # 2)];
i "QUBIT_COORDS" (qs [17]%nat) [Num (1 # 1); Num (5 # 2)];
i "QUBIT_COORDS" (qs [18]%nat) [Num (1 # 1); Num (7 # 2)];
i "QUBIT_COORDS" (qs [19]%nat) [Num (1 # 1); Num (9 # 2)];
i "QUBIT_COORDS" (qs [20]%nat) [Num (1 # 1); Num (11 # 2)];
i "QUBIT_COORDS" (qs [21]%nat) [Num (2 # 1); Num (0 # 1)];
i "QUBIT_COORDS" (qs [22]%nat) [Num (2 # 1); Num (2 # 1)];
i "QUBIT_COORDS" (qs [23]%nat) [Num (2 # 1); Num (4 # 1)];
i "QUBIT_COORDS" (qs [24]%nat) [Num (3 # 1); Num (1 # 2)];
i "QUBIT_COORDS" (qs [25]%nat) [Num (3 # 1); Num (3 # 2)];
i "QUBIT_COORDS" (qs [26]%nat) [Num (3 # 1); Num (5 # 2)];
i "QUBIT_COORDS" (qs [27]%nat) [Num (3 # 1); Num (7 # 2)];
i "QUBIT_COORDS" (qs [28]%nat) [Num (3 # 1); Num (9 # 2)];
i "QUBIT_COORDS" (qs [29]%nat) [Num (3 # 1); Num (11 # 2)];
i "R" (qs [0; 1; 2; 3; 4; 5; 6; 7; 8; 9; 10; 11; 12; 13; 14; 15; 16; 17; 18; 19; 20; 21; 22; 23; 24; 25; 26; 27; 28; 29]%nat) [];
i "X_ERROR" (qs [0; 1; 2; 3; 4; 5; 6; 7; 8; 9; 10; 11; 12; 13; 14; 15; 16; 17; 18; 19; 20; 21; 22; 23; 24; 25; 26; 27; 28; 29]%nat) [Num (1 # 1000)];
i "TICK" [] [];
i "R" (qs [13; 16; 19; 21; 25; 28]%nat) [];
i "C_ZYX" (qs [0; 2; 4; 7; 9; 11]%nat) [];
i "X_ERROR" (qs [13; 16; 19; 21; 25; 28]%nat) [Num (1 # 1000)];
i "DEPOLARIZE1" (qs [0; 2; 4; 7; 9; 11; 1; 3; 5; 6; 8; 10; 12; 14; 15; 17; 18; 20; 22; 23; 24; 26; 27; 29]%nat) [Num (1 # 1000)];
i "TICK" [] [];
i "CX" (qs [9; 13; 2; 16; 4; 19; 0; 21; 7; 25; 11; 28]%nat) [];
i "DEPOLARIZE2" (qs [9; 13; 2; 16; 4; 19; 0; 21; 7; 25; 11; 28]%nat) [Num (1 # 1000)];
i "DEPOLARIZE1" (qs [1; 3; 5; 6; 8; 10; 12; 14; 15; 17; 18; 20; 22; 23; 24; 26; 27; 29]%nat) [Num (1 # 1000)];
i "TICK" [] [];
i "R" (qs [12; 17; 20; 23; 26; 29]%nat) [];
i "C_ZYX" (qs [0; 1; 2; 3; 4; 5; 6; 7; 8; 9; 10; 11]%nat) [];
i "X_ERROR" (qs [12; 17; 20; 23; 26; 29]%nat) [Num (1 # 1000)];
i "DEPOLARIZE1" (qs [0; 1; 2; 3; 4; 5; 6; 7; 8; 9; 10; 11; 13; 14; 15; 16; 18; 19; 21; 22; 24; 25; 27; 28]%nat) [Num (1 # 1000)];
i "TICK" [] [];
i "CX" (qs [7; 12; 2; 17; 0; 20; 4; 23; 9; 26; 11; 29]%nat) [];
i "CX" (qs [3; 13; 1; 16; 5; 19; 6; 21; 8; 25; 10; 28]%nat) [];
i "DEPOLARIZE2" (qs [7; 12; 2; 17; 0; 20; 4; 23; 9; 26; 11; 29; 3; 13; 1; 16; 5; 19; 6; 21; 8; 25; 10; 28]%nat) [Num (1 # 1000)];
i "DEPOLARIZE1" (qs [14; 15; 18; 22; 24; 27]%nat) [Num (1 # 1000)];
i "TICK" [] [];
i "X_ERROR" (qs [13; 16; 19; 21; 25; 28]%nat) [Num (1 # 1000)];
i "R" (qs [14; 15; 18; 22; 24; 27]%nat) [];
i "C_ZYX" (qs [0; 1; 2; 3; 4; 5; 6; 7; 8; 9; 10; 11]%nat) [];
i "M" (qs [13; 16; 19; 21; 25; 28]%nat) [];
i "OBSERVABLE_INCLUDE" (recs [(-5); (-4)]) [Num (0 # 1)];
i "SHIFT_COORDS" [] [Num (0 # 1); Num (0 # 1); Num (1 # 1)];
i "X_ERROR" (qs [14; 15; 18; 22; 24; 27]%nat) [Num (1 # 1000)];
i "DEPOLARIZE1" (qs [0; 1; 2; 3; 4; 5; 6; 7; 8; 9; 10; 11; 12; 17; 20; 23; 26; 29]%nat) [Num (1 # 1000)];
i "TICK" [] [];
i "CX" (qs [11; 14; 0; 15; 4; 18; 2; 22; 7; 24; 9; 27]%nat) [];
i "CX" (qs [1; 12; 3; 17; 5; 20; 10; 23; 8; 26; 6; 29]%nat) [];
i "DEPOLARIZE2" (qs [11; 14; 0; 15; 4; 18; 2; 22; 7; 24; 9; 27; 1; 12; 3; 17; 5; 20; 10; 23; 8; 26; 6; 29]%nat) [Num (1 # 1000)];
i "DEPOLARIZE1" (qs [13; 16; 19; 21; 25; 28]%nat) [Num (1 # 1000)];
i "TICK" [] [];
i "X_ERROR" (qs [12; 17; 20; 23; 26; 29]%nat) [Num (1 # 1000)];
i "R" (qs [13; 16; 19; 21; 25; 28]%nat) [];
i "C_ZYX" (qs [0; 1; 2; 3; 4; 5; 6; 7; 8; 9; 10; 11]%nat) [];
i "M" (qs [12; 17; 20; 23; 26; 29]%nat) [];
i "OBSERVABLE_INCLUDE" (recs [(-5); (-4)]) [Num (0 # 1)];
i "DETECTOR" (recs [(-12); (-11); (-8); (-6); (-5); (-2)]) [Num (0 # 1); Num (2 # 1); Num (0 # 1)];
i "DETECTOR" (recs [(-10); (-9); (-7); (-4); (-3); (-1)]) [Num (2 # 1); Num (5 # 1); Num (0 # 1)];
i "SHIFT_COORDS" [] [Num (0 # 1); Num (0 # 1); Num (1 # 1)];
i "X_ERROR" (qs [13; 16; 19; 21; 25; 28]%nat) [Num (1 # 1000)];
i "DEPOLARIZE1" (qs [0; 1; 2; 3; 4; 5; 6; 7; 8; 9; 10; 11; 14; 15; 18; 22; 24; 27]%nat) [Num (1 # 1000)];
i "TICK" [] [];
i "CX" (qs [9; 13; 2; 16; 4; 19; 0; 21; 7; 25; 11; 28]%nat) [];
i "CX" (qs [5; 14; 1; 15; 3; 18; 8; 22; 6; 24; 10; 27]%nat) [];
i "DEPOLARIZE2" (qs [9; 13; 2; 16; 4; 19; 0; 21; 7; 25; 11; 28; 5; 14; 1; 15; 3; 18; 8; 22; 6; 24; 10; 27]%nat) [Num (1 # 1000)];
i "DEPOLARIZE1" (qs [12; 17; 20; 23; 26; 29]%nat) [Num (1 # 1000)];
i "TICK" [] [];
i "X_ERROR" (qs [14; 15; 18; 22; 24; 27]%nat) [Num (1 # 1000)];
i "R" (qs [12; 17; 20; 23; 26; 29]%nat) [];
i "C_ZYX" (qs [0; 1; 2; 3; 4; 5; 6; 7; 8; 9; 10; 11]%nat) [];
i "M" (qs [14; 15; 18; 22; 24; 27]%nat) [];
i "OBSERVABLE_INCLUDE" (recs [(-5); (-4)]) [Num (0 # 1)];
i "SHIFT_COORDS" [] [Num (0 # 1); Num (0 # 1); Num (1 # 1)];
i "X_ERROR" (qs [12; 17; 20; 23; 26; 29]%nat) [Num (1 # 1000)];
i "DEPOLARIZE1" (qs [0; 1; 2; 3; 4; 5; 6; 7; 8; 9; 10; 11; 13; 16; 19; 21; 25; 28]%nat) [Num (1 # 1000)];
i "TICK" [] [];
i "CX" (qs [7; 12; 2; 17; 0; 20; 4; 23; 9; 26; 11; 29]%nat) [];
i "CX" (qs [3; 13; 1; 16; 5; 19; 6; 21; 8; 25; 10; 28]%nat) [];
i "DEPOLARIZE2" (qs [7; 12; 2; 17; 0; 20; 4; 23; 9; 26; 11; 29; 3; 13; 1; 16; 5; 19; 6; 21; 8; 25; 10; 28]%nat) [Num (1 # 1000)];
i "DEPOLARIZE1" (qs [14; 15; 18; 22; 24; 27]%nat) [Num (1 # 1000)];
i "TICK" [] [];
i "X_ERROR" (qs [13; 16; 19; 21; 25; 28]%nat) [Num (1 # 1000)];
i "R" (qs [14; 15; 18; 22; 24; 27]%nat) [];
i "C_ZYX" (qs [0; 1; 2; 3; 4; 5; 6; 7; 8; 9; 10; 11]%nat) [];
i "M" (qs [13; 16; 19; 21; 25; 28]%nat) [];
i "OBSERVABLE_INCLUDE" (recs [(-5); (-4)]) [Num (0 # 1)];
i "DETECTOR" (recs [(-24); (-22); (-19); (-12); (-10); (-7); (-6); (-4); (-1)]) [Num (0 # 1); Num (4 # 1); Num (0 # 1)];
i "DETECTOR" (recs [(-23); (-21); (-20); (-11); (-9); (-8); (-5); (-3); (-2)]) [Num (2 # 1); Num (1 # 1); Num (0 # 1)];
i "SHIFT_COORDS" [] [Num (0 # 1); Num (0 # 1); Num (1 # 1)];
i "X_ERROR" (qs [14; 15; 18; 22; 24; 27]%nat) [Num (1 # 1000)];
i "DEPOLARIZE1" (qs [0; 1; 2; 3; 4; 5; 6; 7; 8; 9; 10; 11; 12; 17; 20; 23; 26; 29]%nat) [Num (1 # 1000)];
i "TICK" [] [];
Rep 332 [
i "CX" (qs [11; 14; 0; 15; 4; 18; 2; 22; 7; 24; 9; 27]%nat) [];
i "CX" (qs [1; 12; 3; 17; 5; 20; 10; 23; 8; 26; 6; 29]%nat) [];
i "DEPOLARIZE2" (qs [11; 14; 0; 15; 4; 18; 2; 22; 7; 24; 9; 27; 1; 12; 3; 17; 5; 20; 10; 23; 8; 26; 6; 29]%nat) [Num (1 # 1000)];
i "DEPOLARIZE1" (qs [13; 16; 19; 21; 25; 28]%nat) [Num (1 # 1000)];
i "TICK" [] [];
i "X_ERROR" (qs [12; 17; 20; 23; 26; 29]%nat) [Num (1 # 1000)];
i "R" (qs [13; 16; 19; 21; 25; 28]%nat) [];
i "C_ZYX" (qs [0; 1; 2; 3; 4; 5; 6; 7; 8; 9; 10; 11]%nat) [];
i "M" (qs [12; 17; 20; 23; 26; 29]%nat) [];
i "OBSERVABLE_INCLUDE" (recs [(-5); (-4)]) [Num (0 # 1)];
i "DETECTOR" (recs [(-30); (-29); (-26); (-24); (-23); (-20); (-12); (-11); (-8); (-6); (-5); (-2)]) [Num (0 # 1); Num (2 # 1); Num (0 # 1)];
i "DETECTOR" (recs [(-28); (-27); (-25); (-22); (-21); (-19); (-10); (-9); (-7); (-4); (-3); (-1)]) [Num (2 # 1); Num (5 # 1); Num (0 # 1)];
i "SHIFT_COORDS" [] [Num (0 # 1); Num (0 # 1); Num (1 # 1)];
i "X_ERROR" (qs [13; 16; 19; 21; 25; 28]%nat) [Num (1 # 1000)];
i "DEPOLARIZE1" (qs [0; 1; 2; 3; 4; 5; 6; 7; 8; 9; 10; 11; 14; 15; 18; 22; 24; 27]%nat) [Num (1 # 1000)];
i "TICK" [] [];
i "CX" (qs [9; 13; 2; 16; 4; 19; 0; 21; 7; 25; 11; 28]%nat) [];
i "CX" (qs [5; 14; 1; 15; 3; 18; 8; 22; 6; 24; 10; 27]%nat) [];
i "DEPOLARIZE2" (qs [9; 13; 2; 16; 4; 19; 0; 21; 7; 25; 11; 28; 5; 14; 1; 15; 3; 18; 8; 22; 6; 24; 10; 27]%nat) [Num (1 # 1000)];
i "DEPOLARIZE1" (qs [12; 17; 20; 23; 26; 29]%nat) [Num (1 # 1000)];
i "TICK" [] [];
i "X_ERROR" (qs [14; 15; 18; 22; 24; 27]%nat) [Num (1 # 1000)];
i "R" (qs [12; 17; 20; 23; 26; 29]%nat) [];
i "C_ZYX" (qs [0; 1; 2; 3; 4; 5; 6; 7; 8; 9; 10; 11]%nat) [];
i "M" (qs [14; 15; 18; 22; 24; 27]%nat) [];
i "OBSERVABLE_INCLUDE" (recs [(-5); (-4)]) [Num (0 # 1)];
i "DETECTOR" (recs [(-30); (-28); (-25); (-24); (-23); (-20); (-12); (-10); (-7); (-6); (-5); (-2)]) [Num (0 # 1); Num (0 # 1); Num (0 # 1)];
i "DETECTOR" (recs [(-29); (-27); (-26); (-22); (-21); (-19); (-11); (-9); (-8); (-4); (-3); (-1)]) [Num (2 # 1); Num (3 # 1); Num (0 # 1)];
i "SHIFT_COORDS" [] [Num (0 # 1); Num (0 # 1); Num (1 # 1)];
i "X_ERROR" (qs [12; 17; 20; 23; 26; 29]%nat) [Num (1 # 1000)];
i "DEPOLARIZE1" (qs [0; 1; 2; 3; 4; 5; 6; 7; 8; 9; 10; 11; 13; 16; 19; 21; 25; 28]%nat) [Num (1 # 1000)];
i "TICK" [] [];
i "CX" (qs [7; 12; 2; 17; 0; 20; 4; 23; 9; 26; 11; 29]%nat) [];
i "CX" (qs [3; 13; 1; 16; 5; 19; 6; 21; 8; 25; 10; 28]%nat) [];
i "DEPOLARIZE2" (qs [7; 12; 2; 17; 0; 20; 4; 23; 9; 26; 11; 29; 3; 13; 1; 16; 5; 19; 6; 21; 8; 25; 10; 28]%nat) [Num (1 # 1000)];
i "DEPOLARIZE1" (qs [14; 15; 18; 22; 24; 27]%nat) [Num (1 # 1000)];
i "TICK" [] [];
i "X_ERROR" (qs [13; 16; 19; 21; 25; 28]%nat) [Num (1 # 1000)];
i "R" (qs [14; 15; 18; 22; 24; 27]%nat) [];
i "C_ZYX" (qs [0; 1; 2; 3; 4; 5; 6; 7; 8; 9; 10; 11]%nat) [];
i "M" (qs [13; 16; 19; 21; 25; 28]%nat) [];
i "OBSERVABLE_INCLUDE" (recs [(-5); (-4)]) [Num (0 # 1)];
i "DETECTOR" (recs [(-30); (-28); (-25); (-24); (-22); (-19); (-12); (-10); (-7); (-6); (-4); (-1)]) [Num (0 # 1); Num (4 # 1); Num (0 # 1)];
i "DETECTOR" (recs [(-29); (-27); (-26); (-23); (-21); (-20); (-11); (-9); (-8); (-5); (-3); (-2)]) [Num (2 # 1); Num (1 # 1); Num (0 # 1)];
i "SHIFT_COORDS" [] [Num (0 # 1); Num (0 # 1); Num (1 # 1)];
i "X_ERROR" (qs [14; 15; 18; 22; 24; 27]%nat) [Num (1 # 1000)];
i "DEPOLARIZE1" (qs [0; 1; 2; 3; 4; 5; 6; 7; 8; 9; 10; 11; 12; 17; 20; 23; 26; 29]%nat) [Num (1 # 1000)];
i "TICK" [] []];
i "CX" (qs [11; 14; 0; 15; 4; 18; 2; 22; 7; 24; 9; 27]%nat) [];
i "CX" (qs [1; 12; 3; 17; 5; 20; 10; 23; 8; 26; 6; 29]%nat) [];
i "DEPOLARIZE2" (qs [11; 14; 0; 15; 4; 18; 2; 22; 7; 24; 9; 27; 1; 12; 3; 17; 5; 20; 10; 23; 8; 26; 6; 29]%nat) [Num (1 # 1000)];
i "DEPOLARIZE1" (qs [13; 16; 19; 21; 25; 28]%nat) [Num (1 # 1000)];
i "TICK" [] [];
i "X_ERROR" (qs [12; 17; 20; 23; 26; 29]%nat) [Num (1 # 1000)];
i "R" (qs [13; 16; 19; 21; 25; 28]%nat) [];
i "C_ZYX" (qs [0; 1; 2; 3; 4; 5; 6; 7; 8; 9; 10; 11]%nat) [];
i "M" (qs [12; 17; 20; 23; 26; 29]%nat) [];
i "OBSERVABLE_INCLUDE" (recs [(-5); (-4)]) [Num (0 # 1)];
i "DETECTOR" (recs [(-30); (-29); (-26); (-24); (-23); (-20); (-12); (-11); (-8); (-6); (-5); (-2)]) [Num (0 # 1); Num (2 # 1); Num (0 # 1)];
i "DETECTOR" (recs [(-28); (-27); (-25); (-22); (-21); (-19); (-10); (-9); (-7); (-4); (-3); (-1)]) [Num (2 # 1); Num (5 # 1); Num (0 # 1)];
i "SHIFT_COORDS" [] [Num (0 # 1); Num (0 # 1); Num (1 # 1)];
i "X_ERROR" (qs [13; 16; 19; 21; 25; 28]%nat) [Num (1 # 1000)];
i "DEPOLARIZE1" (qs [0; 1; 2; 3; 4; 5; 6; 7; 8; 9; 10; 11; 14; 15; 18; 22; 24; 27]%nat) [Num (1 # 1000)];
i "TICK" [] [];
i "CX" (qs [9; 13; 2; 16; 4; 19; 0; 21; 7; 25; 11; 28]%nat) [];
i "CX" (qs [5; 14; 1; 15; 3; 18; 8; 22; 6; 24; 10; 27]%nat) [];
i "DEPOLARIZE2" (qs [9; 13; 2; 16; 4; 19; 0; 21; 7; 25; 11; 28; 5; 14; 1; 15; 3; 18; 8; 22; 6; 24; 10; 27]%nat) [Num (1 # 1000)];
i "DEPOLARIZE1" (qs [12; 17; 20; 23; 26; 29]%nat) [Num (1 # 1000)];
i "TICK" [] [];
i "X_ERROR" (qs [14; 15; 18; 22; 24; 27]%nat) [Num (1 # 1000)];
i "M" (qs [14; 15; 18; 22; 24; 27]%nat) [];
i "OBSERVABLE_INCLUDE" (recs [(-5); (-4)]) [Num (0 # 1)];
i "DETECTOR" (recs [(-30); (-28); (-25); (-24); (-23); (-20); (-12); (-10); (-7); (-6); (-5); (-2)]) [Num (0 # 1); Num (0 # 1); Num (0 # 1)];
i "DETECTOR" (recs [(-29); (-27); (-26); (-22); (-21); (-19); (-11); (-9); (-8); (-4); (-3); (-1)]) [Num (2 # 1); Num (3 # 1); Num (0 # 1)];
i "SHIFT_COORDS" [] [Num (0 # 1); Num (0 # 1); Num (1 # 1)];
i "DEPOLARIZE1" (qs [0; 1; 2; 3; 4; 5; 6; 7; 8; 9; 10; 11; 12; 13; 16; 17; 19; 20; 21; 23; 25; 26; 28; 29]%nat) [Num (1 # 1000)];
i "TICK" [] [];
i "C_ZYX" (qs [1; 3; 5; 6; 8; 10]%nat) [];
i "DEPOLARIZE1" (qs [1; 3; 5; 6; 8; 10; 0; 2; 4; 7; 9; 11; 12; 13; 14; 15; 16; 17; 18; 19; 20; 21; 22; 23; 24; 25; 26; 27; 28; 29]%nat) [Num (1 # 1000)];
i "TICK" [] [];
i "CX" (qs [3; 13; 1; 16; 5; 19; 6; 21; 8; 25; 10; 28]%nat) [];
i "DEPOLARIZE2" (qs [3; 13; 1; 16; 5; 19; 6; 21; 8; 25; 10; 28]%nat) [Num (1 # 1000)];
i "DEPOLARIZE1" (qs [0; 2; 4; 7; 9; 11; 12; 14; 15; 17; 18; 20; 22; 23; 24; 26; 27; 29]%nat) [Num (1 # 1000)];
i "TICK" [] [];
i "X_ERROR" (qs [13; 16; 19; 21; 25; 28]%nat) [Num (1 # 1000)];
i "M" (qs [13; 16; 19; 21; 25; 28]%nat) [];
i "OBSERVABLE_INCLUDE" (recs [(-5); (-4)]) [Num (0 # 1)];
i "DETECTOR" (recs [(-30); (-28); (-25); (-24); (-22); (-19); (-12); (-10); (-7); (-6); (-4); (-1)]) [Num (0 # 1); Num (4 # 1); Num (0 # 1)];
i "DETECTOR" (recs [(-29); (-27); (-26); (-23); (-21); (-20); (-11); (-9); (-8); (-5); (-3); (-2)]) [Num (2 # 1); Num (1 # 1); Num (0 # 1)];
i "SHIFT_COORDS" [] [Num (0 # 1); Num (0 # 1); Num (1 # 1)];
i "C_XYZ" (qs [0; 1; 2; 3; 4; 5; 6; 7; 8; 9; 10; 11]%nat) [];
i "DEPOLARIZE1" (qs [0; 1; 2; 3; 4; 5; 6; 7; 8; 9; 10; 11; 12; 14; 15; 17; 18; 20; 22; 23; 24; 26; 27; 29]%nat) [Num (1 # 1000)];
i "TICK" [] [];
i "H_YZ" (qs [0; 1; 2; 3; 4; 5; 6; 7; 8; 9; 10; 11]%nat) [];
i "DEPOLARIZE1" (qs [0; 1; 2; 3; 4; 5; 6; 7; 8; 9; 10; 11; 12; 13; 14; 15; 16; 17; 18; 19; 20; 21; 22; 23; 24; 25; 26; 27; 28; 29]%nat) [Num (1 # 1000)];
i "TICK" [] [];
i "X_ERROR" (qs [0; 1; 2; 3; 4; 5; 6; 7; 8; 9; 10; 11]%nat) [Num (1 # 1000)];
i "M" (qs [0; 1; 2; 3; 4; 5; 6; 7; 8; 9; 10; 11]%nat) [];
i "DETECTOR" (recs [(-36); (-35); (-32); (-30); (-29); (-26); (-18); (-17); (-14); (-11); (-10); (-9); (-5); (-4); (-3)]) [Num (0 # 1); Num (2 # 1); Num (0 # 1)];
i "DETECTOR" (recs [(-34); (-33); (-31); (-28); (-27); (-25); (-16); (-15); (-13); (-12); (-8); (-7); (-6); (-2); (-1)]) [Num (2 # 1); Num (5 # 1); Num (0 # 1)];
i "DETECTOR" (recs [(-24); (-22); (-19); (-18); (-16); (-13); (-9); (-8); (-7); (-3); (-2); (-1)]) [Num (0 # 1); Num (4 # 1); Num (0 # 1)];
i "DETECTOR" (recs [(-23); (-21); (-20); (-17); (-15); (-14); (-12); (-11); (-10); (-6); (-5); (-4)]) [Num (2 # 1); Num (1 # 1); Num (0 # 1)];
i "OBSERVABLE_INCLUDE" (recs [(-11); (-10); (-8); (-7)]) [Num (0 # 1)];
i "DEPOLARIZE1" (qs [12; 13; 14; 15; 16; 17; 18; 19; 20; 21; 22; 23; 24; 25; 26; 27; 28; 29]%nat) [Num (1 # 1000)]].

Example golden_SD6 : matches (golden_layout 1003 "SD6" "V") expected_SD6 = true.
Proof. vm_compute. reflexivity. Qed.

(** test_circuit_details_PC3, lines 300-492 *)
Definition expected_PC3 : circuit := [
i "QUBIT_COORDS" (qs [0]%nat) [Num (1 # 1); Num (0 # 1)];
i "QUBIT_COORDS" (qs [1]%nat) [Num (1 # 1); Num (1 # 1)];
i "QUBIT_COORDS" (qs [2]%nat) [Num (1 # 1); Num (2 # 1)];
i "QUBIT_COORDS" (qs [3]%nat) [Num (1 # 1); Num (3 # 1)];
i "QUBIT_COORDS" (qs [4]%nat) [Num (1 # 1); Num (4 # 1)];
i "QUBIT_COORDS" (qs [5]%nat) [Num (1 # 1); Num (5 # 1)];
i "QUBIT_COORDS" (qs [6]%nat) [Num (3 # 1); Num (0 # 1)];
i "QUBIT_COORDS" (qs [7]%nat) [Num (3 # 1); Num (1 # 1)];
i "QUBIT_COORDS" (qs [8]%nat) [Num (3 # 1); Num (2 # 1)];
i "QUBIT_COORDS" (qs [9]%nat) [Num (3 # 1); Num (3 # 1)];
i "QUBIT_COORDS" (qs [10]%nat) [Num (3 # 1); Num (4 # 1)];
i "QUBIT_COORDS" (qs [11]%nat) [Num (3 # 1); Num (5 # 1)];
i "QUBIT_COORDS" (qs [12]%nat) [Num (0 # 1); Num (1 # 1)];
i "QUBIT_COORDS" (qs [13]%nat) [Num (0 # 1); Num (3 # 1)];
i "QUBIT_COORDS" (qs [14]%nat) [Num (0 # 1); Num (5 # 1)];
i "QUBIT_COORDS" (qs [15]%nat) [Num (1 # 1); Num (1 # 2)];
i "QUBIT_COORDS" (qs [16]%nat) [Num (1 # 1); Num (3 # 2)];
i "QUBIT_COORDS" (qs [17]%nat) [Num (1 # 1); Num (5 # 2)];
i "QUBIT_COORDS" (qs [18]%nat) [Num (1 # 1); Num (7 # 2)];
i "QUBIT_COORDS" (qs [19]%nat) [Num (1 # 1); Num (9 # 2)];
i "QUBIT_COORDS" (qs [20]%nat) [Num (1 # 1); Num (11 # 2)];
i "QUBIT_COORDS" (qs [21]%nat) [Num (2 # 1); Num (0 # 1)];
i "QUBIT_COORDS" (qs [22]%nat) [Num (2 # 1); Num (2 # 1)];
i "QUBIT_COORDS" (qs [23]%nat) [Num (2 # 1); Num (4 # 1)];
i "QUBIT_COORDS" (qs [24]%nat) [Num (3 # 1); Num (1 # 2)];
i "QUBIT_COORDS" (qs [25]%nat) [Num (3 # 1); Num (3 # 2)];
i "QUBIT_COORDS" (qs [26]%nat) [Num (3 # 1); Num (5 # 2)];
i "QUBIT_COORDS" (qs [27]%nat) [Num (3 # 1); Num (7 # 2)];
i "QUBIT_COORDS" (qs [28]%nat) [Num (3 # 1); Num (9 # 2)];
i "QUBIT_COORDS" (qs [29]%nat) [Num (3 # 1); Num (11 # 2)];
i "R" (qs [0; 1; 2; 3; 4; 5; 6; 7; 8; 9; 10; 11; 12; 13; 14; 15; 16; 17; 18; 19; 20; 21; 22; 23; 24; 25; 26; 27; 28; 29]%nat) [];
i "X_ERROR" (qs [0; 1; 2; 3; 4; 5; 6; 7; 8; 9; 10; 11; 12; 13; 14; 15; 16; 17; 18; 19; 20; 21; 22; 23; 24; 25; 26; 27; 28; 29]%nat) [Num (1 # 1000)];
i "TICK" [] [];
i "XCX" (qs [9; 13; 2; 16; 4; 19; 0; 21; 7; 25; 11; 28]%nat) [];
i "R" (qs [12; 17; 20; 23; 26; 29]%nat) [];
i "DEPOLARIZE2" (qs [9; 13; 2; 16; 4; 19; 0; 21; 7; 25; 11; 28]%nat) [Num (1 # 1000)];
i "X_ERROR" (qs [12; 17; 20; 23; 26; 29]%nat) [Num (1 # 1000)];
i "DEPOLARIZE1" (qs [1; 3; 5; 6; 8; 10; 14; 15; 18; 22; 24; 27]%nat) [Num (1 # 1000)];
i "TICK" [] [];
i "YCX" (qs [7; 12; 2; 17; 0; 20; 4; 23; 9; 26; 11; 29]%nat) [];
i "XCX" (qs [3; 13; 1; 16; 5; 19; 6; 21; 8; 25; 10; 28]%nat) [];
i "R" (qs [14; 15; 18; 22; 24; 27]%nat) [];
i "DEPOLARIZE2" (qs [7; 12; 2; 17; 0; 20; 4; 23; 9; 26; 11; 29; 3; 13; 1; 16; 5; 19; 6; 21; 8; 25; 10; 28]%nat) [Num (1 # 1000)];
i "X_ERROR" (qs [14; 15; 18; 22; 24; 27]%nat) [Num (1 # 1000)];
i "TICK" [] [];
i "X_ERROR" (qs [13; 16; 19; 21; 25; 28]%nat) [Num (1 # 1000)];
i "CX" (qs [11; 14; 0; 15; 4; 18; 2; 22; 7; 24; 9; 27]%nat) [];
i "YCX" (qs [1; 12; 3; 17; 5; 20; 10; 23; 8; 26; 6; 29]%nat) [];
i "M" (qs [13; 16; 19; 21; 25; 28]%nat) [];
i "SHIFT_COORDS" [] [Num (0 # 1); Num (0 # 1); Num (1 # 1)];
i "DEPOLARIZE2" (qs [11; 14; 0; 15; 4; 18; 2; 22; 7; 24; 9; 27; 1; 12; 3; 17; 5; 20; 10; 23; 8; 26; 6; 29]%nat) [Num (1 # 1000)];
i "TICK" [] [];
i "X_ERROR" (qs [12; 17; 20; 23; 26; 29]%nat) [Num (1 # 1000)];
i "XCX" (qs [9; 13; 2; 16; 4; 19; 0; 21; 7; 25; 11; 28]%nat) [];
i "CX" (qs [5; 14; 1; 15; 3; 18; 8; 22; 6; 24; 10; 27]%nat) [];
i "M" (qs [12; 17; 20; 23; 26; 29]%nat) [];
i "DETECTOR" (recs [(-12); (-11); (-8); (-6); (-5); (-2)]) [Num (0 # 1); Num (2 # 1); Num (0 # 1)];
i "DETECTOR" (recs [(-10); (-9); (-7); (-4); (-3); (-1)]) [Num (2 # 1); Num (5 # 1); Num (0 # 1)];
i "SHIFT_COORDS" [] [Num (0 # 1); Num (0 # 1); Num (1 # 1)];
i "DEPOLARIZE2" (qs [9; 13; 2; 16; 4; 19; 0; 21; 7; 25; 11; 28; 5; 14; 1; 15; 3; 18; 8; 22; 6; 24; 10; 27]%nat) [Num (1 # 1000)];
i "TICK" [] [];
i "X_ERROR" (qs [14; 15; 18; 22; 24; 27]%nat) [Num (1 # 1000)];
i "YCX" (qs [7; 12; 2; 17; 0; 20; 4; 23; 9; 26; 11; 29]%nat) [];
i "XCX" (qs [3; 13; 1; 16; 5; 19; 6; 21; 8; 25; 10; 28]%nat) [];
i "M" (qs [14; 15; 18; 22; 24; 27]%nat) [];
i "SHIFT_COORDS" [] [Num (0 # 1); Num (0 # 1); Num (1 # 1)];
i "DEPOLARIZE2" (qs [7; 12; 2; 17; 0; 20; 4; 23; 9; 26; 11; 29; 3; 13; 1; 16; 5; 19; 6; 21; 8; 25; 10; 28]%nat) [Num (1 # 1000)];
i "TICK" [] [];
i "X_ERROR" (qs [13; 16; 19; 21; 25; 28]%nat) [Num (1 # 1000)];
i "CX" (qs [11; 14; 0; 15; 4; 18; 2; 22; 7; 24; 9; 27]%nat) [];
i "YCX" (qs [1; 12; 3; 17; 5; 20; 10; 23; 8; 26; 6; 29]%nat) [];
i "M" (qs [13; 16; 19; 21; 25; 28]%nat) [];
i "DETECTOR" (recs [(-12); (-10); (-7); (-6); (-4); (-1)]) [Num (0 # 1); Num (4 # 1); Num (0 # 1)];
i "DETECTOR" (recs [(-11); (-9); (-8); (-5); (-3); (-2)]) [Num (2 # 1); Num (1 # 1); Num (0 # 1)];
i "SHIFT_COORDS" [] [Num (0 # 1); Num (0 # 1); Num (1 # 1)];
i "DEPOLARIZE2" (qs [11; 14; 0; 15; 4; 18; 2; 22; 7; 24; 9; 27; 1; 12; 3; 17; 5; 20; 10; 23; 8; 26; 6; 29]%nat) [Num (1 # 1000)];
i "TICK" [] [];
i "X_ERROR" (qs [12; 17; 20; 23; 26; 29]%nat) [Num (1 # 1000)];
i "XCX" (qs [9; 13; 2; 16; 4; 19; 0; 21; 7; 25; 11; 28]%nat) [];
i "CX" (qs [5; 14; 1; 15; 3; 18; 8; 22; 6; 24; 10; 27]%nat) [];
i "M" (qs [12; 17; 20; 23; 26; 29]%nat) [];
i "DETECTOR" (recs [(-12); (-11); (-8); (-6); (-5); (-2)]) [Num (0 # 1); Num (2 # 1); Num (0 # 1)];
i "DETECTOR" (recs [(-10); (-9); (-7); (-4); (-3); (-1)]) [Num (2 # 1); Num (5 # 1); Num (0 # 1)];
i "SHIFT_COORDS" [] [Num (0 # 1); Num (0 # 1); Num (1 # 1)];
i "DEPOLARIZE2" (qs [9; 13; 2; 16; 4; 19; 0; 21; 7; 25; 11; 28; 5; 14; 1; 15; 3; 18; 8; 22; 6; 24; 10; 27]%nat) [Num (1 # 1000)];
i "TICK" [] [];
i "X_ERROR" (qs [14; 15; 18; 22; 24; 27]%nat) [Num (1 # 1000)];
i "YCX" (qs [7; 12; 2; 17; 0; 20; 4; 23; 9; 26; 11; 29]%nat) [];
i "XCX" (qs [3; 13; 1; 16; 5; 19; 6; 21; 8; 25; 10; 28]%nat) [];
i "M" (qs [14; 15; 18; 22; 24; 27]%nat) [];
i "DETECTOR" (recs [(-12); (-10); (-7); (-6); (-5); (-2)]) [Num (0 # 1); Num (0 # 1); Num (0 # 1)];
i "DETECTOR" (recs [(-11); (-9); (-8); (-4); (-3); (-1)]) [Num (2 # 1); Num (3 # 1); Num (0 # 1)];
i "SHIFT_COORDS" [] [Num (0 # 1); Num (0 # 1); Num (1 # 1)];
i "DEPOLARIZE2" (qs [7; 12; 2; 17; 0; 20; 4; 23; 9; 26; 11; 29; 3; 13; 1; 16; 5; 19; 6; 21; 8; 25; 10; 28]%nat) [Num (1 # 1000)];
i "TICK" [] [];
i "X_ERROR" (qs [13; 16; 19; 21; 25; 28]%nat) [Num (1 # 1000)];
i "CX" (qs [11; 14; 0; 15; 4; 18; 2; 22; 7; 24; 9; 27]%nat) [];
i "YCX" (qs [1; 12; 3; 17; 5; 20; 10; 23; 8; 26; 6; 29]%nat) [];
i "M" (qs [13; 16; 19; 21; 25; 28]%nat) [];
i "DETECTOR" (recs [(-42); (-40); (-37); (-12); (-10); (-7); (-6); (-4); (-1)]) [Num (0 # 1); Num (4 # 1); Num (0 # 1)];
i "DETECTOR" (recs [(-41); (-39); (-38); (-11); (-9); (-8); (-5); (-3); (-2)]) [Num (2 # 1); Num (1 # 1); Num (0 # 1)];
i "SHIFT_COORDS" [] [Num (0 # 1); Num (0 # 1); Num (1 # 1)];
i "DEPOLARIZE2" (qs [11; 14; 0; 15; 4; 18; 2; 22; 7; 24; 9; 27; 1; 12; 3; 17; 5; 20; 10; 23; 8; 26; 6; 29]%nat) [Num (1 # 1000)];
i "TICK" [] [];
Rep 331 [
i "X_ERROR" (qs [12; 17; 20; 23; 26; 29]%nat) [Num (1 # 1000)];
i "XCX" (qs [9; 13; 2; 16; 4; 19; 0; 21; 7; 25; 11; 28]%nat) [];
i "CX" (qs [5; 14; 1; 15; 3; 18; 8; 22; 6; 24; 10; 27]%nat) [];
i "M" (qs [12; 17; 20; 23; 26; 29]%nat) [];
i "DETECTOR" (recs [(-48); (-47); (-44); (-42); (-41); (-38); (-12); (-11); (-8); (-6); (-5); (-2)]) [Num (0 # 1); Num (2 # 1); Num (0 # 1)];
i "DETECTOR" (recs [(-46); (-45); (-43); (-40); (-39); (-37); (-10); (-9); (-7); (-4); (-3); (-1)]) [Num (2 # 1); Num (5 # 1); Num (0 # 1)];
i "SHIFT_COORDS" [] [Num (0 # 1); Num (0 # 1); Num (1 # 1)];
i "DEPOLARIZE2" (qs [9; 13; 2; 16; 4; 19; 0; 21; 7; 25; 11; 28; 5; 14; 1; 15; 3; 18; 8; 22; 6; 24; 10; 27]%nat) [Num (1 # 1000)];
i "TICK" [] [];
i "X_ERROR" (qs [14; 15; 18; 22; 24; 27]%nat) [Num (1 # 1000)];
i "YCX" (qs [7; 12; 2; 17; 0; 20; 4; 23; 9; 26; 11; 29]%nat) [];
i "XCX" (qs [3; 13; 1; 16; 5; 19; 6; 21; 8; 25; 10; 28]%nat) [];
i "M" (qs [14; 15; 18; 22; 24; 27]%nat) [];
i "DETECTOR" (recs [(-48); (-46); (-43); (-42); (-41); (-38); (-12); (-10); (-7); (-6); (-5); (-2)]) [Num (0 # 1); Num (0 # 1); Num (0 # 1)];
i "DETECTOR" (recs [(-47); (-45); (-44); (-40); (-39); (-37); (-11); (-9); (-8); (-4); (-3); (-1)]) [Num (2 # 1); Num (3 # 1); Num (0 # 1)];
i "SHIFT_COORDS" [] [Num (0 # 1); Num (0 # 1); Num (1 # 1)];
i "DEPOLARIZE2" (qs [7; 12; 2; 17; 0; 20; 4; 23; 9; 26; 11; 29; 3; 13; 1; 16; 5; 19; 6; 21; 8; 25; 10; 28]%nat) [Num (1 # 1000)];
i "TICK" [] [];
i "X_ERROR" (qs [13; 16; 19; 21; 25; 28]%nat) [Num (1 # 1000)];
i "CX" (qs [11; 14; 0; 15; 4; 18; 2; 22; 7; 24; 9; 27]%nat) [];
i "YCX" (qs [1; 12; 3; 17; 5; 20; 10; 23; 8; 26; 6; 29]%nat) [];
i "M" (qs [13; 16; 19; 21; 25; 28]%nat) [];
i "DETECTOR" (recs [(-48); (-46); (-43); (-42); (-40); (-37); (-12); (-10); (-7); (-6); (-4); (-1)]) [Num (0 # 1); Num (4 # 1); Num (0 # 1)];
i "DETECTOR" (recs [(-47); (-45); (-44); (-41); (-39); (-38); (-11); (-9); (-8); (-5); (-3); (-2)]) [Num (2 # 1); Num (1 # 1); Num (0 # 1)];
i "SHIFT_COORDS" [] [Num (0 # 1); Num (0 # 1); Num (1 # 1)];
i "DEPOLARIZE2" (qs [11; 14; 0; 15; 4; 18; 2; 22; 7; 24; 9; 27; 1; 12; 3; 17; 5; 20; 10; 23; 8; 26; 6; 29]%nat) [Num (1 # 1000)];
i "TICK" [] []];
i "X_ERROR" (qs [12; 17; 20; 23; 26; 29]%nat) [Num (1 # 1000)];
i "XCX" (qs [9; 13; 2; 16; 4; 19; 0; 21; 7; 25; 11; 28]%nat) [];
i "CX" (qs [5; 14; 1; 15; 3; 18; 8; 22; 6; 24; 10; 27]%nat) [];
i "M" (qs [12; 17; 20; 23; 26; 29]%nat) [];
i "DETECTOR" (recs [(-48); (-47); (-44); (-42); (-41); (-38); (-12); (-11); (-8); (-6); (-5); (-2)]) [Num (0 # 1); Num (2 # 1); Num (0 # 1)];
i "DETECTOR" (recs [(-46); (-45); (-43); (-40); (-39); (-37); (-10); (-9); (-7); (-4); (-3); (-1)]) [Num (2 # 1); Num (5 # 1); Num (0 # 1)];
i "SHIFT_COORDS" [] [Num (0 # 1); Num (0 # 1); Num (1 # 1)];
i "DEPOLARIZE2" (qs [9; 13; 2; 16; 4; 19; 0; 21; 7; 25; 11; 28; 5; 14; 1; 15; 3; 18; 8; 22; 6; 24; 10; 27]%nat) [Num (1 # 1000)];
i "TICK" [] [];
i "X_ERROR" (qs [14; 15; 18; 22; 24; 27]%nat) [Num (1 # 1000)];
i "XCX" (qs [3; 13; 1; 16; 5; 19; 6; 21; 8; 25; 10; 28]%nat) [];
i "M" (qs [14; 15; 18; 22; 24; 27]%nat) [];
i "DETECTOR" (recs [(-48); (-46); (-43); (-42); (-41); (-38); (-12); (-10); (-7); (-6); (-5); (-2)]) [Num (0 # 1); Num (0 # 1); Num (0 # 1)];
i "DETECTOR" (recs [(-47); (-45); (-44); (-40); (-39); (-37); (-11); (-9); (-8); (-4); (-3); (-1)]) [Num (2 # 1); Num (3 # 1); Num (0 # 1)];
i "SHIFT_COORDS" [] [Num (0 # 1); Num (0 # 1); Num (1 # 1)];
i "DEPOLARIZE2" (qs [3; 13; 1; 16; 5; 19; 6; 21; 8; 25; 10; 28]%nat) [Num (1 # 1000)];
i "DEPOLARIZE1" (qs [0; 2; 4; 7; 9; 11; 12; 17; 20; 23; 26; 29]%nat) [Num (1 # 1000)];
i "TICK" [] [];
i "X_ERROR" (qs [13; 16; 19; 21; 25; 28]%nat) [Num (1 # 1000)];
i "M" (qs [13; 16; 19; 21; 25; 28]%nat) [];
i "DETECTOR" (recs [(-48); (-46); (-43); (-42); (-40); (-37); (-12); (-10); (-7); (-6); (-4); (-1)]) [Num (0 # 1); Num (4 # 1); Num (0 # 1)];
i "DETECTOR" (recs [(-47); (-45); (-44); (-41); (-39); (-38); (-11); (-9); (-8); (-5); (-3); (-2)]) [Num (2 # 1); Num (1 # 1); Num (0 # 1)];
i "SHIFT_COORDS" [] [Num (0 # 1); Num (0 # 1); Num (1 # 1)];
i "DEPOLARIZE1" (qs [0; 1; 2; 3; 4; 5; 6; 7; 8; 9; 10; 11; 12; 14; 15; 17; 18; 20; 22; 23; 24; 26; 27; 29]%nat) [Num (1 # 1000)];
i "TICK" [] [];
i "OBSERVABLE_INCLUDE" (recs [(-5); (-4)]) [Num (0 # 1)];
i "OBSERVABLE_INCLUDE" (recs [(-17); (-16)]) [Num (0 # 1)];
i "OBSERVABLE_INCLUDE" (recs [(-11); (-10)]) [Num (0 # 1)];
i "H_YZ" (qs [0; 1; 2; 3; 4; 5; 6; 7; 8; 9; 10; 11]%nat) [];
i "DEPOLARIZE1" (qs [0; 1; 2; 3; 4; 5; 6; 7; 8; 9; 10; 11; 12; 13; 14; 15; 16; 17; 18; 19; 20; 21; 22; 23; 24; 25; 26; 27; 28; 29]%nat) [Num (1 # 1000)];
i "TICK" [] [];
i "X_ERROR" (qs [0; 1; 2; 3; 4; 5; 6; 7; 8; 9; 10; 11]%nat) [Num (1 # 1000)];
i "M" (qs [0; 1; 2; 3; 4; 5; 6; 7; 8; 9; 10; 11]%nat) [];
i "DETECTOR" (recs [(-54); (-53); (-50); (-48); (-47); (-44); (-30); (-29); (-26); (-18); (-17); (-14); (-11); (-10); (-9); (-5); (-4); (-3)]) [Num (0 # 1); Num (2 # 1); Num (0 # 1)];
i "DETECTOR" (recs [(-52); (-51); (-49); (-46); (-45); (-43); (-28); (-27); (-25); (-16); (-15); (-13); (-12); (-8); (-7); (-6); (-2); (-1)]) [Num (2 # 1); Num (5 # 1); Num (0 # 1)];
i "DETECTOR" (recs [(-42); (-40); (-37); (-36); (-34); (-31); (-24); (-22); (-19); (-18); (-16); (-13); (-9); (-8); (-7); (-3); (-2); (-1)]) [Num (0 # 1); Num (4 # 1); Num (0 # 1)];
i "DETECTOR" (recs [(-41); (-39); (-38); (-35); (-33); (-32); (-23); (-21); (-20); (-17); (-15); (-14); (-12); (-11); (-10); (-6); (-5); (-4)]) [Num (2 # 1); Num (1 # 1); Num (0 # 1)];
i "OBSERVABLE_INCLUDE" (recs [(-11); (-10); (-8); (-7)]) [Num (0 # 1)];
i "DEPOLARIZE1" (qs [12; 13; 14; 15; 16; 17; 18; 19; 20; 21; 22; 23; 24; 25; 26; 27; 28; 29]%nat) [Num (1 # 1000)]].

Example golden_PC3 : matches (golden_layout 1003 "PC3" "V") expected_PC3 = true.
Proof. vm_compute. reflexivity. Qed.

(** test_circuit_details_EM3, lines 507-587 *)
Definition expected_EM3 : circuit := [
i "QUBIT_COORDS" (qs [0]%nat) [Num (1 # 1); Num (0 # 1)];
i "QUBIT_COORDS" (qs [1]%nat) [Num (1 # 1); Num (1 # 1)];
i "QUBIT_COORDS" (qs [2]%nat) [Num (1 # 1); Num (2 # 1)];
i "QUBIT_COORDS" (qs [3]%nat) [Num (1 # 1); Num (3 # 1)];
i "QUBIT_COORDS" (qs [4]%nat) [Num (1 # 1); Num (4 # 1)];
i "QUBIT_COORDS" (qs [5]%nat) [Num (1 # 1); Num (5 # 1)];
i "QUBIT_COORDS" (qs [6]%nat) [Num (3 # 1); Num (0 # 1)];
i "QUBIT_COORDS" (qs [7]%nat) [Num (3 # 1); Num (1 # 1)];
i "QUBIT_COORDS" (qs [8]%nat) [Num (3 # 1); Num (2 # 1)];
i "QUBIT_COORDS" (qs [9]%nat) [Num (3 # 1); Num (3 # 1)];
i "QUBIT_COORDS" (qs [10]%nat) [Num (3 # 1); Num (4 # 1)];
i "QUBIT_COORDS" (qs [11]%nat) [Num (3 # 1); Num (5 # 1)];
i "R" (qs [0; 1; 2; 3; 4; 5; 6; 7; 8; 9; 10; 11]%nat) [];
i "X_ERROR" (qs [0; 1; 2; 3; 4; 5; 6; 7; 8; 9; 10; 11]%nat) [Num (1 # 1000)];
i "TICK" [] [];
i "DEPOLARIZE2" (qs [9; 3; 2; 1; 4; 5; 0; 6; 7; 8; 11; 10]%nat) [Num (1 # 1000)];
i "MPP" [TP PX 9%nat; TComb; TP PX 3%nat; TP PX 2%nat; TComb; TP PX 1%nat; TP PX 4%nat; TComb; TP PX 5%nat; TP PX 0%nat; TComb; TP PX 6%nat; TP PX 7%nat; TComb; TP PX 8%nat; TP PX 11%nat; TComb; TP PX 10%nat] [Num (1 # 1000)];
i "OBSERVABLE_INCLUDE" (recs [(-5); (-4)]) [Num (0 # 1)];
i "SHIFT_COORDS" [] [Num (0 # 1); Num (0 # 1); Num (1 # 1)];
i "TICK" [] [];
i "DEPOLARIZE2" (qs [7; 1; 2; 3; 0; 5; 4; 10; 9; 8; 11; 6]%nat) [Num (1 # 1000)];
i "MPP" [TP PY 7%nat; TComb; TP PY 1%nat; TP PY 2%nat; TComb; TP PY 3%nat; TP PY 0%nat; TComb; TP PY 5%nat; TP PY 4%nat; TComb; TP PY 10%nat; TP PY 9%nat; TComb; TP PY 8%nat; TP PY 11%nat; TComb; TP PY 6%nat] [Num (1 # 1000)];
i "OBSERVABLE_INCLUDE" (recs [(-5); (-4)]) [Num (0 # 1)];
i "DETECTOR" (recs [(-12); (-11); (-8); (-6); (-5); (-2)]) [Num (0 # 1); Num (2 # 1); Num (0 # 1)];
i "DETECTOR" (recs [(-10); (-9); (-7); (-4); (-3); (-1)]) [Num (2 # 1); Num (5 # 1); Num (0 # 1)];
i "SHIFT_COORDS" [] [Num (0 # 1); Num (0 # 1); Num (1 # 1)];
i "TICK" [] [];
i "DEPOLARIZE2" (qs [11; 5; 0; 1; 4; 3; 2; 8; 7; 6; 9; 10]%nat) [Num (1 # 1000)];
i "MPP" [TP PZ 11%nat; TComb; TP PZ 5%nat; TP PZ 0%nat; TComb; TP PZ 1%nat; TP PZ 4%nat; TComb; TP PZ 3%nat; TP PZ 2%nat; TComb; TP PZ 8%nat; TP PZ 7%nat; TComb; TP PZ 6%nat; TP PZ 9%nat; TComb; TP PZ 10%nat] [Num (1 # 1000)];
i "OBSERVABLE_INCLUDE" (recs [(-5); (-4)]) [Num (0 # 1)];
i "SHIFT_COORDS" [] [Num (0 # 1); Num (0 # 1); Num (1 # 1)];
i "TICK" [] [];
i "DEPOLARIZE2" (qs [9; 3; 2; 1; 4; 5; 0; 6; 7; 8; 11; 10]%nat) [Num (1 # 1000)];
i "MPP" [TP PX 9%nat; TComb; TP PX 3%nat; TP PX 2%nat; TComb; TP PX 1%nat; TP PX 4%nat; TComb; TP PX 5%nat; TP PX 0%nat; TComb; TP PX 6%nat; TP PX 7%nat; TComb; TP PX 8%nat; TP PX 11%nat; TComb; TP PX 10%nat] [Num (1 # 1000)];
i "OBSERVABLE_INCLUDE" (recs [(-5); (-4)]) [Num (0 # 1)];
i "DETECTOR" (recs [(-24); (-22); (-19); (-12); (-10); (-7); (-6); (-4); (-1)]) [Num (0 # 1); Num (4 # 1); Num (0 # 1)];
i "DETECTOR" (recs [(-23); (-21); (-20); (-11); (-9); (-8); (-5); (-3); (-2)]) [Num (2 # 1); Num (1 # 1); Num (0 # 1)];
i "SHIFT_COORDS" [] [Num (0 # 1); Num (0 # 1); Num (1 # 1)];
i "TICK" [] [];
Rep 333 [
i "DEPOLARIZE2" (qs [7; 1; 2; 3; 0; 5; 4; 10; 9; 8; 11; 6]%nat) [Num (1 # 1000)];
i "MPP" [TP PY 7%nat; TComb; TP PY 1%nat; TP PY 2%nat; TComb; TP PY 3%nat; TP PY 0%nat; TComb; TP PY 5%nat; TP PY 4%nat; TComb; TP PY 10%nat; TP PY 9%nat; TComb; TP PY 8%nat; TP PY 11%nat; TComb; TP PY 6%nat] [Num (1 # 1000)];
i "OBSERVABLE_INCLUDE" (recs [(-5); (-4)]) [Num (0 # 1)];
i "DETECTOR" (recs [(-30); (-29); (-26); (-24); (-23); (-20); (-12); (-11); (-8); (-6); (-5); (-2)]) [Num (0 # 1); Num (2 # 1); Num (0 # 1)];
i "DETECTOR" (recs [(-28); (-27); (-25); (-22); (-21); (-19); (-10); (-9); (-7); (-4); (-3); (-1)]) [Num (2 # 1); Num (5 # 1); Num (0 # 1)];
i "SHIFT_COORDS" [] [Num (0 # 1); Num (0 # 1); Num (1 # 1)];
i "TICK" [] [];
i "DEPOLARIZE2" (qs [11; 5; 0; 1; 4; 3; 2; 8; 7; 6; 9; 10]%nat) [Num (1 # 1000)];
i "MPP" [TP PZ 11%nat; TComb; TP PZ 5%nat; TP PZ 0%nat; TComb; TP PZ 1%nat; TP PZ 4%nat; TComb; TP PZ 3%nat; TP PZ 2%nat; TComb; TP PZ 8%nat; TP PZ 7%nat; TComb; TP PZ 6%nat; TP PZ 9%nat; TComb; TP PZ 10%nat] [Num (1 # 1000)];
i "OBSERVABLE_INCLUDE" (recs [(-5); (-4)]) [Num (0 # 1)];
i "DETECTOR" (recs [(-30); (-28); (-25); (-24); (-23); (-20); (-12); (-10); (-7); (-6); (-5); (-2)]) [Num (0 # 1); Num (0 # 1); Num (0 # 1)];
i "DETECTOR" (recs [(-29); (-27); (-26); (-22); (-21); (-19); (-11); (-9); (-8); (-4); (-3); (-1)]) [Num (2 # 1); Num (3 # 1); Num (0 # 1)];
i "SHIFT_COORDS" [] [Num (0 # 1); Num (0 # 1); Num (1 # 1)];
i "TICK" [] [];
i "DEPOLARIZE2" (qs [9; 3; 2; 1; 4; 5; 0; 6; 7; 8; 11; 10]%nat) [Num (1 # 1000)];
i "MPP" [TP PX 9%nat; TComb; TP PX 3%nat; TP PX 2%nat; TComb; TP PX 1%nat; TP PX 4%nat; TComb; TP PX 5%nat; TP PX 0%nat; TComb; TP PX 6%nat; TP PX 7%nat; TComb; TP PX 8%nat; TP PX 11%nat; TComb; TP PX 10%nat] [Num (1 # 1000)];
i "OBSERVABLE_INCLUDE" (recs [(-5); (-4)]) [Num (0 # 1)];
i "DETECTOR" (recs [(-30); (-28); (-25); (-24); (-22); (-19); (-12); (-10); (-7); (-6); (-4); (-1)]) [Num (0 # 1); Num (4 # 1); Num (0 # 1)];
i "DETECTOR" (recs [(-29); (-27); (-26); (-23); (-21); (-20); (-11); (-9); (-8); (-5); (-3); (-2)]) [Num (2 # 1); Num (1 # 1); Num (0 # 1)];
i "SHIFT_COORDS" [] [Num (0 # 1); Num (0 # 1); Num (1 # 1)];
i "TICK" [] []];
i "H_YZ" (qs [0; 1; 2; 3; 4; 5; 6; 7; 8; 9; 10; 11]%nat) [];
i "DEPOLARIZE1" (qs [0; 1; 2; 3; 4; 5; 6; 7; 8; 9; 10; 11]%nat) [Num (1 # 1000)];
i "TICK" [] [];
i "X_ERROR" (qs [0; 1; 2; 3; 4; 5; 6; 7; 8; 9; 10; 11]%nat) [Num (1 # 1000)];
i "M" (qs [0; 1; 2; 3; 4; 5; 6; 7; 8; 9; 10; 11]%nat) [];
i "DETECTOR" (recs [(-36); (-35); (-32); (-30); (-29); (-26); (-18); (-17); (-14); (-11); (-10); (-9); (-5); (-4); (-3)]) [Num (0 # 1); Num (2 # 1); Num (0 # 1)];
i "DETECTOR" (recs [(-34); (-33); (-31); (-28); (-27); (-25); (-16); (-15); (-13); (-12); (-8); (-7); (-6); (-2); (-1)]) [Num (2 # 1); Num (5 # 1); Num (0 # 1)];
i "DETECTOR" (recs [(-24); (-22); (-19); (-18); (-16); (-13); (-9); (-8); (-7); (-3); (-2); (-1)]) [Num (0 # 1); Num (4 # 1); Num (0 # 1)];
i "DETECTOR" (recs [(-23); (-21); (-20); (-17); (-15); (-14); (-12); (-11); (-10); (-6); (-5); (-4)]) [Num (2 # 1); Num (1 # 1); Num (0 # 1)];
i "OBSERVABLE_INCLUDE" (recs [(-11); (-10); (-8); (-7)]) [Num (0 # 1)]].

Example golden_EM3 : matches (golden_layout 1003 "EM3" "V") expected_EM3 = true.
Proof. vm_compute. reflexivity. Qed.

(** test_circuit_details_EM3_v2, lines 602-2086 *)
Definition expected_EM3_v2 : circuit := [
i "QUBIT_COORDS" (qs [0]%nat) [Num (1 # 1); Num (0 # 1)];
i "QUBIT_COORDS" (qs [1]%nat) [Num (1 # 1); Num (1 # 1)];
i "QUBIT_COORDS" (qs [2]%nat) [Num (1 # 1); Num (2 # 1)];
i "QUBIT_COORDS" (qs [3]%nat) [Num (1 # 1); Num (3 # 1)];
i "QUBIT_COORDS" (qs [4]%nat) [Num (1 # 1); Num (4 # 1)];
i "QUBIT_COORDS" (qs [5]%nat) [Num (1 # 1); Num (5 # 1)];
i "QUBIT_COORDS" (qs [6]%nat) [Num (3 # 1); Num (0 # 1)];
i "QUBIT_COORDS" (qs [7]%nat) [Num (3 # 1); Num (1 # 1)];
i "QUBIT_COORDS" (qs [8]%nat) [Num (3 # 1); Num (2 # 1)];
i "QUBIT_COORDS" (qs [9]%nat) [Num (3 # 1); Num (3 # 1)];
i "QUBIT_COORDS" (qs [10]%nat) [Num (3 # 1); Num (4 # 1)];
i "QUBIT_COORDS" (qs [11]%nat) [Num (3 # 1); Num (5 # 1)];
i "R" (qs [0; 1; 2; 3; 4; 5; 6; 7; 8; 9; 10; 11]%nat) [];
i "X_ERROR" (qs [0; 1; 2; 3; 4; 5; 6; 7; 8; 9; 10; 11]%nat) [Num (1 # 2000)];
i "TICK" [] [];
i "R" (qs [12]%nat) [];
i "XCX" (qs [9; 12; 3; 12]%nat) [];
i "E" [TP PX 12%nat] [Mix (1 # 1000) 5];
i "E" [TP PX 3%nat] [Mix (1 # 1000) 5];
i "E" [TP PX 3%nat; TP PX 12%nat] [Mix (1 # 1000) 5];
i "E" [TP PY 3%nat] [Mix (1 # 1000) 5];
i "E" [TP PY 3%nat; TP PX 12%nat] [Mix (1 # 1000) 5];
i "E" [TP PZ 3%nat] [Mix (1 # 1000) 5];
i "E" [TP PZ 3%nat; TP PX 12%nat] [Mix (1 # 1000) 5];
i "E" [TP PX 9%nat] [Mix (1 # 1000) 5];
i "E" [TP PX 9%nat; TP PX 12%nat] [Mix (1 # 1000) 5];
i "E" [TP PX 9%nat; TP PX 3%nat] [Mix (1 # 1000) 5];
i "E" [TP PX 9%nat; TP PX 3%nat; TP PX 12%nat] [Mix (1 # 1000) 5];
i "E" [TP PX 9%nat; TP PY 3%nat] [Mix (1 # 1000) 5];
i "E" [TP PX 9%nat; TP PY 3%nat; TP PX 12%nat] [Mix (1 # 1000) 5];
i "E" [TP PX 9%nat; TP PZ 3%nat] [Mix (1 # 1000) 5];
i "E" [TP PX 9%nat; TP PZ 3%nat; TP PX 12%nat] [Mix (1 # 1000) 5];
i "E" [TP PY 9%nat] [Mix (1 # 1000) 5];
i "E" [TP PY 9%nat; TP PX 12%nat] [Mix (1 # 1000) 5];
i "E" [TP PY 9%nat; TP PX 3%nat] [Mix (1 # 1000) 5];
i "E" [TP PY 9%nat; TP PX 3%nat; TP PX 12%nat] [Mix (1 # 1000) 5];
i "E" [TP PY 9%nat; TP PY 3%nat] [Mix (1 # 1000) 5];
i "E" [TP PY 9%nat; TP PY 3%nat; TP PX 12%nat] [Mix (1 # 1000) 5];
i "E" [TP PY 9%nat; TP PZ 3%nat] [Mix (1 # 1000) 5];
i "E" [TP PY 9%nat; TP PZ 3%nat; TP PX 12%nat] [Mix (1 # 1000) 5];
i "E" [TP PZ 9%nat] [Mix (1 # 1000) 5];
i "E" [TP PZ 9%nat; TP PX 12%nat] [Mix (1 # 1000) 5];
i "E" [TP PZ 9%nat; TP PX 3%nat] [Mix (1 # 1000) 5];
i "E" [TP PZ 9%nat; TP PX 3%nat; TP PX 12%nat] [Mix (1 # 1000) 5];
i "E" [TP PZ 9%nat; TP PY 3%nat] [Mix (1 # 1000) 5];
i "E" [TP PZ 9%nat; TP PY 3%nat; TP PX 12%nat] [Mix (1 # 1000) 5];
i "E" [TP PZ 9%nat; TP PZ 3%nat] [Mix (1 # 1000) 5];
i "E" [TP PZ 9%nat; TP PZ 3%nat; TP PX 12%nat] [Mix (1 # 1000) 5];
i "M" (qs [12]%nat) [];
i "R" (qs [12]%nat) [];
i "XCX" (qs [2; 12; 1; 12]%nat) [];
i "E" [TP PX 12%nat] [Mix (1 # 1000) 5];
i "E" [TP PX 1%nat] [Mix (1 # 1000) 5];
i "E" [TP PX 1%nat; TP PX 12%nat] [Mix (1 # 1000) 5];
i "E" [TP PY 1%nat] [Mix (1 # 1000) 5];
i "E" [TP PY 1%nat; TP PX 12%nat] [Mix (1 # 1000) 5];
i "E" [TP PZ 1%nat] [Mix (1 # 1000) 5];
i "E" [TP PZ 1%nat; TP PX 12%nat] [Mix (1 # 1000) 5];
i "E" [TP PX 2%nat] [Mix (1 # 1000) 5];
i "E" [TP PX 2%nat; TP PX 12%nat] [Mix (1 # 1000) 5];
i "E" [TP PX 2%nat; TP PX 1%nat] [Mix (1 # 1000) 5];
i "E" [TP PX 2%nat; TP PX 1%nat; TP PX 12%nat] [Mix (1 # 1000) 5];
i "E" [TP PX 2%nat; TP PY 1%nat] [Mix (1 # 1000) 5];
i "E" [TP PX 2%nat; TP PY 1%nat; TP PX 12%nat] [Mix (1 # 1000) 5];
i "E" [TP PX 2%nat; TP PZ 1%nat] [Mix (1 # 1000) 5];
i "E" [TP PX 2%nat; TP PZ 1%nat; TP PX 12%nat] [Mix (1 # 1000) 5];
i "E" [TP PY 2%nat] [Mix (1 # 1000) 5];
i "E" [TP PY 2%nat; TP PX 12%nat] [Mix (1 # 1000) 5];
i "E" [TP PY 2%nat; TP PX 1%nat] [Mix (1 # 1000) 5];
i "E" [TP PY 2%nat; TP PX 1%nat; TP PX 12%nat] [Mix (1 # 1000) 5];
i "E" [TP PY 2%nat; TP PY 1%nat] [Mix (1 # 1000) 5];
i "E" [TP PY 2%nat; TP PY 1%nat; TP PX 12%nat] [Mix (1 # 1000) 5];
i "E" [TP PY 2%nat; TP PZ 1%nat] [Mix (1 # 1000) 5];
i "E" [TP PY 2%nat; TP PZ 1%nat; TP PX 12%nat] [Mix (1 # 1000) 5];
i "E" [TP PZ 2%nat] [Mix (1 # 1000) 5];
i "E" [TP PZ 2%nat; TP PX 12%nat] [Mix (1 # 1000) 5];
i "E" [TP PZ 2%nat; TP PX 1%nat] [Mix (1 # 1000) 5];
i "E" [TP PZ 2%nat; TP PX 1%nat; TP PX 12%nat] [Mix (1 # 1000) 5];
i "E" [TP PZ 2%nat; TP PY 1%nat] [Mix (1 # 1000) 5];
i "E" [TP PZ 2%nat; TP PY 1%nat; TP PX 12%nat] [Mix (1 # 1000) 5];
i "E" [TP PZ 2%nat; TP PZ 1%nat] [Mix (1 # 1000) 5];
i "E" [TP PZ 2%nat; TP PZ 1%nat; TP PX 12%nat] [Mix (1 # 1000) 5];
i "M" (qs [12]%nat) [];
i "R" (qs [12]%nat) [];
i "XCX" (qs [4; 12; 5; 12]%nat) [];
i "E" [TP PX 12%nat] [Mix (1 # 1000) 5];
i "E" [TP PX 5%nat] [Mix (1 # 1000) 5];
i "E" [TP PX 5%nat; TP PX 12%nat] [Mix (1 # 1000) 5];
i "E" [TP PY 5%nat] [Mix (1 # 1000) 5];
i "E" [TP PY 5%nat; TP PX 12%nat] [Mix (1 # 1000) 5];
i "E" [TP PZ 5%nat] [Mix (1 # 1000) 5];
i "E" [TP PZ 5%nat; TP PX 12%nat] [Mix (1 # 1000) 5];
i "E" [TP PX 4%nat] [Mix (1 # 1000) 5];
i "E" [TP PX 4%nat; TP PX 12%nat] [Mix (1 # 1000) 5];
i "E" [TP PX 4%nat; TP PX 5%nat] [Mix (1 # 1000) 5];
i "E" [TP PX 4%nat; TP PX 5%nat; TP PX 12%nat] [Mix (1 # 1000) 5];
i "E" [TP PX 4%nat; TP PY 5%nat] [Mix (1 # 1000) 5];
i "E" [TP PX 4%nat; TP PY 5%nat; TP PX 12%nat] [Mix (1 # 1000) 5];
i "E" [TP PX 4%nat; TP PZ 5%nat] [Mix (1 # 1000) 5];
i "E" [TP PX 4%nat; TP PZ 5%nat; TP PX 12%nat] [Mix (1 # 1000) 5];
i "E" [TP PY 4%nat] [Mix (1 # 1000) 5];
i "E" [TP PY 4%nat; TP PX 12%nat] [Mix (1 # 1000) 5];
i "E" [TP PY 4%nat; TP PX 5%nat] [Mix (1 # 1000) 5];
i "E" [TP PY 4%nat; TP PX 5%nat; TP PX 12%nat] [Mix (1 # 1000) 5];
i "E" [TP PY 4%nat; TP PY 5%nat] [Mix (1 # 1000) 5];
i "E" [TP PY 4%nat; TP PY 5%nat; TP PX 12%nat] [Mix (1 # 1000) 5];
i "E" [TP PY 4%nat; TP PZ 5%nat] [Mix (1 # 1000) 5];
i "E" [TP PY 4%nat; TP PZ 5%nat; TP PX 12%nat] [Mix (1 # 1000) 5];
i "E" [TP PZ 4%nat] [Mix (1 # 1000) 5];
i "E" [TP PZ 4%nat; TP PX 12%nat] [Mix (1 # 1000) 5];
i "E" [TP PZ 4%nat; TP PX 5%nat] [Mix (1 # 1000) 5];
i "E" [TP PZ 4%nat; TP PX 5%nat; TP PX 12%nat] [Mix (1 # 1000) 5];
i "E" [TP PZ 4%nat; TP PY 5%nat] [Mix (1 # 1000) 5];
i "E" [TP PZ 4%nat; TP PY 5%nat; TP PX 12%nat] [Mix (1 # 1000) 5];
i "E" [TP PZ 4%nat; TP PZ 5%nat] [Mix (1 # 1000) 5];
i "E" [TP PZ 4%nat; TP PZ 5%nat; TP PX 12%nat] [Mix (1 # 1000) 5];
i "M" (qs [12]%nat) [];
i "R" (qs [12]%nat) [];
i "XCX" (qs [0; 12; 6; 12]%nat) [];
i "E" [TP PX 12%nat] [Mix (1 # 1000) 5];
i "E" [TP PX 6%nat] [Mix (1 # 1000) 5];
i "E" [TP PX 6%nat; TP PX 12%nat] [Mix (1 # 1000) 5];
i "E" [TP PY 6%nat] [Mix (1 # 1000) 5];
i "E" [TP PY 6%nat; TP PX 12%nat] [Mix (1 # 1000) 5];
i "E" [TP PZ 6%nat] [Mix (1 # 1000) 5];
i "E" [TP PZ 6%nat; TP PX 12%nat] [Mix (1 # 1000) 5];
i "E" [TP PX 0%nat] [Mix (1 # 1000) 5];
i "E" [TP PX 0%nat; TP PX 12%nat] [Mix (1 # 1000) 5];
i "E" [TP PX 0%nat; TP PX 6%nat] [Mix (1 # 1000) 5];
i "E" [TP PX 0%nat; TP PX 6%nat; TP PX 12%nat] [Mix (1 # 1000) 5];
i "E" [TP PX 0%nat; TP PY 6%nat] [Mix (1 # 1000) 5];
i "E" [TP PX 0%nat; TP PY 6%nat; TP PX 12%nat] [Mix (1 # 1000) 5];
i "E" [TP PX 0%nat; TP PZ 6%nat] [Mix (1 # 1000) 5];
i "E" [TP PX 0%nat; TP PZ 6%nat; TP PX 12%nat] [Mix (1 # 1000) 5];
i "E" [TP PY 0%nat] [Mix (1 # 1000) 5];
i "E" [TP PY 0%nat; TP PX 12%nat] [Mix (1 # 1000) 5];
i "E" [TP PY 0%nat; TP PX 6%nat] [Mix (1 # 1000) 5];
i "E" [TP PY 0%nat; TP PX 6%nat; TP PX 12%nat] [Mix (1 # 1000) 5];
i "E" [TP PY 0%nat; TP PY 6%nat] [Mix (1 # 1000) 5];
i "E" [TP PY 0%nat; TP PY 6%nat; TP PX 12%nat] [Mix (1 # 1000) 5];
i "E" [TP PY 0%nat; TP PZ 6%nat] [Mix (1 # 1000) 5];
i "E" [TP PY 0%nat; TP PZ 6%nat; TP PX 12%nat] [Mix (1 # 1000) 5];
i "E" [TP PZ 0%nat] [Mix (1 # 1000) 5];
i "E" [TP PZ 0%nat; TP PX 12%nat] [Mix (1 # 1000) 5];
i "E" [TP PZ 0%nat; TP PX 6%nat] [Mix (1 # 1000) 5];
i "E" [TP PZ 0%nat; TP PX 6%nat; TP PX 12%nat] [Mix (1 # 1000) 5];
i "E" [TP PZ 0%nat; TP PY 6%nat] [Mix (1 # 1000) 5];
i "E" [TP PZ 0%nat; TP PY 6%nat; TP PX 12%nat] [Mix (1 # 1000) 5];
i "E" [TP PZ 0%nat; TP PZ 6%nat] [Mix (1 # 1000) 5];
i "E" [TP PZ 0%nat; TP PZ 6%nat; TP PX 12%nat] [Mix (1 # 1000) 5];
i "M" (qs [12]%nat) [];
i "R" (qs [12]%nat) [];
i "XCX" (qs [7; 12; 8; 12]%nat) [];
i "E" [TP PX 12%nat] [Mix (1 # 1000) 5];
i "E" [TP PX 8%nat] [Mix (1 # 1000) 5];
i "E" [TP PX 8%nat; TP PX 12%nat] [Mix (1 # 1000) 5];
i "E" [TP PY 8%nat] [Mix (1 # 1000) 5];
i "E" [TP PY 8%nat; TP PX 12%nat] [Mix (1 # 1000) 5];
i "E" [TP PZ 8%nat] [Mix (1 # 1000) 5];
i "E" [TP PZ 8%nat; TP PX 12%nat] [Mix (1 # 1000) 5];
i "E" [TP PX 7%nat] [Mix (1 # 1000) 5];
i "E" [TP PX 7%nat; TP PX 12%nat] [Mix (1 # 1000) 5];
i "E" [TP PX 7%nat; TP PX 8%nat] [Mix (1 # 1000) 5];
i "E" [TP PX 7%nat; TP PX 8%nat; TP PX 12%nat] [Mix (1 # 1000) 5];
i "E" [TP PX 7%nat; TP PY 8%nat] [Mix (1 # 1000) 5];
i "E" [TP PX 7%nat; TP PY 8%nat; TP PX 12%nat] [Mix (1 # 1000) 5];
i "E" [TP PX 7%nat; TP PZ 8%nat] [Mix (1 # 1000) 5];
i "E" [TP PX 7%nat; TP PZ 8%nat; TP PX 12%nat] [Mix (1 # 1000) 5];
i "E" [TP PY 7%nat] [Mix (1 # 1000) 5];
i "E" [TP PY 7%nat; TP PX 12%nat] [Mix (1 # 1000) 5];
i "E" [TP PY 7%nat; TP PX 8%nat] [Mix (1 # 1000) 5];
i "E" [TP PY 7%nat; TP PX 8%nat; TP PX 12%nat] [Mix (1 # 1000) 5];
i "E" [TP PY 7%nat; TP PY 8%nat] [Mix (1 # 1000) 5];
i "E" [TP PY 7%nat; TP PY 8%nat; TP PX 12%nat] [Mix (1 # 1000) 5];
i "E" [TP PY 7%nat; TP PZ 8%nat] [Mix (1 # 1000) 5];
i "E" [TP PY 7%nat; TP PZ 8%nat; TP PX 12%nat] [Mix (1 # 1000) 5];
i "E" [TP PZ 7%nat] [Mix (1 # 1000) 5];
i "E" [TP PZ 7%nat; TP PX 12%nat] [Mix (1 # 1000) 5];
i "E" [TP PZ 7%nat; TP PX 8%nat] [Mix (1 # 1000) 5];
i "E" [TP PZ 7%nat; TP PX 8%nat; TP PX 12%nat] [Mix (1 # 1000) 5];
i "E" [TP PZ 7%nat; TP PY 8%nat] [Mix (1 # 1000) 5];
i "E" [TP PZ 7%nat; TP PY 8%nat; TP PX 12%nat] [Mix (1 # 1000) 5];
i "E" [TP PZ 7%nat; TP PZ 8%nat] [Mix (1 # 1000) 5];
i "E" [TP PZ 7%nat; TP PZ 8%nat; TP PX 12%nat] [Mix (1 # 1000) 5];
i "M" (qs [12]%nat) [];
i "R" (qs [12]%nat) [];
i "XCX" (qs [11; 12; 10; 12]%nat) [];
i "E" [TP PX 12%nat] [Mix (1 # 1000) 5];
i "E" [TP PX 10%nat] [Mix (1 # 1000) 5];
i "E" [TP PX 10%nat; TP PX 12%nat] [Mix (1 # 1000) 5];
i "E" [TP PY 10%nat] [Mix (1 # 1000) 5];
i "E" [TP PY 10%nat; TP PX 12%nat] [Mix (1 # 1000) 5];
i "E" [TP PZ 10%nat] [Mix (1 # 1000) 5];
i "E" [TP PZ 10%nat; TP PX 12%nat] [Mix (1 # 1000) 5];
i "E" [TP PX 11%nat] [Mix (1 # 1000) 5];
i "E" [TP PX 11%nat; TP PX 12%nat] [Mix (1 # 1000) 5];
i "E" [TP PX 11%nat; TP PX 10%nat] [Mix (1 # 1000) 5];
i "E" [TP PX 11%nat; TP PX 10%nat; TP PX 12%nat] [Mix (1 # 1000) 5];
i "E" [TP PX 11%nat; TP PY 10%nat] [Mix (1 # 1000) 5];
i "E" [TP PX 11%nat; TP PY 10%nat; TP PX 12%nat] [Mix (1 # 1000) 5];
i "E" [TP PX 11%nat; TP PZ 10%nat] [Mix (1 # 1000) 5];
i "E" [TP PX 11%nat; TP PZ 10%nat; TP PX 12%nat] [Mix (1 # 1000) 5];
i "E" [TP PY 11%nat] [Mix (1 # 1000) 5];
i "E" [TP PY 11%nat; TP PX 12%nat] [Mix (1 # 1000) 5];
i "E" [TP PY 11%nat; TP PX 10%nat] [Mix (1 # 1000) 5];
i "E" [TP PY 11%nat; TP PX 10%nat; TP PX 12%nat] [Mix (1 # 1000) 5];
i "E" [TP PY 11%nat; TP PY 10%nat] [Mix (1 # 1000) 5];
i "E" [TP PY 11%nat; TP PY 10%nat; TP PX 12%nat] [Mix (1 # 1000) 5];
i "E" [TP PY 11%nat; TP PZ 10%nat] [Mix (1 # 1000) 5];
i "E" [TP PY 11%nat; TP PZ 10%nat; TP PX 12%nat] [Mix (1 # 1000) 5];
i "E" [TP PZ 11%nat] [Mix (1 # 1000) 5];
i "E" [TP PZ 11%nat; TP PX 12%nat] [Mix (1 # 1000) 5];
i "E" [TP PZ 11%nat; TP PX 10%nat] [Mix (1 # 1000) 5];
i "E" [TP PZ 11%nat; TP PX 10%nat; TP PX 12%nat] [Mix (1 # 1000) 5];
i "E" [TP PZ 11%nat; TP PY 10%nat] [Mix (1 # 1000) 5];
i "E" [TP PZ 11%nat; TP PY 10%nat; TP PX 12%nat] [Mix (1 # 1000) 5];
i "E" [TP PZ 11%nat; TP PZ 10%nat] [Mix (1 # 1000) 5];
i "E" [TP PZ 11%nat; TP PZ 10%nat; TP PX 12%nat] [Mix (1 # 1000) 5];
i "M" (qs [12]%nat) [];
i "OBSERVABLE_INCLUDE" (recs [(-5); (-4)]) [Num (0 # 1)];
i "SHIFT_COORDS" [] [Num (0 # 1); Num (0 # 1); Num (1 # 1)];
i "TICK" [] [];
i "R" (qs [12]%nat) [];
i "YCX" (qs [7; 12; 1; 12]%nat) [];
i "E" [TP PX 12%nat] [Mix (1 # 1000) 5];
i "E" [TP PX 1%nat] [Mix (1 # 1000) 5];
i "E" [TP PX 1%nat; TP PX 12%nat] [Mix (1 # 1000) 5];
i "E" [TP PY 1%nat] [Mix (1 # 1000) 5];
i "E" [TP PY 1%nat; TP PX 12%nat] [Mix (1 # 1000) 5];
i "E" [TP PZ 1%nat] [Mix (1 # 1000) 5];
i "E" [TP PZ 1%nat; TP PX 12%nat] [Mix (1 # 1000) 5];
i "E" [TP PX 7%nat] [Mix (1 # 1000) 5];
i "E" [TP PX 7%nat; TP PX 12%nat] [Mix (1 # 1000) 5];
i "E" [TP PX 7%nat; TP PX 1%nat] [Mix (1 # 1000) 5];
i "E" [TP PX 7%nat; TP PX 1%nat; TP PX 12%nat] [Mix (1 # 1000) 5];
i "E" [TP PX 7%nat; TP PY 1%nat] [Mix (1 # 1000) 5];
i "E" [TP PX 7%nat; TP PY 1%nat; TP PX 12%nat] [Mix (1 # 1000) 5];
i "E" [TP PX 7%nat; TP PZ 1%nat] [Mix (1 # 1000) 5];
i "E" [TP PX 7%nat; TP PZ 1%nat; TP PX 12%nat] [Mix (1 # 1000) 5];
i "E" [TP PY 7%nat] [Mix (1 # 1000) 5];
i "E" [TP PY 7%nat; TP PX 12%nat] [Mix (1 # 1000) 5];
i "E" [TP PY 7%nat; TP PX 1%nat] [Mix (1 # 1000) 5];
i "E" [TP PY 7%nat; TP PX 1%nat; TP PX 12%nat] [Mix (1 # 1000) 5];
i "E" [TP PY 7%nat; TP PY 1%nat] [Mix (1 # 1000) 5];
i "E" [TP PY 7%nat; TP PY 1%nat; TP PX 12%nat] [Mix (1 # 1000) 5];
i "E" [TP PY 7%nat; TP PZ 1%nat] [Mix (1 # 1000) 5];
i "E" [TP PY 7%nat; TP PZ 1%nat; TP PX 12%nat] [Mix (1 # 1000) 5];
i "E" [TP PZ 7%nat] [Mix (1 # 1000) 5];
i "E" [TP PZ 7%nat; TP PX 12%nat] [Mix (1 # 1000) 5];
i "E" [TP PZ 7%nat; TP PX 1%nat] [Mix (1 # 1000) 5];
i "E" [TP PZ 7%nat; TP PX 1%nat; TP PX 12%nat] [Mix (1 # 1000) 5];
i "E" [TP PZ 7%nat; TP PY 1%nat] [Mix (1 # 1000) 5];
i "E" [TP PZ 7%nat; TP PY 1%nat; TP PX 12%nat] [Mix (1 # 1000) 5];
i "E" [TP PZ 7%nat; TP PZ 1%nat] [Mix (1 # 1000) 5];
i "E" [TP PZ 7%nat; TP PZ 1%nat; TP PX 12%nat] [Mix (1 # 1000) 5];
i "M" (qs [12]%nat) [];
i "R" (qs [12]%nat) [];
i "YCX" (qs [2; 12; 3; 12]%nat) [];
i "E" [TP PX 12%nat] [Mix (1 # 1000) 5];
i "E" [TP PX 3%nat] [Mix (1 # 1000) 5];
i "E" [TP PX 3%nat; TP PX 12%nat] [Mix (1 # 1000) 5];
i "E" [TP PY 3%nat] [Mix (1 # 1000) 5];
i "E" [TP PY 3%nat; TP PX 12%nat] [Mix (1 # 1000) 5];
i "E" [TP PZ 3%nat] [Mix (1 # 1000) 5];
i "E" [TP PZ 3%nat; TP PX 12%nat] [Mix (1 # 1000) 5];
i "E" [TP PX 2%nat] [Mix (1 # 1000) 5];
i "E" [TP PX 2%nat; TP PX 12%nat] [Mix (1 # 1000) 5];
i "E" [TP PX 2%nat; TP PX 3%nat] [Mix (1 # 1000) 5];
i "E" [TP PX 2%nat; TP PX 3%nat; TP PX 12%nat] [Mix (1 # 1000) 5];
i "E" [TP PX 2%nat; TP PY 3%nat] [Mix (1 # 1000) 5];
i "E" [TP PX 2%nat; TP PY 3%nat; TP PX 12%nat] [Mix (1 # 1000) 5];
i "E" [TP PX 2%nat; TP PZ 3%nat] [Mix (1 # 1000) 5];
i "E" [TP PX 2%nat; TP PZ 3%nat; TP PX 12%nat] [Mix (1 # 1000) 5];
i "E" [TP PY 2%nat] [Mix (1 # 1000) 5];
i "E" [TP PY 2%nat; TP PX 12%nat] [Mix (1 # 1000) 5];
i "E" [TP PY 2%nat; TP PX 3%nat] [Mix (1 # 1000) 5];
i "E" [TP PY 2%nat; TP PX 3%nat; TP PX 12%nat] [Mix (1 # 1000) 5];
i "E" [TP PY 2%nat; TP PY 3%nat] [Mix (1 # 1000) 5];
i "E" [TP PY 2%nat; TP PY 3%nat; TP PX 12%nat] [Mix (1 # 1000) 5];
i "E" [TP PY 2%nat; TP PZ 3%nat] [Mix (1 # 1000) 5];
i "E" [TP PY 2%nat; TP PZ 3%nat; TP PX 12%nat] [Mix (1 # 1000) 5];
i "E" [TP PZ 2%nat] [Mix (1 # 1000) 5];
i "E" [TP PZ 2%nat; TP PX 12%nat] [Mix (1 # 1000) 5];
i "E" [TP PZ 2%nat; TP PX 3%nat] [Mix (1 # 1000) 5];
i "E" [TP PZ 2%nat; TP PX 3%nat; TP PX 12%nat] [Mix (1 # 1000) 5];
i "E" [TP PZ 2%nat; TP PY 3%nat] [Mix (1 # 1000) 5];
i "E" [TP PZ 2%nat; TP PY 3%nat; TP PX 12%nat] [Mix (1 # 1000) 5];
i "E" [TP PZ 2%nat; TP PZ 3%nat] [Mix (1 # 1000) 5];
i "E" [TP PZ 2%nat; TP PZ 3%nat; TP PX 12%nat] [Mix (1 # 1000) 5];
i "M" (qs [12]%nat) [];
i "R" (qs [12]%nat) [];
i "YCX" (qs [0; 12; 5; 12]%nat) [];
i "E" [TP PX 12%nat] [Mix (1 # 1000) 5];
i "E" [TP PX 5%nat] [Mix (1 # 1000) 5];
i "E" [TP PX 5%nat; TP PX 12%nat] [Mix (1 # 1000) 5];
i "E" [TP PY 5%nat] [Mix (1 # 1000) 5];
i "E" [TP PY 5%nat; TP PX 12%nat] [Mix (1 # 1000) 5];
i "E" [TP PZ 5%nat] [Mix (1 # 1000) 5];
i "E" [TP PZ 5%nat; TP PX 12%nat] [Mix (1 # 1000) 5];
i "E" [TP PX 0%nat] [Mix (1 # 1000) 5];
i "E" [TP PX 0%nat; TP PX 12%nat] [Mix (1 # 1000) 5];
i "E" [TP PX 0%nat; TP PX 5%nat] [Mix (1 # 1000) 5];
i "E" [TP PX 0%nat; TP PX 5%nat; TP PX 12%nat] [Mix (1 # 1000) 5];
i "E" [TP PX 0%nat; TP PY 5%nat] [Mix (1 # 1000) 5];
i "E" [TP PX 0%nat; TP PY 5%nat; TP PX 12%nat] [Mix (1 # 1000) 5];
i "E" [TP PX 0%nat; TP PZ 5%nat] [Mix (1 # 1000) 5];
i "E" [TP PX 0%nat; TP PZ 5%nat; TP PX 12%nat] [Mix (1 # 1000) 5];
i "E" [TP PY 0%nat] [Mix (1 # 1000) 5];
i "E" [TP PY 0%nat; TP PX 12%nat] [Mix (1 # 1000) 5];
i "E" [TP PY 0%nat; TP PX 5%nat] [Mix (1 # 1000) 5];
i "E" [TP PY 0%nat; TP PX 5%nat; TP PX 12%nat] [Mix (1 # 1000) 5];
i "E" [TP PY 0%nat; TP PY 5%nat] [Mix (1 # 1000) 5];
i "E" [TP PY 0%nat; TP PY 5%nat; TP PX 12%nat] [Mix (1 # 1000) 5];
i "E" [TP PY 0%nat; TP PZ 5%nat] [Mix (1 # 1000) 5];
i "E" [TP PY 0%nat; TP PZ 5%nat; TP PX 12%nat] [Mix (1 # 1000) 5];
i "E" [TP PZ 0%nat] [Mix (1 # 1000) 5];
i "E" [TP PZ 0%nat; TP PX 12%nat] [Mix (1 # 1000) 5];
i "E" [TP PZ 0%nat; TP PX 5%nat] [Mix (1 # 1000) 5];
i "E" [TP PZ 0%nat; TP PX 5%nat; TP PX 12%nat] [Mix (1 # 1000) 5];
i "E" [TP PZ 0%nat; TP PY 5%nat] [Mix (1 # 1000) 5];
i "E" [TP PZ 0%nat; TP PY 5%nat; TP PX 12%nat] [Mix (1 # 1000) 5];
i "E" [TP PZ 0%nat; TP PZ 5%nat] [Mix (1 # 1000) 5];
i "E" [TP PZ 0%nat; TP PZ 5%nat; TP PX 12%nat] [Mix (1 # 1000) 5];
i "M" (qs [12]%nat) [];
i "R" (qs [12]%nat) [];
i "YCX" (qs [4; 12; 10; 12]%nat) [];
i "E" [TP PX 12%nat] [Mix (1 # 1000) 5];
i "E" [TP PX 10%nat] [Mix (1 # 1000) 5];
i "E" [TP PX 10%nat; TP PX 12%nat] [Mix (1 # 1000) 5];
i "E" [TP PY 10%nat] [Mix (1 # 1000) 5];
i "E" [TP PY 10%nat; TP PX 12%nat] [Mix (1 # 1000) 5];
i "E" [TP PZ 10%nat] [Mix (1 # 1000) 5];
i "E" [TP PZ 10%nat; TP PX 12%nat] [Mix (1 # 1000) 5];
i "E" [TP PX 4%nat] [Mix (1 # 1000) 5];
i "E" [TP PX 4%nat; TP PX 12%nat] [Mix (1 # 1000) 5];
i "E" [TP PX 4%nat; TP PX 10%nat] [Mix (1 # 1000) 5];
i "E" [TP PX 4%nat; TP PX 10%nat; TP PX 12%nat] [Mix (1 # 1000) 5];
i "E" [TP PX 4%nat; TP PY 10%nat] [Mix (1 # 1000) 5];
i "E" [TP PX 4%nat; TP PY 10%nat; TP PX 12%nat] [Mix (1 # 1000) 5];
i "E" [TP PX 4%nat; TP PZ 10%nat] [Mix (1 # 1000) 5];
i "E" [TP PX 4%nat; TP PZ 10%nat; TP PX 12%nat] [Mix (1 # 1000) 5];
i "E" [TP PY 4%nat] [Mix (1 # 1000) 5];
i "E" [TP PY 4%nat; TP PX 12%nat] [Mix (1 # 1000) 5];
i "E" [TP PY 4%nat; TP PX 10%nat] [Mix (1 # 1000) 5];
i "E" [TP PY 4%nat; TP PX 10%nat; TP PX 12%nat] [Mix (1 # 1000) 5];
i "E" [TP PY 4%nat; TP PY 10%nat] [Mix (1 # 1000) 5];
i "E" [TP PY 4%nat; TP PY 10%nat; TP PX 12%nat] [Mix (1 # 1000) 5];
i "E" [TP PY 4%nat; TP PZ 10%nat] [Mix (1 # 1000) 5];
i "E" [TP PY 4%nat; TP PZ 10%nat; TP PX 12%nat] [Mix (1 # 1000) 5];
i "E" [TP PZ 4%nat] [Mix (1 # 1000) 5];
i "E" [TP PZ 4%nat; TP PX 12%nat] [Mix (1 # 1000) 5];
i "E" [TP PZ 4%nat; TP PX 10%nat] [Mix (1 # 1000) 5];
i "E" [TP PZ 4%nat; TP PX 10%nat; TP PX 12%nat] [Mix (1 # 1000) 5];
i "E" [TP PZ 4%nat; TP PY 10%nat] [Mix (1 # 1000) 5];
i "E" [TP PZ 4%nat; TP PY 10%nat; TP PX 12%nat] [Mix (1 # 1000) 5];
i "E" [TP PZ 4%nat; TP PZ 10%nat] [Mix (1 # 1000) 5];
i "E" [TP PZ 4%nat; TP PZ 10%nat; TP PX 12%nat] [Mix (1 # 1000) 5];
i "M" (qs [12]%nat) [];
i "R" (qs [12]%nat) [];
i "YCX" (qs [9; 12; 8; 12]%nat) [];
i "E" [TP PX 12%nat] [Mix (1 # 1000) 5];
i "E" [TP PX 8%nat] [Mix (1 # 1000) 5];
i "E" [TP PX 8%nat; TP PX 12%nat] [Mix (1 # 1000) 5];
i "E" [TP PY 8%nat] [Mix (1 # 1000) 5];
i "E" [TP PY 8%nat; TP PX 12%nat] [Mix (1 # 1000) 5];
i "E" [TP PZ 8%nat] [Mix (1 # 1000) 5];
i "E" [TP PZ 8%nat; TP PX 12%nat] [Mix (1 # 1000) 5];
i "E" [TP PX 9%nat] [Mix (1 # 1000) 5];
i "E" [TP PX 9%nat; TP PX 12%nat] [Mix (1 # 1000) 5];
i "E" [TP PX 9%nat; TP PX 8%nat] [Mix (1 # 1000) 5];
i "E" [TP PX 9%nat; TP PX 8%nat; TP PX 12%nat] [Mix (1 # 1000) 5];
i "E" [TP PX 9%nat; TP PY 8%nat] [Mix (1 # 1000) 5];
i "E" [TP PX 9%nat; TP PY 8%nat; TP PX 12%nat] [Mix (1 # 1000) 5];
i "E" [TP PX 9%nat; TP PZ 8%nat] [Mix (1 # 1000) 5];
i "E" [TP PX 9%nat; TP PZ 8%nat; TP PX 12%nat] [Mix (1 # 1000) 5];
i "E" [TP PY 9%nat] [Mix (1 # 1000) 5];
i "E" [TP PY 9%nat; TP PX 12%nat] [Mix (1 # 1000) 5];
i "E" [TP PY 9%nat; TP PX 8%nat] [Mix (1 # 1000) 5];
i "E" [TP PY 9%nat; TP PX 8%nat; TP PX 12%nat] [Mix (1 # 1000) 5];
i "E" [TP PY 9%nat; TP PY 8%nat] [Mix (1 # 1000) 5];
i "E" [TP PY 9%nat; TP PY 8%nat; TP PX 12%nat] [Mix (1 # 1000) 5];
i "E" [TP PY 9%nat; TP PZ 8%nat] [Mix (1 # 1000) 5];
i "E" [TP PY 9%nat; TP PZ 8%nat; TP PX 12%nat] [Mix (1 # 1000) 5];
i "E" [TP PZ 9%nat] [Mix (1 # 1000) 5];
i "E" [TP PZ 9%nat; TP PX 12%nat] [Mix (1 # 1000) 5];
i "E" [TP PZ 9%nat; TP PX 8%nat] [Mix (1 # 1000) 5];
i "E" [TP PZ 9%nat; TP PX 8%nat; TP PX 12%nat] [Mix (1 # 1000) 5];
i "E" [TP PZ 9%nat; TP PY 8%nat] [Mix (1 # 1000) 5];
i "E" [TP PZ 9%nat; TP PY 8%nat; TP PX 12%nat] [Mix (1 # 1000) 5];
i "E" [TP PZ 9%nat; TP PZ 8%nat] [Mix (1 # 1000) 5];
i "E" [TP PZ 9%nat; TP PZ 8%nat; TP PX 12%nat] [Mix (1 # 1000) 5];
i "M" (qs [12]%nat) [];
i "R" (qs [12]%nat) [];
i "YCX" (qs [11; 12; 6; 12]%nat) [];
i "E" [TP PX 12%nat] [Mix (1 # 1000) 5];
i "E" [TP PX 6%nat] [Mix (1 # 1000) 5];
i "E" [TP PX 6%nat; TP PX 12%nat] [Mix (1 # 1000) 5];
i "E" [TP PY 6%nat] [Mix (1 # 1000) 5];
i "E" [TP PY 6%nat; TP PX 12%nat] [Mix (1 # 1000) 5];
i "E" [TP PZ 6%nat] [Mix (1 # 1000) 5];
i "E" [TP PZ 6%nat; TP PX 12%nat] [Mix (1 # 1000) 5];
i "E" [TP PX 11%nat] [Mix (1 # 1000) 5];
i "E" [TP PX 11%nat; TP PX 12%nat] [Mix (1 # 1000) 5];
i "E" [TP PX 11%nat; TP PX 6%nat] [Mix (1 # 1000) 5];
i "E" [TP PX 11%nat; TP PX 6%nat; TP PX 12%nat] [Mix (1 # 1000) 5];
i "E" [TP PX 11%nat; TP PY 6%nat] [Mix (1 # 1000) 5];
i "E" [TP PX 11%nat; TP PY 6%nat; TP PX 12%nat] [Mix (1 # 1000) 5];
i "E" [TP PX 11%nat; TP PZ 6%nat] [Mix (1 # 1000) 5];
i "E" [TP PX 11%nat; TP PZ 6%nat; TP PX 12%nat] [Mix (1 # 1000) 5];
i "E" [TP PY 11%nat] [Mix (1 # 1000) 5];
i "E" [TP PY 11%nat; TP PX 12%nat] [Mix (1 # 1000) 5];
i "E" [TP PY 11%nat; TP PX 6%nat] [Mix (1 # 1000) 5];
i "E" [TP PY 11%nat; TP PX 6%nat; TP PX 12%nat] [Mix (1 # 1000) 5];
i "E" [TP PY 11%nat; TP PY 6%nat] [Mix (1 # 1000) 5];
i "E" [TP PY 11%nat; TP PY 6%nat; TP PX 12%nat] [Mix (1 # 1000) 5];
i "E" [TP PY 11%nat; TP PZ 6%nat] [Mix (1 # 1000) 5];
i "E" [TP PY 11%nat; TP PZ 6%nat; TP PX 12%nat] [Mix (1 # 1000) 5];
i "E" [TP PZ 11%nat] [Mix (1 # 1000) 5];
i "E" [TP PZ 11%nat; TP PX 12%nat] [Mix (1 # 1000) 5];
i "E" [TP PZ 11%nat; TP PX 6%nat] [Mix (1 # 1000) 5];
i "E" [TP PZ 11%nat; TP PX 6%nat; TP PX 12%nat] [Mix (1 # 1000) 5];
i "E" [TP PZ 11%nat; TP PY 6%nat] [Mix (1 # 1000) 5];
i "E" [TP PZ 11%nat; TP PY 6%nat; TP PX 12%nat] [Mix (1 # 1000) 5];
i "E" [TP PZ 11%nat; TP PZ 6%nat] [Mix (1 # 1000) 5];
i "E" [TP PZ 11%nat; TP PZ 6%nat; TP PX 12%nat] [Mix (1 # 1000) 5];
i "M" (qs [12]%nat) [];
i "OBSERVABLE_INCLUDE" (recs [(-5); (-4)]) [Num (0 # 1)];
i "DETECTOR" (recs [(-12); (-11); (-8); (-6); (-5); (-2)]) [Num (0 # 1); Num (2 # 1); Num (0 # 1)];
i "DETECTOR" (recs [(-10); (-9); (-7); (-4); (-3); (-1)]) [Num (2 # 1); Num (5 # 1); Num (0 # 1)];
i "SHIFT_COORDS" [] [Num (0 # 1); Num (0 # 1); Num (1 # 1)];
i "TICK" [] [];
i "R" (qs [12]%nat) [];
i "CX" (qs [11; 12; 5; 12]%nat) [];
i "E" [TP PX 12%nat] [Mix (1 # 1000) 5];
i "E" [TP PX 5%nat] [Mix (1 # 1000) 5];
i "E" [TP PX 5%nat; TP PX 12%nat] [Mix (1 # 1000) 5];
i "E" [TP PY 5%nat] [Mix (1 # 1000) 5];
i "E" [TP PY 5%nat; TP PX 12%nat] [Mix (1 # 1000) 5];
i "E" [TP PZ 5%nat] [Mix (1 # 1000) 5];
i "E" [TP PZ 5%nat; TP PX 12%nat] [Mix (1 # 1000) 5];
i "E" [TP PX 11%nat] [Mix (1 # 1000) 5];
i "E" [TP PX 11%nat; TP PX 12%nat] [Mix (1 # 1000) 5];
i "E" [TP PX 11%nat; TP PX 5%nat] [Mix (1 # 1000) 5];
i "E" [TP PX 11%nat; TP PX 5%nat; TP PX 12%nat] [Mix (1 # 1000) 5];
i "E" [TP PX 11%nat; TP PY 5%nat] [Mix (1 # 1000) 5];
i "E" [TP PX 11%nat; TP PY 5%nat; TP PX 12%nat] [Mix (1 # 1000) 5];
i "E" [TP PX 11%nat; TP PZ 5%nat] [Mix (1 # 1000) 5];
i "E" [TP PX 11%nat; TP PZ 5%nat; TP PX 12%nat] [Mix (1 # 1000) 5];
i "E" [TP PY 11%nat] [Mix (1 # 1000) 5];
i "E" [TP PY 11%nat; TP PX 12%nat] [Mix (1 # 1000) 5];
i "E" [TP PY 11%nat; TP PX 5%nat] [Mix (1 # 1000) 5];
i "E" [TP PY 11%nat; TP PX 5%nat; TP PX 12%nat] [Mix (1 # 1000) 5];
i "E" [TP PY 11%nat; TP PY 5%nat] [Mix (1 # 1000) 5];
i "E" [TP PY 11%nat; TP PY 5%nat; TP PX 12%nat] [Mix (1 # 1000) 5];
i "E" [TP PY 11%nat; TP PZ 5%nat] [Mix (1 # 1000) 5];
i "E" [TP PY 11%nat; TP PZ 5%nat; TP PX 12%nat] [Mix (1 # 1000) 5];
i "E" [TP PZ 11%nat] [Mix (1 # 1000) 5];
i "E" [TP PZ 11%nat; TP PX 12%nat] [Mix (1 # 1000) 5];
i "E" [TP PZ 11%nat; TP PX 5%nat] [Mix (1 # 1000) 5];
i "E" [TP PZ 11%nat; TP PX 5%nat; TP PX 12%nat] [Mix (1 # 1000) 5];
i "E" [TP PZ 11%nat; TP PY 5%nat] [Mix (1 # 1000) 5];
i "E" [TP PZ 11%nat; TP PY 5%nat; TP PX 12%nat] [Mix (1 # 1000) 5];
i "E" [TP PZ 11%nat; TP PZ 5%nat] [Mix (1 # 1000) 5];
i "E" [TP PZ 11%nat; TP PZ 5%nat; TP PX 12%nat] [Mix (1 # 1000) 5];
i "M" (qs [12]%nat) [];
i "R" (qs [12]%nat) [];
i "CX" (qs [0; 12; 1; 12]%nat) [];
i "E" [TP PX 12%nat] [Mix (1 # 1000) 5];
i "E" [TP PX 1%nat] [Mix (1 # 1000) 5];
i "E" [TP PX 1%nat; TP PX 12%nat] [Mix (1 # 1000) 5];
i "E" [TP PY 1%nat] [Mix (1 # 1000) 5];
i "E" [TP PY 1%nat; TP PX 12%nat] [Mix (1 # 1000) 5];
i "E" [TP PZ 1%nat] [Mix (1 # 1000) 5];
i "E" [TP PZ 1%nat; TP PX 12%nat] [Mix (1 # 1000) 5];
i "E" [TP PX 0%nat] [Mix (1 # 1000) 5];
i "E" [TP PX 0%nat; TP PX 12%nat] [Mix (1 # 1000) 5];
i "E" [TP PX 0%nat; TP PX 1%nat] [Mix (1 # 1000) 5];
i "E" [TP PX 0%nat; TP PX 1%nat; TP PX 12%nat] [Mix (1 # 1000) 5];
i "E" [TP PX 0%nat; TP PY 1%nat] [Mix (1 # 1000) 5];
i "E" [TP PX 0%nat; TP PY 1%nat; TP PX 12%nat] [Mix (1 # 1000) 5];
i "E" [TP PX 0%nat; TP PZ 1%nat] [Mix (1 # 1000) 5];
i "E" [TP PX 0%nat; TP PZ 1%nat; TP PX 12%nat] [Mix (1 # 1000) 5];
i "E" [TP PY 0%nat] [Mix (1 # 1000) 5];
i "E" [TP PY 0%nat; TP PX 12%nat] [Mix (1 # 1000) 5];
i "E" [TP PY 0%nat; TP PX 1%nat] [Mix (1 # 1000) 5];
i "E" [TP PY 0%nat; TP PX 1%nat; TP PX 12%nat] [Mix (1 # 1000) 5];
i "E" [TP PY 0%nat; TP PY 1%nat] [Mix (1 # 1000) 5];
i "E" [TP PY 0%nat; TP PY 1%nat; TP PX 12%nat] [Mix (1 # 1000) 5];
i "E" [TP PY 0%nat; TP PZ 1%nat] [Mix (1 # 1000) 5];
i "E" [TP PY 0%nat; TP PZ 1%nat; TP PX 12%nat] [Mix (1 # 1000) 5];
i "E" [TP PZ 0%nat] [Mix (1 # 1000) 5];
i "E" [TP PZ 0%nat; TP PX 12%nat] [Mix (1 # 1000) 5];
i "E" [TP PZ 0%nat; TP PX 1%nat] [Mix (1 # 1000) 5];
i "E" [TP PZ 0%nat; TP PX 1%nat; TP PX 12%nat] [Mix (1 # 1000) 5];
i "E" [TP PZ 0%nat; TP PY 1%nat] [Mix (1 # 1000) 5];
i "E" [TP PZ 0%nat; TP PY 1%nat; TP PX 12%nat] [Mix (1 # 1000) 5];
i "E" [TP PZ 0%nat; TP PZ 1%nat] [Mix (1 # 1000) 5];
i "E" [TP PZ 0%nat; TP PZ 1%nat; TP PX 12%nat] [Mix (1 # 1000) 5];
i "M" (qs [12]%nat) [];
i "R" (qs [12]%nat) [];
i "CX" (qs [4; 12; 3; 12]%nat) [];
i "E" [TP PX 12%nat] [Mix (1 # 1000) 5];
i "E" [TP PX 3%nat] [Mix (1 # 1000) 5];
i "E" [TP PX 3%nat; TP PX 12%nat] [Mix (1 # 1000) 5];
i "E" [TP PY 3%nat] [Mix (1 # 1000) 5];
i "E" [TP PY 3%nat; TP PX 12%nat] [Mix (1 # 1000) 5];
i "E" [TP PZ 3%nat] [Mix (1 # 1000) 5];
i "E" [TP PZ 3%nat; TP PX 12%nat] [Mix (1 # 1000) 5];
i "E" [TP PX 4%nat] [Mix (1 # 1000) 5];
i "E" [TP PX 4%nat; TP PX 12%nat] [Mix (1 # 1000) 5];
i "E" [TP PX 4%nat; TP PX 3%nat] [Mix (1 # 1000) 5];
i "E" [TP PX 4%nat; TP PX 3%nat; TP PX 12%nat] [Mix (1 # 1000) 5];
i "E" [TP PX 4%nat; TP PY 3%nat] [Mix (1 # 1000) 5];
i "E" [TP PX 4%nat; TP PY 3%nat; TP PX 12%nat] [Mix (1 # 1000) 5];
i "E" [TP PX 4%nat; TP PZ 3%nat] [Mix (1 # 1000) 5];
i "E" [TP PX 4%nat; TP PZ 3%nat; TP PX 12%nat] [Mix (1 # 1000) 5];
i "E" [TP PY 4%nat] [Mix (1 # 1000) 5];
i "E" [TP PY 4%nat; TP PX 12%nat] [Mix (1 # 1000) 5];
i "E" [TP PY 4%nat; TP PX 3%nat] [Mix (1 # 1000) 5];
i "E" [TP PY 4%nat; TP PX 3%nat; TP PX 12%nat] [Mix (1 # 1000) 5];
i "E" [TP PY 4%nat; TP PY 3%nat] [Mix (1 # 1000) 5];
i "E" [TP PY 4%nat; TP PY 3%nat; TP PX 12%nat] [Mix (1 # 1000) 5];
i "E" [TP PY 4%nat; TP PZ 3%nat] [Mix (1 # 1000) 5];
i "E" [TP PY 4%nat; TP PZ 3%nat; TP PX 12%nat] [Mix (1 # 1000) 5];
i "E" [TP PZ 4%nat] [Mix (1 # 1000) 5];
i "E" [TP PZ 4%nat; TP PX 12%nat] [Mix (1 # 1000) 5];
i "E" [TP PZ 4%nat; TP PX 3%nat] [Mix (1 # 1000) 5];
i "E" [TP PZ 4%nat; TP PX 3%nat; TP PX 12%nat] [Mix (1 # 1000) 5];
i "E" [TP PZ 4%nat; TP PY 3%nat] [Mix (1 # 1000) 5];
i "E" [TP PZ 4%nat; TP PY 3%nat; TP PX 12%nat] [Mix (1 # 1000) 5];
i "E" [TP PZ 4%nat; TP PZ 3%nat] [Mix (1 # 1000) 5];
i "E" [TP PZ 4%nat; TP PZ 3%nat; TP PX 12%nat] [Mix (1 # 1000) 5];
i "M" (qs [12]%nat) [];
i "R" (qs [12]%nat) [];
i "CX" (qs [2; 12; 8; 12]%nat) [];
i "E" [TP PX 12%nat] [Mix (1 # 1000) 5];
i "E" [TP PX 8%nat] [Mix (1 # 1000) 5];
i "E" [TP PX 8%nat; TP PX 12%nat] [Mix (1 # 1000) 5];
i "E" [TP PY 8%nat] [Mix (1 # 1000) 5];
i "E" [TP PY 8%nat; TP PX 12%nat] [Mix (1 # 1000) 5];
i "E" [TP PZ 8%nat] [Mix (1 # 1000) 5];
i "E" [TP PZ 8%nat; TP PX 12%nat] [Mix (1 # 1000) 5];
i "E" [TP PX 2%nat] [Mix (1 # 1000) 5];
i "E" [TP PX 2%nat; TP PX 12%nat] [Mix (1 # 1000) 5];
i "E" [TP PX 2%nat; TP PX 8%nat] [Mix (1 # 1000) 5];
i "E" [TP PX 2%nat; TP PX 8%nat; TP PX 12%nat] [Mix (1 # 1000) 5];
i "E" [TP PX 2%nat; TP PY 8%nat] [Mix (1 # 1000) 5];
i "E" [TP PX 2%nat; TP PY 8%nat; TP PX 12%nat] [Mix (1 # 1000) 5];
i "E" [TP PX 2%nat; TP PZ 8%nat] [Mix (1 # 1000) 5];
i "E" [TP PX 2%nat; TP PZ 8%nat; TP PX 12%nat] [Mix (1 # 1000) 5];
i "E" [TP PY 2%nat] [Mix (1 # 1000) 5];
i "E" [TP PY 2%nat; TP PX 12%nat] [Mix (1 # 1000) 5];
i "E" [TP PY 2%nat; TP PX 8%nat] [Mix (1 # 1000) 5];
i "E" [TP PY 2%nat; TP PX 8%nat; TP PX 12%nat] [Mix (1 # 1000) 5];
i "E" [TP PY 2%nat; TP PY 8%nat] [Mix (1 # 1000) 5];
i "E" [TP PY 2%nat; TP PY 8%nat; TP PX 12%nat] [Mix (1 # 1000) 5];
i "E" [TP PY 2%nat; TP PZ 8%nat] [Mix (1 # 1000) 5];
i "E" [TP PY 2%nat; TP PZ 8%nat; TP PX 12%nat] [Mix (1 # 1000) 5];
i "E" [TP PZ 2%nat] [Mix (1 # 1000) 5];
i "E" [TP PZ 2%nat; TP PX 12%nat] [Mix (1 # 1000) 5];
i "E" [TP PZ 2%nat; TP PX 8%nat] [Mix (1 # 1000) 5];
i "E" [TP PZ 2%nat; TP PX 8%nat; TP PX 12%nat] [Mix (1 # 1000) 5];
i "E" [TP PZ 2%nat; TP PY 8%nat] [Mix (1 # 1000) 5];
i "E" [TP PZ 2%nat; TP PY 8%nat; TP PX 12%nat] [Mix (1 # 1000) 5];
i "E" [TP PZ 2%nat; TP PZ 8%nat] [Mix (1 # 1000) 5];
i "E" [TP PZ 2%nat; TP PZ 8%nat; TP PX 12%nat] [Mix (1 # 1000) 5];
i "M" (qs [12]%nat) [];
i "R" (qs [12]%nat) [];
i "CX" (qs [7; 12; 6; 12]%nat) [];
i "E" [TP PX 12%nat] [Mix (1 # 1000) 5];
i "E" [TP PX 6%nat] [Mix (1 # 1000) 5];
i "E" [TP PX 6%nat; TP PX 12%nat] [Mix (1 # 1000) 5];
i "E" [TP PY 6%nat] [Mix (1 # 1000) 5];
i "E" [TP PY 6%nat; TP PX 12%nat] [Mix (1 # 1000) 5];
i "E" [TP PZ 6%nat] [Mix (1 # 1000) 5];
i "E" [TP PZ 6%nat; TP PX 12%nat] [Mix (1 # 1000) 5];
i "E" [TP PX 7%nat] [Mix (1 # 1000) 5];
i "E" [TP PX 7%nat; TP PX 12%nat] [Mix (1 # 1000) 5];
i "E" [TP PX 7%nat; TP PX 6%nat] [Mix (1 # 1000) 5];
i "E" [TP PX 7%nat; TP PX 6%nat; TP PX 12%nat] [Mix (1 # 1000) 5];
i "E" [TP PX 7%nat; TP PY 6%nat] [Mix (1 # 1000) 5];
i "E" [TP PX 7%nat; TP PY 6%nat; TP PX 12%nat] [Mix (1 # 1000) 5];
i "E" [TP PX 7%nat; TP PZ 6%nat] [Mix (1 # 1000) 5];
i "E" [TP PX 7%nat; TP PZ 6%nat; TP PX 12%nat] [Mix (1 # 1000) 5];
i "E" [TP PY 7%nat] [Mix (1 # 1000) 5];
i "E" [TP PY 7%nat; TP PX 12%nat] [Mix (1 # 1000) 5];
i "E" [TP PY 7%nat; TP PX 6%nat] [Mix (1 # 1000) 5];
i "E" [TP PY 7%nat; TP PX 6%nat; TP PX 12%nat] [Mix (1 # 1000) 5];
i "E" [TP PY 7%nat; TP PY 6%nat] [Mix (1 # 1000) 5];
i "E" [TP PY 7%nat; TP PY 6%nat; TP PX 12%nat] [Mix (1 # 1000) 5];
i "E" [TP PY 7%nat; TP PZ 6%nat] [Mix (1 # 1000) 5];
i "E" [TP PY 7%nat; TP PZ 6%nat; TP PX 12%nat] [Mix (1 # 1000) 5];
i "E" [TP PZ 7%nat] [Mix (1 # 1000) 5];
i "E" [TP PZ 7%nat; TP PX 12%nat] [Mix (1 # 1000) 5];
i "E" [TP PZ 7%nat; TP PX 6%nat] [Mix (1 # 1000) 5];
i "E" [TP PZ 7%nat; TP PX 6%nat; TP PX 12%nat] [Mix (1 # 1000) 5];
i "E" [TP PZ 7%nat; TP PY 6%nat] [Mix (1 # 1000) 5];
i "E" [TP PZ 7%nat; TP PY 6%nat; TP PX 12%nat] [Mix (1 # 1000) 5];
i "E" [TP PZ 7%nat; TP PZ 6%nat] [Mix (1 # 1000) 5];
i "E" [TP PZ 7%nat; TP PZ 6%nat; TP PX 12%nat] [Mix (1 # 1000) 5];
i "M" (qs [12]%nat) [];
i "R" (qs [12]%nat) [];
i "CX" (qs [9; 12; 10; 12]%nat) [];
i "E" [TP PX 12%nat] [Mix (1 # 1000) 5];
i "E" [TP PX 10%nat] [Mix (1 # 1000) 5];
i "E" [TP PX 10%nat; TP PX 12%nat] [Mix (1 # 1000) 5];
i "E" [TP PY 10%nat] [Mix (1 # 1000) 5];
i "E" [TP PY 10%nat; TP PX 12%nat] [Mix (1 # 1000) 5];
i "E" [TP PZ 10%nat] [Mix (1 # 1000) 5];
i "E" [TP PZ 10%nat; TP PX 12%nat] [Mix (1 # 1000) 5];
i "E" [TP PX 9%nat] [Mix (1 # 1000) 5];
i "E" [TP PX 9%nat; TP PX 12%nat] [Mix (1 # 1000) 5];
i "E" [TP PX 9%nat; TP PX 10%nat] [Mix (1 # 1000) 5];
i "E" [TP PX 9%nat; TP PX 10%nat; TP PX 12%nat] [Mix (1 # 1000) 5];
i "E" [TP PX 9%nat; TP PY 10%nat] [Mix (1 # 1000) 5];
i "E" [TP PX 9%nat; TP PY 10%nat; TP PX 12%nat] [Mix (1 # 1000) 5];
i "E" [TP PX 9%nat; TP PZ 10%nat] [Mix (1 # 1000) 5];
i "E" [TP PX 9%nat; TP PZ 10%nat; TP PX 12%nat] [Mix (1 # 1000) 5];
i "E" [TP PY 9%nat] [Mix (1 # 1000) 5];
i "E" [TP PY 9%nat; TP PX 12%nat] [Mix (1 # 1000) 5];
i "E" [TP PY 9%nat; TP PX 10%nat] [Mix (1 # 1000) 5];
i "E" [TP PY 9%nat; TP PX 10%nat; TP PX 12%nat] [Mix (1 # 1000) 5];
i "E" [TP PY 9%nat; TP PY 10%nat] [Mix (1 # 1000) 5];
i "E" [TP PY 9%nat; TP PY 10%nat; TP PX 12%nat] [Mix (1 # 1000) 5];
i "E" [TP PY 9%nat; TP PZ 10%nat] [Mix (1 # 1000) 5];
i "E" [TP PY 9%nat; TP PZ 10%nat; TP PX 12%nat] [Mix (1 # 1000) 5];
i "E" [TP PZ 9%nat] [Mix (1 # 1000) 5];
i "E" [TP PZ 9%nat; TP PX 12%nat] [Mix (1 # 1000) 5];
i "E" [TP PZ 9%nat; TP PX 10%nat] [Mix (1 # 1000) 5];
i "E" [TP PZ 9%nat; TP PX 10%nat; TP PX 12%nat] [Mix (1 # 1000) 5];
i "E" [TP PZ 9%nat; TP PY 10%nat] [Mix (1 # 1000) 5];
i "E" [TP PZ 9%nat; TP PY 10%nat; TP PX 12%nat] [Mix (1 # 1000) 5];
i "E" [TP PZ 9%nat; TP PZ 10%nat] [Mix (1 # 1000) 5];
i "E" [TP PZ 9%nat; TP PZ 10%nat; TP PX 12%nat] [Mix (1 # 1000) 5];
i "M" (qs [12]%nat) [];
i "OBSERVABLE_INCLUDE" (recs [(-5); (-4)]) [Num (0 # 1)];
i "SHIFT_COORDS" [] [Num (0 # 1); Num (0 # 1); Num (1 # 1)];
i "TICK" [] [];
i "R" (qs [12]%nat) [];
i "XCX" (qs [9; 12; 3; 12]%nat) [];
i "E" [TP PX 12%nat] [Mix (1 # 1000) 5];
i "E" [TP PX 3%nat] [Mix (1 # 1000) 5];
i "E" [TP PX 3%nat; TP PX 12%nat] [Mix (1 # 1000) 5];
i "E" [TP PY 3%nat] [Mix (1 # 1000) 5];
i "E" [TP PY 3%nat; TP PX 12%nat] [Mix (1 # 1000) 5];
i "E" [TP PZ 3%nat] [Mix (1 # 1000) 5];
i "E" [TP PZ 3%nat; TP PX 12%nat] [Mix (1 # 1000) 5];
i "E" [TP PX 9%nat] [Mix (1 # 1000) 5];
i "E" [TP PX 9%nat; TP PX 12%nat] [Mix (1 # 1000) 5];
i "E" [TP PX 9%nat; TP PX 3%nat] [Mix (1 # 1000) 5];
i "E" [TP PX 9%nat; TP PX 3%nat; TP PX 12%nat] [Mix (1 # 1000) 5];
i "E" [TP PX 9%nat; TP PY 3%nat] [Mix (1 # 1000) 5];
i "E" [TP PX 9%nat; TP PY 3%nat; TP PX 12%nat] [Mix (1 # 1000) 5];
i "E" [TP PX 9%nat; TP PZ 3%nat] [Mix (1 # 1000) 5];
i "E" [TP PX 9%nat; TP PZ 3%nat; TP PX 12%nat] [Mix (1 # 1000) 5];
i "E" [TP PY 9%nat] [Mix (1 # 1000) 5];
i "E" [TP PY 9%nat; TP PX 12%nat] [Mix (1 # 1000) 5];
i "E" [TP PY 9%nat; TP PX 3%nat] [Mix (1 # 1000) 5];
i "E" [TP PY 9%nat; TP PX 3%nat; TP PX 12%nat] [Mix (1 # 1000) 5];
i "E" [TP PY 9%nat; TP PY 3%nat] [Mix (1 # 1000) 5];
i "E" [TP PY 9%nat; TP PY 3%nat; TP PX 12%nat] [Mix (1 # 1000) 5];
i "E" [TP PY 9%nat; TP PZ 3%nat] [Mix (1 # 1000) 5];
i "E" [TP PY 9%nat; TP PZ 3%nat; TP PX 12%nat] [Mix (1 # 1000) 5];
i "E" [TP PZ 9%nat] [Mix (1 # 1000) 5];
i "E" [TP PZ 9%nat; TP PX 12%nat] [Mix (1 # 1000) 5];
i "E" [TP PZ 9%nat; TP PX 3%nat] [Mix (1 # 1000) 5];
i "E" [TP PZ 9%nat; TP PX 3%nat; TP PX 12%nat] [Mix (1 # 1000) 5];
i "E" [TP PZ 9%nat; TP PY 3%nat] [Mix (1 # 1000) 5];
i "E" [TP PZ 9%nat; TP PY 3%nat; TP PX 12%nat] [Mix (1 # 1000) 5];
i "E" [TP PZ 9%nat; TP PZ 3%nat] [Mix (1 # 1000) 5];
i "E" [TP PZ 9%nat; TP PZ 3%nat; TP PX 12%nat] [Mix (1 # 1000) 5];
i "M" (qs [12]%nat) [];
i "R" (qs [12]%nat) [];
i "XCX" (qs [2; 12; 1; 12]%nat) [];
i "E" [TP PX 12%nat] [Mix (1 # 1000) 5];
i "E" [TP PX 1%nat] [Mix (1 # 1000) 5];
i "E" [TP PX 1%nat; TP PX 12%nat] [Mix (1 # 1000) 5];
i "E" [TP PY 1%nat] [Mix (1 # 1000) 5];
i "E" [TP PY 1%nat; TP PX 12%nat] [Mix (1 # 1000) 5];
i "E" [TP PZ 1%nat] [Mix (1 # 1000) 5];
i "E" [TP PZ 1%nat; TP PX 12%nat] [Mix (1 # 1000) 5];
i "E" [TP PX 2%nat] [Mix (1 # 1000) 5];
i "E" [TP PX 2%nat; TP PX 12%nat] [Mix (1 # 1000) 5];
i "E" [TP PX 2%nat; TP PX 1%nat] [Mix (1 # 1000) 5];
i "E" [TP PX 2%nat; TP PX 1%nat; TP PX 12%nat] [Mix (1 # 1000) 5];
i "E" [TP PX 2%nat; TP PY 1%nat] [Mix (1 # 1000) 5];
i "E" [TP PX 2%nat; TP PY 1%nat; TP PX 12%nat] [Mix (1 # 1000) 5];
i "E" [TP PX 2%nat; TP PZ 1%nat] [Mix (1 # 1000) 5];
i "E" [TP PX 2%nat; TP PZ 1%nat; TP PX 12%nat] [Mix (1 # 1000) 5];
i "E" [TP PY 2%nat] [Mix (1 # 1000) 5];
i "E" [TP PY 2%nat; TP PX 12%nat] [Mix (1 # 1000) 5];
i "E" [TP PY 2%nat; TP PX 1%nat] [Mix (1 # 1000) 5];
i "E" [TP PY 2%nat; TP PX 1%nat; TP PX 12%nat] [Mix (1 # 1000) 5];
i "E" [TP PY 2%nat; TP PY 1%nat] [Mix (1 # 1000) 5];
i "E" [TP PY 2%nat; TP PY 1%nat; TP PX 12%nat] [Mix (1 # 1000) 5];
i "E" [TP PY 2%nat; TP PZ 1%nat] [Mix (1 # 1000) 5];
i "E" [TP PY 2%nat; TP PZ 1%nat; TP PX 12%nat] [Mix (1 # 1000) 5];
i "E" [TP PZ 2%nat] [Mix (1 # 1000) 5];
i "E" [TP PZ 2%nat; TP PX 12%nat] [Mix (1 # 1000) 5];
i "E" [TP PZ 2%nat; TP PX 1%nat] [Mix (1 # 1000) 5];
i "E" [TP PZ 2%nat; TP PX 1%nat; TP PX 12%nat] [Mix (1 # 1000) 5];
i "E" [TP PZ 2%nat; TP PY 1%nat] [Mix (1 # 1000) 5];
i "E" [TP PZ 2%nat; TP PY 1%nat; TP PX 12%nat] [Mix (1 # 1000) 5];
i "E" [TP PZ 2%nat; TP PZ 1%nat] [Mix (1 # 1000) 5];
i "E" [TP PZ 2%nat; TP PZ 1%nat; TP PX 12%nat] [Mix (1 # 1000) 5];
i "M" (qs [12]%nat) [];
i "R" (qs [12]%nat) [];
i "XCX" (qs [4; 12; 5; 12]%nat) [];
i "E" [TP PX 12%nat] [Mix (1 # 1000) 5];
i "E" [TP PX 5%nat] [Mix (1 # 1000) 5];
i "E" [TP PX 5%nat; TP PX 12%nat] [Mix (1 # 1000) 5];
i "E" [TP PY 5%nat] [Mix (1 # 1000) 5];
i "E" [TP PY 5%nat; TP PX 12%nat] [Mix (1 # 1000) 5];
i "E" [TP PZ 5%nat] [Mix (1 # 1000) 5];
i "E" [TP PZ 5%nat; TP PX 12%nat] [Mix (1 # 1000) 5];
i "E" [TP PX 4%nat] [Mix (1 # 1000) 5];
i "E" [TP PX 4%nat; TP PX 12%nat] [Mix (1 # 1000) 5];
i "E" [TP PX 4%nat; TP PX 5%nat] [Mix (1 # 1000) 5];
i "E" [TP PX 4%nat; TP PX 5%nat; TP PX 12%nat] [Mix (1 # 1000) 5];
i "E" [TP PX 4%nat; TP PY 5%nat] [Mix (1 # 1000) 5];
i "E" [TP PX 4%nat; TP PY 5%nat; TP PX 12%nat] [Mix (1 # 1000) 5];
i "E" [TP PX 4%nat; TP PZ 5%nat] [Mix (1 # 1000) 5];
i "E" [TP PX 4%nat; TP PZ 5%nat; TP PX 12%nat] [Mix (1 # 1000) 5];
i "E" [TP PY 4%nat] [Mix (1 # 1000) 5];
i "E" [TP PY 4%nat; TP PX 12%nat] [Mix (1 # 1000) 5];
i "E" [TP PY 4%nat; TP PX 5%nat] [Mix (1 # 1000) 5];
i "E" [TP PY 4%nat; TP PX 5%nat; TP PX 12%nat] [Mix (1 # 1000) 5];
i "E" [TP PY 4%nat; TP PY 5%nat] [Mix (1 # 1000) 5];
i "E" [TP PY 4%nat; TP PY 5%nat; TP PX 12%nat] [Mix (1 # 1000) 5];
i "E" [TP PY 4%nat; TP PZ 5%nat] [Mix (1 # 1000) 5];
i "E" [TP PY 4%nat; TP PZ 5%nat; TP PX 12%nat] [Mix (1 # 1000) 5];
i "E" [TP PZ 4%nat] [Mix (1 # 1000) 5];
i "E" [TP PZ 4%nat; TP PX 12%nat] [Mix (1 # 1000) 5];
i "E" [TP PZ 4%nat; TP PX 5%nat] [Mix (1 # 1000) 5];
i "E" [TP PZ 4%nat; TP PX 5%nat; TP PX 12%nat] [Mix (1 # 1000) 5];
i "E" [TP PZ 4%nat; TP PY 5%nat] [Mix (1 # 1000) 5];
i "E" [TP PZ 4%nat; TP PY 5%nat; TP PX 12%nat] [Mix (1 # 1000) 5];
i "E" [TP PZ 4%nat; TP PZ 5%nat] [Mix (1 # 1000) 5];
i "E" [TP PZ 4%nat; TP PZ 5%nat; TP PX 12%nat] [Mix (1 # 1000) 5];
i "M" (qs [12]%nat) [];
i "R" (qs [12]%nat) [];
i "XCX" (qs [0; 12; 6; 12]%nat) [];
i "E" [TP PX 12%nat] [Mix (1 # 1000) 5];
i "E" [TP PX 6%nat] [Mix (1 # 1000) 5];
i "E" [TP PX 6%nat; TP PX 12%nat] [Mix (1 # 1000) 5];
i "E" [TP PY 6%nat] [Mix (1 # 1000) 5];
i "E" [TP PY 6%nat; TP PX 12%nat] [Mix (1 # 1000) 5];
i "E" [TP PZ 6%nat] [Mix (1 # 1000) 5];
i "E" [TP PZ 6%nat; TP PX 12%nat] [Mix (1 # 1000) 5];
i "E" [TP PX 0%nat] [Mix (1 # 1000) 5];
i "E" [TP PX 0%nat; TP PX 12%nat] [Mix (1 # 1000) 5];
i "E" [TP PX 0%nat; TP PX 6%nat] [Mix (1 # 1000) 5];
i "E" [TP PX 0%nat; TP PX 6%nat; TP PX 12%nat] [Mix (1 # 1000) 5];
i "E" [TP PX 0%nat; TP PY 6%nat] [Mix (1 # 1000) 5];
i "E" [TP PX 0%nat; TP PY 6%nat; TP PX 12%nat] [Mix (1 # 1000) 5];
i "E" [TP PX 0%nat; TP PZ 6%nat] [Mix (1 # 1000) 5];
i "E" [TP PX 0%nat; TP PZ 6%nat; TP PX 12%nat] [Mix (1 # 1000) 5];
i "E" [TP PY 0%nat] [Mix (1 # 1000) 5];
i "E" [TP PY 0%nat; TP PX 12%nat] [Mix (1 # 1000) 5];
i "E" [TP PY 0%nat; TP PX 6%nat] [Mix (1 # 1000) 5];
i "E" [TP PY 0%nat; TP PX 6%nat; TP PX 12%nat] [Mix (1 # 1000) 5];
i "E" [TP PY 0%nat; TP PY 6%nat] [Mix (1 # 1000) 5];
i "E" [TP PY 0%nat; TP PY 6%nat; TP PX 12%nat] [Mix (1 # 1000) 5];
i "E" [TP PY 0%nat; TP PZ 6%nat] [Mix (1 # 1000) 5];
i "E" [TP PY 0%nat; TP PZ 6%nat; TP PX 12%nat] [Mix (1 # 1000) 5];
i "E" [TP PZ 0%nat] [Mix (1 # 1000) 5];
i "E" [TP PZ 0%nat; TP PX 12%nat] [Mix (1 # 1000) 5];
i "E" [TP PZ 0%nat; TP PX 6%nat] [Mix (1 # 1000) 5];
i "E" [TP PZ 0%nat; TP PX 6%nat; TP PX 12%nat] [Mix (1 # 1000) 5];
i "E" [TP PZ 0%nat; TP PY 6%nat] [Mix (1 # 1000) 5];
i "E" [TP PZ 0%nat; TP PY 6%nat; TP PX 12%nat] [Mix (1 # 1000) 5];
i "E" [TP PZ 0%nat; TP PZ 6%nat] [Mix (1 # 1000) 5];
i "E" [TP PZ 0%nat; TP PZ 6%nat; TP PX 12%nat] [Mix (1 # 1000) 5];
i "M" (qs [12]%nat) [];
i "R" (qs [12]%nat) [];
i "XCX" (qs [7; 12; 8; 12]%nat) [];
i "E" [TP PX 12%nat] [Mix (1 # 1000) 5];
i "E" [TP PX 8%nat] [Mix (1 # 1000) 5];
i "E" [TP PX 8%nat; TP PX 12%nat] [Mix (1 # 1000) 5];
i "E" [TP PY 8%nat] [Mix (1 # 1000) 5];
i "E" [TP PY 8%nat; TP PX 12%nat] [Mix (1 # 1000) 5];
i "E" [TP PZ 8%nat] [Mix (1 # 1000) 5];
i "E" [TP PZ 8%nat; TP PX 12%nat] [Mix (1 # 1000) 5];
i "E" [TP PX 7%nat] [Mix (1 # 1000) 5];
i "E" [TP PX 7%nat; TP PX 12%nat] [Mix (1 # 1000) 5];
i "E" [TP PX 7%nat; TP PX 8%nat] [Mix (1 # 1000) 5];
i "E" [TP PX 7%nat; TP PX 8%nat; TP PX 12%nat] [Mix (1 # 1000) 5];
i "E" [TP PX 7%nat; TP PY 8%nat] [Mix (1 # 1000) 5];
i "E" [TP PX 7%nat; TP PY 8%nat; TP PX 12%nat] [Mix (1 # 1000) 5];
i "E" [TP PX 7%nat; TP PZ 8%nat] [Mix (1 # 1000) 5];
i "E" [TP PX 7%nat; TP PZ 8%nat; TP PX 12%nat] [Mix (1 # 1000) 5];
i "E" [TP PY 7%nat] [Mix (1 # 1000) 5];
i "E" [TP PY 7%nat; TP PX 12%nat] [Mix (1 # 1000) 5];
i "E" [TP PY 7%nat; TP PX 8%nat] [Mix (1 # 1000) 5];
i "E" [TP PY 7%nat; TP PX 8%nat; TP PX 12%nat] [Mix (1 # 1000) 5];
i "E" [TP PY 7%nat; TP PY 8%nat] [Mix (1 # 1000) 5];
i "E" [TP PY 7%nat; TP PY 8%nat; TP PX 12%nat] [Mix (1 # 1000) 5];
i "E" [TP PY 7%nat; TP PZ 8%nat] [Mix (1 # 1000) 5];
i "E" [TP PY 7%nat; TP PZ 8%nat; TP PX 12%nat] [Mix (1 # 1000) 5];
i "E" [TP PZ 7%nat] [Mix (1 # 1000) 5];
i "E" [TP PZ 7%nat; TP PX 12%nat] [Mix (1 # 1000) 5];
i "E" [TP PZ 7%nat; TP PX 8%nat] [Mix (1 # 1000) 5];
i "E" [TP PZ 7%nat; TP PX 8%nat; TP PX 12%nat] [Mix (1 # 1000) 5];
i "E" [TP PZ 7%nat; TP PY 8%nat] [Mix (1 # 1000) 5];
i "E" [TP PZ 7%nat; TP PY 8%nat; TP PX 12%nat] [Mix (1 # 1000) 5];
i "E" [TP PZ 7%nat; TP PZ 8%nat] [Mix (1 # 1000) 5];
i "E" [TP PZ 7%nat; TP PZ 8%nat; TP PX 12%nat] [Mix (1 # 1000) 5];
i "M" (qs [12]%nat) [];
i "R" (qs [12]%nat) [];
i "XCX" (qs [11; 12; 10; 12]%nat) [];
i "E" [TP PX 12%nat] [Mix (1 # 1000) 5];
i "E" [TP PX 10%nat] [Mix (1 # 1000) 5];
i "E" [TP PX 10%nat; TP PX 12%nat] [Mix (1 # 1000) 5];
i "E" [TP PY 10%nat] [Mix (1 # 1000) 5];
i "E" [TP PY 10%nat; TP PX 12%nat] [Mix (1 # 1000) 5];
i "E" [TP PZ 10%nat] [Mix (1 # 1000) 5];
i "E" [TP PZ 10%nat; TP PX 12%nat] [Mix (1 # 1000) 5];
i "E" [TP PX 11%nat] [Mix (1 # 1000) 5];
i "E" [TP PX 11%nat; TP PX 12%nat] [Mix (1 # 1000) 5];
i "E" [TP PX 11%nat; TP PX 10%nat] [Mix (1 # 1000) 5];
i "E" [TP PX 11%nat; TP PX 10%nat; TP PX 12%nat] [Mix (1 # 1000) 5];
i "E" [TP PX 11%nat; TP PY 10%nat] [Mix (1 # 1000) 5];
i "E" [TP PX 11%nat; TP PY 10%nat; TP PX 12%nat] [Mix (1 # 1000) 5];
i "E" [TP PX 11%nat; TP PZ 10%nat] [Mix (1 # 1000) 5];
i "E" [TP PX 11%nat; TP PZ 10%nat; TP PX 12%nat] [Mix (1 # 1000) 5];
i "E" [TP PY 11%nat] [Mix (1 # 1000) 5];
i "E" [TP PY 11%nat; TP PX 12%nat] [Mix (1 # 1000) 5];
i "E" [TP PY 11%nat; TP PX 10%nat] [Mix (1 # 1000) 5];
i "E" [TP PY 11%nat; TP PX 10%nat; TP PX 12%nat] [Mix (1 # 1000) 5];
i "E" [TP PY 11%nat; TP PY 10%nat] [Mix (1 # 1000) 5];
i "E" [TP PY 11%nat; TP PY 10%nat; TP PX 12%nat] [Mix (1 # 1000) 5];
i "E" [TP PY 11%nat; TP PZ 10%nat] [Mix (1 # 1000) 5];
i "E" [TP PY 11%nat; TP PZ 10%nat; TP PX 12%nat] [Mix (1 # 1000) 5];
i "E" [TP PZ 11%nat] [Mix (1 # 1000) 5];
i "E" [TP PZ 11%nat; TP PX 12%nat] [Mix (1 # 1000) 5];
i "E" [TP PZ 11%nat; TP PX 10%nat] [Mix (1 # 1000) 5];
i "E" [TP PZ 11%nat; TP PX 10%nat; TP PX 12%nat] [Mix (1 # 1000) 5];
i "E" [TP PZ 11%nat; TP PY 10%nat] [Mix (1 # 1000) 5];
i "E" [TP PZ 11%nat; TP PY 10%nat; TP PX 12%nat] [Mix (1 # 1000) 5];
i "E" [TP PZ 11%nat; TP PZ 10%nat] [Mix (1 # 1000) 5];
i "E" [TP PZ 11%nat; TP PZ 10%nat; TP PX 12%nat] [Mix (1 # 1000) 5];
i "M" (qs [12]%nat) [];
i "OBSERVABLE_INCLUDE" (recs [(-5); (-4)]) [Num (0 # 1)];
i "DETECTOR" (recs [(-24); (-22); (-19); (-12); (-10); (-7); (-6); (-4); (-1)]) [Num (0 # 1); Num (4 # 1); Num (0 # 1)];
i "DETECTOR" (recs [(-23); (-21); (-20); (-11); (-9); (-8); (-5); (-3); (-2)]) [Num (2 # 1); Num (1 # 1); Num (0 # 1)];
i "SHIFT_COORDS" [] [Num (0 # 1); Num (0 # 1); Num (1 # 1)];
i "TICK" [] [];
Rep 333 [
i "R" (qs [12]%nat) [];
i "YCX" (qs [7; 12; 1; 12]%nat) [];
i "E" [TP PX 12%nat] [Mix (1 # 1000) 5];
i "E" [TP PX 1%nat] [Mix (1 # 1000) 5];
i "E" [TP PX 1%nat; TP PX 12%nat] [Mix (1 # 1000) 5];
i "E" [TP PY 1%nat] [Mix (1 # 1000) 5];
i "E" [TP PY 1%nat; TP PX 12%nat] [Mix (1 # 1000) 5];
i "E" [TP PZ 1%nat] [Mix (1 # 1000) 5];
i "E" [TP PZ 1%nat; TP PX 12%nat] [Mix (1 # 1000) 5];
i "E" [TP PX 7%nat] [Mix (1 # 1000) 5];
i "E" [TP PX 7%nat; TP PX 12%nat] [Mix (1 # 1000) 5];
i "E" [TP PX 7%nat; TP PX 1%nat] [Mix (1 # 1000) 5];
i "E" [TP PX 7%nat; TP PX 1%nat; TP PX 12%nat] [Mix (1 # 1000) 5];
i "E" [TP PX 7%nat; TP PY 1%nat] [Mix (1 # 1000) 5];
i "E" [TP PX 7%nat; TP PY 1%nat; TP PX 12%nat] [Mix (1 # 1000) 5];
i "E" [TP PX 7%nat; TP PZ 1%nat] [Mix (1 # 1000) 5];
i "E" [TP PX 7%nat; TP PZ 1%nat; TP PX 12%nat] [Mix (1 # 1000) 5];
i "E" [TP PY 7%nat] [Mix (1 # 1000) 5];
i "E" [TP PY 7%nat; TP PX 12%nat] [Mix (1 # 1000) 5];
i "E" [TP PY 7%nat; TP PX 1%nat] [Mix (1 # 1000) 5];
i "E" [TP PY 7%nat; TP PX 1%nat; TP PX 12%nat] [Mix (1 # 1000) 5];
i "E" [TP PY 7%nat; TP PY 1%nat] [Mix (1 # 1000) 5];
i "E" [TP PY 7%nat; TP PY 1%nat; TP PX 12%nat] [Mix (1 # 1000) 5];
i "E" [TP PY 7%nat; TP PZ 1%nat] [Mix (1 # 1000) 5];
i "E" [TP PY 7%nat; TP PZ 1%nat; TP PX 12%nat] [Mix (1 # 1000) 5];
i "E" [TP PZ 7%nat] [Mix (1 # 1000) 5];
i "E" [TP PZ 7%nat; TP PX 12%nat] [Mix (1 # 1000) 5];
i "E" [TP PZ 7%nat; TP PX 1%nat] [Mix (1 # 1000) 5];
i "E" [TP PZ 7%nat; TP PX 1%nat; TP PX 12%nat] [Mix (1 # 1000) 5];
i "E" [TP PZ 7%nat; TP PY 1%nat] [Mix (1 # 1000) 5];
i "E" [TP PZ 7%nat; TP PY 1%nat; TP PX 12%nat] [Mix (1 # 1000) 5];
i "E" [TP PZ 7%nat; TP PZ 1%nat] [Mix (1 # 1000) 5];
i "E" [TP PZ 7%nat; TP PZ 1%nat; TP PX 12%nat] [Mix (1 # 1000) 5];
i "M" (qs [12]%nat) [];
i "R" (qs [12]%nat) [];
i "YCX" (qs [2; 12; 3; 12]%nat) [];
i "E" [TP PX 12%nat] [Mix (1 # 1000) 5];
i "E" [TP PX 3%nat] [Mix (1 # 1000) 5];
i "E" [TP PX 3%nat; TP PX 12%nat] [Mix (1 # 1000) 5];
i "E" [TP PY 3%nat] [Mix (1 # 1000) 5];
i "E" [TP PY 3%nat; TP PX 12%nat] [Mix (1 # 1000) 5];
i "E" [TP PZ 3%nat] [Mix (1 # 1000) 5];
i "E" [TP PZ 3%nat; TP PX 12%nat] [Mix (1 # 1000) 5];
i "E" [TP PX 2%nat] [Mix (1 # 1000) 5];
i "E" [TP PX 2%nat; TP PX 12%nat] [Mix (1 # 1000) 5];
i "E" [TP PX 2%nat; TP PX 3%nat] [Mix (1 # 1000) 5];
i "E" [TP PX 2%nat; TP PX 3%nat; TP PX 12%nat] [Mix (1 # 1000) 5];
i "E" [TP PX 2%nat; TP PY 3%nat] [Mix (1 # 1000) 5];
i "E" [TP PX 2%nat; TP PY 3%nat; TP PX 12%nat] [Mix (1 # 1000) 5];
i "E" [TP PX 2%nat; TP PZ 3%nat] [Mix (1 # 1000) 5];
i "E" [TP PX 2%nat; TP PZ 3%nat; TP PX 12%nat] [Mix (1 # 1000) 5];
i "E" [TP PY 2%nat] [Mix (1 # 1000) 5];
i "E" [TP PY 2%nat; TP PX 12%nat] [Mix (1 # 1000) 5];
i "E" [TP PY 2%nat; TP PX 3%nat] [Mix (1 # 1000) 5];
i "E" [TP PY 2%nat; TP PX 3%nat; TP PX 12%nat] [Mix (1 # 1000) 5];
i "E" [TP PY 2%nat; TP PY 3%nat] [Mix (1 # 1000) 5];
i "E" [TP PY 2%nat; TP PY 3%nat; TP PX 12%nat] [Mix (1 # 1000) 5];
i "E" [TP PY 2%nat; TP PZ 3%nat] [Mix (1 # 1000) 5];
i "E" [TP PY 2%nat; TP PZ 3%nat; TP PX 12%nat] [Mix (1 # 1000) 5];
i "E" [TP PZ 2%nat] [Mix (1 # 1000) 5];
i "E" [TP PZ 2%nat; TP PX 12%nat] [Mix (1 # 1000) 5];
i "E" [TP PZ 2%nat; TP PX 3%nat] [Mix (1 # 1000) 5];
i "E" [TP PZ 2%nat; TP PX 3%nat; TP PX 12%nat] [Mix (1 # 1000) 5];
i "E" [TP PZ 2%nat; TP PY 3%nat] [Mix (1 # 1000) 5];
i "E" [TP PZ 2%nat; TP PY 3%nat; TP PX 12%nat] [Mix (1 # 1000) 5];
i "E" [TP PZ 2%nat; TP PZ 3%nat] [Mix (1 # 1000) 5];
i "E" [TP PZ 2%nat; TP PZ 3%nat; TP PX 12%nat] [Mix (1 # 1000) 5];
i "M" (qs [12]%nat) [];
i "R" (qs [12]%nat) [];
i "YCX" (qs [0; 12; 5; 12]%nat) [];
i "E" [TP PX 12%nat] [Mix (1 # 1000) 5];
i "E" [TP PX 5%nat] [Mix (1 # 1000) 5];
i "E" [TP PX 5%nat; TP PX 12%nat] [Mix (1 # 1000) 5];
i "E" [TP PY 5%nat] [Mix (1 # 1000) 5];
i "E" [TP PY 5%nat; TP PX 12%nat] [Mix (1 # 1000) 5];
i "E" [TP PZ 5%nat] [Mix (1 # 1000) 5];
i "E" [TP PZ 5%nat; TP PX 12%nat] [Mix (1 # 1000) 5];
i "E" [TP PX 0%nat] [Mix (1 # 1000) 5];
i "E" [TP PX 0%nat; TP PX 12%nat] [Mix (1 # 1000) 5];
i "E" [TP PX 0%nat; TP PX 5%nat] [Mix (1 # 1000) 5];
i "E" [TP PX 0%nat; TP PX 5%nat; TP PX 12%nat] [Mix (1 # 1000) 5];
i "E" [TP PX 0%nat; TP PY 5%nat] [Mix (1 # 1000) 5];
i "E" [TP PX 0%nat; TP PY 5%nat; TP PX 12%nat] [Mix (1 # 1000) 5];
i "E" [TP PX 0%nat; TP PZ 5%nat] [Mix (1 # 1000) 5];
i "E" [TP PX 0%nat; TP PZ 5%nat; TP PX 12%nat] [Mix (1 # 1000) 5];
i "E" [TP PY 0%nat] [Mix (1 # 1000) 5];
i "E" [TP PY 0%nat; TP PX 12%nat] [Mix (1 # 1000) 5];
i "E" [TP PY 0%nat; TP PX 5%nat] [Mix (1 # 1000) 5];
i "E" [TP PY 0%nat; TP PX 5%nat; TP PX 12%nat] [Mix (1 # 1000) 5];
i "E" [TP PY 0%nat; TP PY 5%nat] [Mix (1 # 1000) 5];
i "E" [TP PY 0%nat; TP PY 5%nat; TP PX 12%nat] [Mix (1 # 1000) 5];
i "E" [TP PY 0%nat; TP PZ 5%nat] [Mix (1 # 1000) 5];
i "E" [TP PY 0%nat; TP PZ 5%nat; TP PX 12%nat] [Mix (1 # 1000) 5];
i "E" [TP PZ 0%nat] [Mix (1 # 1000) 5];
i "E" [TP PZ 0%nat; TP PX 12%nat] [Mix (1 # 1000) 5];
i "E" [TP PZ 0%nat; TP PX 5%nat] [Mix (1 # 1000) 5];
i "E" [TP PZ 0%nat; TP PX 5%nat; TP PX 12%nat] [Mix (1 # 1000) 5];
i "E" [TP PZ 0%nat; TP PY 5%nat] [Mix (1 # 1000) 5];
i "E" [TP PZ 0%nat; TP PY 5%nat; TP PX 12%nat] [Mix (1 # 1000) 5];
i "E" [TP PZ 0%nat; TP PZ 5%nat] [Mix (1 # 1000) 5];
i "E" [TP PZ 0%nat; TP PZ 5%nat; TP PX 12%nat] [Mix (1 # 1000) 5];
i "M" (qs [12]%nat) [];
i "R" (qs [12]%nat) [];
i "YCX" (qs [4; 12; 10; 12]%nat) [];
i "E" [TP PX 12%nat] [Mix (1 # 1000) 5];
i "E" [TP PX 10%nat] [Mix (1 # 1000) 5];
i "E" [TP PX 10%nat; TP PX 12%nat] [Mix (1 # 1000) 5];
i "E" [TP PY 10%nat] [Mix (1 # 1000) 5];
i "E" [TP PY 10%nat; TP PX 12%nat] [Mix (1 # 1000) 5];
i "E" [TP PZ 10%nat] [Mix (1 # 1000) 5];
i "E" [TP PZ 10%nat; TP PX 12%nat] [Mix (1 # 1000) 5];
i "E" [TP PX 4%nat] [Mix (1 # 1000) 5];
i "E" [TP PX 4%nat; TP PX 12%nat] [Mix (1 # 1000) 5];
i "E" [TP PX 4%nat; TP PX 10%nat] [Mix (1 # 1000) 5];
i "E" [TP PX 4%nat; TP PX 10%nat; TP PX 12%nat] [Mix (1 # 1000) 5];
i "E" [TP PX 4%nat; TP PY 10%nat] [Mix (1 # 1000) 5];
i "E" [TP PX 4%nat; TP PY 10%nat; TP PX 12%nat] [Mix (1 # 1000) 5];
i "E" [TP PX 4%nat; TP PZ 10%nat] [Mix (1 # 1000) 5];
i "E" [TP PX 4%nat; TP PZ 10%nat; TP PX 12%nat] [Mix (1 # 1000) 5];
i "E" [TP PY 4%nat] [Mix (1 # 1000) 5];
i "E" [TP PY 4%nat; TP PX 12%nat] [Mix (1 # 1000) 5];
i "E" [TP PY 4%nat; TP PX 10%nat] [Mix (1 # 1000) 5];
i "E" [TP PY 4%nat; TP PX 10%nat; TP PX 12%nat] [Mix (1 # 1000) 5];
i "E" [TP PY 4%nat; TP PY 10%nat] [Mix (1 # 1000) 5];
i "E" [TP PY 4%nat; TP PY 10%nat; TP PX 12%nat] [Mix (1 # 1000) 5];
i "E" [TP PY 4%nat; TP PZ 10%nat] [Mix (1 # 1000) 5];
i "E" [TP PY 4%nat; TP PZ 10%nat; TP PX 12%nat] [Mix (1 # 1000) 5];
i "E" [TP PZ 4%nat] [Mix (1 # 1000) 5];
i "E" [TP PZ 4%nat; TP PX 12%nat] [Mix (1 # 1000) 5];
i "E" [TP PZ 4%nat; TP PX 10%nat] [Mix (1 # 1000) 5];
i "E" [TP PZ 4%nat; TP PX 10%nat; TP PX 12%nat] [Mix (1 # 1000) 5];
i "E" [TP PZ 4%nat; TP PY 10%nat] [Mix (1 # 1000) 5];
i "E" [TP PZ 4%nat; TP PY 10%nat; TP PX 12%nat] [Mix (1 # 1000) 5];
i "E" [TP PZ 4%nat; TP PZ 10%nat] [Mix (1 # 1000) 5];
i "E" [TP PZ 4%nat; TP PZ 10%nat; TP PX 12%nat] [Mix (1 # 1000) 5];
i "M" (qs [12]%nat) [];
i "R" (qs [12]%nat) [];
i "YCX" (qs [9; 12; 8; 12]%nat) [];
i "E" [TP PX 12%nat] [Mix (1 # 1000) 5];
i "E" [TP PX 8%nat] [Mix (1 # 1000) 5];
i "E" [TP PX 8%nat; TP PX 12%nat] [Mix (1 # 1000) 5];
i "E" [TP PY 8%nat] [Mix (1 # 1000) 5];
i "E" [TP PY 8%nat; TP PX 12%nat] [Mix (1 # 1000) 5];
i "E" [TP PZ 8%nat] [Mix (1 # 1000) 5];
i "E" [TP PZ 8%nat; TP PX 12%nat] [Mix (1 # 1000) 5];
i "E" [TP PX 9%nat] [Mix (1 # 1000) 5];
i "E" [TP PX 9%nat; TP PX 12%nat] [Mix (1 # 1000) 5];
i "E" [TP PX 9%nat; TP PX 8%nat] [Mix (1 # 1000) 5];
i "E" [TP PX 9%nat; TP PX 8%nat; TP PX 12%nat] [Mix (1 # 1000) 5];
i "E" [TP PX 9%nat; TP PY 8%nat] [Mix (1 # 1000) 5];
i "E" [TP PX 9%nat; TP PY 8%nat; TP PX 12%nat] [Mix (1 # 1000) 5];
i "E" [TP PX 9%nat; TP PZ 8%nat] [Mix (1 # 1000) 5];
i "E" [TP PX 9%nat; TP PZ 8%nat; TP PX 12%nat] [Mix (1 # 1000) 5];
i "E" [TP PY 9%nat] [Mix (1 # 1000) 5];
i "E" [TP PY 9%nat; TP PX 12%nat] [Mix (1 # 1000) 5];
i "E" [TP PY 9%nat; TP PX 8%nat] [Mix (1 # 1000) 5];
i "E" [TP PY 9%nat; TP PX 8%nat; TP PX 12%nat] [Mix (1 # 1000) 5];
i "E" [TP PY 9%nat; TP PY 8%nat] [Mix (1 # 1000) 5];
i "E" [TP PY 9%nat; TP PY 8%nat; TP PX 12%nat] [Mix (1 # 1000) 5];
i "E" [TP PY 9%nat; TP PZ 8%nat] [Mix (1 # 1000) 5];
i "E" [TP PY 9%nat; TP PZ 8%nat; TP PX 12%nat] [Mix (1 # 1000) 5];
i "E" [TP PZ 9%nat] [Mix (1 # 1000) 5];
i "E" [TP PZ 9%nat; TP PX 12%nat] [Mix (1 # 1000) 5];
i "E" [TP PZ 9%nat; TP PX 8%nat] [Mix (1 # 1000) 5];
i "E" [TP PZ 9%nat; TP PX 8%nat; TP PX 12%nat] [Mix (1 # 1000) 5];
i "E" [TP PZ 9%nat; TP PY 8%nat] [Mix (1 # 1000) 5];
i "E" [TP PZ 9%nat; TP PY 8%nat; TP PX 12%nat] [Mix (1 # 1000) 5];
i "E" [TP PZ 9%nat; TP PZ 8%nat] [Mix (1 # 1000) 5];
i "E" [TP PZ 9%nat; TP PZ 8%nat; TP PX 12%nat] [Mix (1 # 1000) 5];
i "M" (qs [12]%nat) [];
i "R" (qs [12]%nat) [];
i "YCX" (qs [11; 12; 6; 12]%nat) [];
i "E" [TP PX 12%nat] [Mix (1 # 1000) 5];
i "E" [TP PX 6%nat] [Mix (1 # 1000) 5];
i "E" [TP PX 6%nat; TP PX 12%nat] [Mix (1 # 1000) 5];
i "E" [TP PY 6%nat] [Mix (1 # 1000) 5];
i "E" [TP PY 6%nat; TP PX 12%nat] [Mix (1 # 1000) 5];
i "E" [TP PZ 6%nat] [Mix (1 # 1000) 5];
i "E" [TP PZ 6%nat; TP PX 12%nat] [Mix (1 # 1000) 5];
i "E" [TP PX 11%nat] [Mix (1 # 1000) 5];
i "E" [TP PX 11%nat; TP PX 12%nat] [Mix (1 # 1000) 5];
i "E" [TP PX 11%nat; TP PX 6%nat] [Mix (1 # 1000) 5];
i "E" [TP PX 11%nat; TP PX 6%nat; TP PX 12%nat] [Mix (1 # 1000) 5];
i "E" [TP PX 11%nat; TP PY 6%nat] [Mix (1 # 1000) 5];
i "E" [TP PX 11%nat; TP PY 6%nat; TP PX 12%nat] [Mix (1 # 1000) 5];
i "E" [TP PX 11%nat; TP PZ 6%nat] [Mix (1 # 1000) 5];
i "E" [TP PX 11%nat; TP PZ 6%nat; TP PX 12%nat] [Mix (1 # 1000) 5];
i "E" [TP PY 11%nat] [Mix (1 # 1000) 5];
i "E" [TP PY 11%nat; TP PX 12%nat] [Mix (1 # 1000) 5];
i "E" [TP PY 11%nat; TP PX 6%nat] [Mix (1 # 1000) 5];
i "E" [TP PY 11%nat; TP PX 6%nat; TP PX 12%nat] [Mix (1 # 1000) 5];
i "E" [TP PY 11%nat; TP PY 6%nat] [Mix (1 # 1000) 5];
i "E" [TP PY 11%nat; TP PY 6%nat; TP PX 12%nat] [Mix (1 # 1000) 5];
i "E" [TP PY 11%nat; TP PZ 6%nat] [Mix (1 # 1000) 5];
i "E" [TP PY 11%nat; TP PZ 6%nat; TP PX 12%nat] [Mix (1 # 1000) 5];
i "E" [TP PZ 11%nat] [Mix (1 # 1000) 5];
i "E" [TP PZ 11%nat; TP PX 12%nat] [Mix (1 # 1000) 5];
i "E" [TP PZ 11%nat; TP PX 6%nat] [Mix (1 # 1000) 5];
i "E" [TP PZ 11%nat; TP PX 6%nat; TP PX 12%nat] [Mix (1 # 1000) 5];
i "E" [TP PZ 11%nat; TP PY 6%nat] [Mix (1 # 1000) 5];
i "E" [TP PZ 11%nat; TP PY 6%nat; TP PX 12%nat] [Mix (1 # 1000) 5];
i "E" [TP PZ 11%nat; TP PZ 6%nat] [Mix (1 # 1000) 5];
i "E" [TP PZ 11%nat; TP PZ 6%nat; TP PX 12%nat] [Mix (1 # 1000) 5];
i "M" (qs [12]%nat) [];
i "OBSERVABLE_INCLUDE" (recs [(-5); (-4)]) [Num (0 # 1)];
i "DETECTOR" (recs [(-30); (-29); (-26); (-24); (-23); (-20); (-12); (-11); (-8); (-6); (-5); (-2)]) [Num (0 # 1); Num (2 # 1); Num (0 # 1)];
i "DETECTOR" (recs [(-28); (-27); (-25); (-22); (-21); (-19); (-10); (-9); (-7); (-4); (-3); (-1)]) [Num (2 # 1); Num (5 # 1); Num (0 # 1)];
i "SHIFT_COORDS" [] [Num (0 # 1); Num (0 # 1); Num (1 # 1)];
i "TICK" [] [];
i "R" (qs [12]%nat) [];
i "CX" (qs [11; 12; 5; 12]%nat) [];
i "E" [TP PX 12%nat] [Mix (1 # 1000) 5];
i "E" [TP PX 5%nat] [Mix (1 # 1000) 5];
i "E" [TP PX 5%nat; TP PX 12%nat] [Mix (1 # 1000) 5];
i "E" [TP PY 5%nat] [Mix (1 # 1000) 5];
i "E" [TP PY 5%nat; TP PX 12%nat] [Mix (1 # 1000) 5];
i "E" [TP PZ 5%nat] [Mix (1 # 1000) 5];
i "E" [TP PZ 5%nat; TP PX 12%nat] [Mix (1 # 1000) 5];
i "E" [TP PX 11%nat] [Mix (1 # 1000) 5];
i "E" [TP PX 11%nat; TP PX 12%nat] [Mix (1 # 1000) 5];
i "E" [TP PX 11%nat; TP PX 5%nat] [Mix (1 # 1000) 5];
i "E" [TP PX 11%nat; TP PX 5%nat; TP PX 12%nat] [Mix (1 # 1000) 5];
i "E" [TP PX 11%nat; TP PY 5%nat] [Mix (1 # 1000) 5];
i "E" [TP PX 11%nat; TP PY 5%nat; TP PX 12%nat] [Mix (1 # 1000) 5];
i "E" [TP PX 11%nat; TP PZ 5%nat] [Mix (1 # 1000) 5];
i "E" [TP PX 11%nat; TP PZ 5%nat; TP PX 12%nat] [Mix (1 # 1000) 5];
i "E" [TP PY 11%nat] [Mix (1 # 1000) 5];
i "E" [TP PY 11%nat; TP PX 12%nat] [Mix (1 # 1000) 5];
i "E" [TP PY 11%nat; TP PX 5%nat] [Mix (1 # 1000) 5];
i "E" [TP PY 11%nat; TP PX 5%nat; TP PX 12%nat] [Mix (1 # 1000) 5];
i "E" [TP PY 11%nat; TP PY 5%nat] [Mix (1 # 1000) 5];
i "E" [TP PY 11%nat; TP PY 5%nat; TP PX 12%nat] [Mix (1 # 1000) 5];
i "E" [TP PY 11%nat; TP PZ 5%nat] [Mix (1 # 1000) 5];
i "E" [TP PY 11%nat; TP PZ 5%nat; TP PX 12%nat] [Mix (1 # 1000) 5];
i "E" [TP PZ 11%nat] [Mix (1 # 1000) 5];
i "E" [TP PZ 11%nat; TP PX 12%nat] [Mix (1 # 1000) 5];
i "E" [TP PZ 11%nat; TP PX 5%nat] [Mix (1 # 1000) 5];
i "E" [TP PZ 11%nat; TP PX 5%nat; TP PX 12%nat] [Mix (1 # 1000) 5];
i "E" [TP PZ 11%nat; TP PY 5%nat] [Mix (1 # 1000) 5];
i "E" [TP PZ 11%nat; TP PY 5%nat; TP PX 12%nat] [Mix (1 # 1000) 5];
i "E" [TP PZ 11%nat; TP PZ 5%nat] [Mix (1 # 1000) 5];
i "E" [TP PZ 11%nat; TP PZ 5%nat; TP PX 12%nat] [Mix (1 # 1000) 5];
i "M" (qs [12]%nat) [];
i "R" (qs [12]%nat) [];
i "CX" (qs [0; 12; 1; 12]%nat) [];
i "E" [TP PX 12%nat] [Mix (1 # 1000) 5];
i "E" [TP PX 1%nat] [Mix (1 # 1000) 5];
i "E" [TP PX 1%nat; TP PX 12%nat] [Mix (1 # 1000) 5];
i "E" [TP PY 1%nat] [Mix (1 # 1000) 5];
i "E" [TP PY 1%nat; TP PX 12%nat] [Mix (1 # 1000) 5];
i "E" [TP PZ 1%nat] [Mix (1 # 1000) 5];
i "E" [TP PZ 1%nat; TP PX 12%nat] [Mix (1 # 1000) 5];
i "E" [TP PX 0%nat] [Mix (1 # 1000) 5];
i "E" [TP PX 0%nat; TP PX 12%nat] [Mix (1 # 1000) 5];
i "E" [TP PX 0%nat; TP PX 1%nat] [Mix (1 # 1000) 5];
i "E" [TP PX 0%nat; TP PX 1%nat; TP PX 12%nat] [Mix (1 # 1000) 5];
i "E" [TP PX 0%nat; TP PY 1%nat] [Mix (1 # 1000) 5];
i "E" [TP PX 0%nat; TP PY 1%nat; TP PX 12%nat] [Mix (1 # 1000) 5];
i "E" [TP PX 0%nat; TP PZ 1%nat] [Mix (1 # 1000) 5];
i "E" [TP PX 0%nat; TP PZ 1%nat; TP PX 12%nat] [Mix (1 # 1000) 5];
i "E" [TP PY 0%nat] [Mix (1 # 1000) 5];
i "E" [TP PY 0%nat; TP PX 12%nat] [Mix (1 # 1000) 5];
i "E" [TP PY 0%nat; TP PX 1%nat] [Mix (1 # 1000) 5];
i "E" [TP PY 0%nat; TP PX 1%nat; TP PX 12%nat] [Mix (1 # 1000) 5];
i "E" [TP PY 0%nat; TP PY 1%nat] [Mix (1 # 1000) 5];
i "E" [TP PY 0%nat; TP PY 1%nat; TP PX 12%nat] [Mix (1 # 1000) 5];
i "E" [TP PY 0%nat; TP PZ 1%nat] [Mix (1 # 1000) 5];
i "E" [TP PY 0%nat; TP PZ 1%nat; TP PX 12%nat] [Mix (1 # 1000) 5];
i "E" [TP PZ 0%nat] [Mix (1 # 1000) 5];
i "E" [TP PZ 0%nat; TP PX 12%nat] [Mix (1 # 1000) 5];
i "E" [TP PZ 0%nat; TP PX 1%nat] [Mix (1 # 1000) 5];
i "E" [TP PZ 0%nat; TP PX 1%nat; TP PX 12%nat] [Mix (1 # 1000) 5];
i "E" [TP PZ 0%nat; TP PY 1%nat] [Mix (1 # 1000) 5];
i "E" [TP PZ 0%nat; TP PY 1%nat; TP PX 12%nat] [Mix (1 # 1000) 5];
i "E" [TP PZ 0%nat; TP PZ 1%nat] [Mix (1 # 1000) 5];
i "E" [TP PZ 0%nat; TP PZ 1%nat; TP PX 12%nat] [Mix (1 # 1000) 5];
i "M" (qs [12]%nat) [];
i "R" (qs [12]%nat) [];
i "CX" (qs [4; 12; 3; 12]%nat) [];
i "E" [TP PX 12%nat] [Mix (1 # 1000) 5];
i "E" [TP PX 3%nat] [Mix (1 # 1000) 5];
i "E" [TP PX 3%nat; TP PX 12%nat] [Mix (1 # 1000) 5];
i "E" [TP PY 3%nat] [Mix (1 # 1000) 5];
i "E" [TP PY 3%nat; TP PX 12%nat] [Mix (1 # 1000) 5];
i "E" [TP PZ 3%nat] [Mix (1 # 1000) 5];
i "E" [TP PZ 3%nat; TP PX 12%nat] [Mix (1 # 1000) 5];
i "E" [TP PX 4%nat] [Mix (1 # 1000) 5];
i "E" [TP PX 4%nat; TP PX 12%nat] [Mix (1 # 1000) 5];
i "E" [TP PX 4%nat; TP PX 3%nat] [Mix (1 # 1000) 5];
i "E" [TP PX 4%nat; TP PX 3%nat; TP PX 12%nat] [Mix (1 # 1000) 5];
i "E" [TP PX 4%nat; TP PY 3%nat] [Mix (1 # 1000) 5];
i "E" [TP PX 4%nat; TP PY 3%nat; TP PX 12%nat] [Mix (1 # 1000) 5];
i "E" [TP PX 4%nat; TP PZ 3%nat] [Mix (1 # 1000) 5];
i "E" [TP PX 4%nat; TP PZ 3%nat; TP PX 12%nat] [Mix (1 # 1000) 5];
i "E" [TP PY 4%nat] [Mix (1 # 1000) 5];
i "E" [TP PY 4%nat; TP PX 12%nat] [Mix (1 # 1000) 5];
i "E" [TP PY 4%nat; TP PX 3%nat] [Mix (1 # 1000) 5];
i "E" [TP PY 4%nat; TP PX 3%nat; TP PX 12%nat] [Mix (1 # 1000) 5];
i "E" [TP PY 4%nat; TP PY 3%nat] [Mix (1 # 1000) 5];
i "E" [TP PY 4%nat; TP PY 3%nat; TP PX 12%nat] [Mix (1 # 1000) 5];
i "E" [TP PY 4%nat; TP PZ 3%nat] [Mix (1 # 1000) 5];
i "E" [TP PY 4%nat; TP PZ 3%nat; TP PX 12%nat] [Mix (1 # 1000) 5];
i "E" [TP PZ 4%nat] [Mix (1 # 1000) 5];
i "E" [TP PZ 4%nat; TP PX 12%nat] [Mix (1 # 1000) 5];
i "E" [TP PZ 4%nat; TP PX 3%nat] [Mix (1 # 1000) 5];
i "E" [TP PZ 4%nat; TP PX 3%nat; TP PX 12%nat] [Mix (1 # 1000) 5];
i "E" [TP PZ 4%nat; TP PY 3%nat] [Mix (1 # 1000) 5];
i "E" [TP PZ 4%nat; TP PY 3%nat; TP PX 12%nat] [Mix (1 # 1000) 5];
i "E" [TP PZ 4%nat; TP PZ 3%nat] [Mix (1 # 1000) 5];
i "E" [TP PZ 4%nat; TP PZ 3%nat; TP PX 12%nat] [Mix (1 # 1000) 5];
i "M" (qs [12]%nat) [];
i "R" (qs [12]%nat) [];
i "CX" (qs [2; 12; 8; 12]%nat) [];
i "E" [TP PX 12%nat] [Mix (1 # 1000) 5];
i "E" [TP PX 8%nat] [Mix (1 # 1000) 5];
i "E" [TP PX 8%nat; TP PX 12%nat] [Mix (1 # 1000) 5];
i "E" [TP PY 8%nat] [Mix (1 # 1000) 5];
i "E" [TP PY 8%nat; TP PX 12%nat] [Mix (1 # 1000) 5];
i "E" [TP PZ 8%nat] [Mix (1 # 1000) 5];
i "E" [TP PZ 8%nat; TP PX 12%nat] [Mix (1 # 1000) 5];
i "E" [TP PX 2%nat] [Mix (1 # 1000) 5];
i "E" [TP PX 2%nat; TP PX 12%nat] [Mix (1 # 1000) 5];
i "E" [TP PX 2%nat; TP PX 8%nat] [Mix (1 # 1000) 5];
i "E" [TP PX 2%nat; TP PX 8%nat; TP PX 12%nat] [Mix (1 # 1000) 5];
i "E" [TP PX 2%nat; TP PY 8%nat] [Mix (1 # 1000) 5];
i "E" [TP PX 2%nat; TP PY 8%nat; TP PX 12%nat] [Mix (1 # 1000) 5];
i "E" [TP PX 2%nat; TP PZ 8%nat] [Mix (1 # 1000) 5];
i "E" [TP PX 2%nat; TP PZ 8%nat; TP PX 12%nat] [Mix (1 # 1000) 5];
i "E" [TP PY 2%nat] [Mix (1 # 1000) 5];
i "E" [TP PY 2%nat; TP PX 12%nat] [Mix (1 # 1000) 5];
i "E" [TP PY 2%nat; TP PX 8%nat] [Mix (1 # 1000) 5];
i "E" [TP PY 2%nat; TP PX 8%nat; TP PX 12%nat] [Mix (1 # 1000) 5];
i "E" [TP PY 2%nat; TP PY 8%nat] [Mix (1 # 1000) 5];
i "E" [TP PY 2%nat; TP PY 8%nat; TP PX 12%nat] [Mix (1 # 1000) 5];
i "E" [TP PY 2%nat; TP PZ 8%nat] [Mix (1 # 1000) 5];
i "E" [TP PY 2%nat; TP PZ 8%nat; TP PX 12%nat] [Mix (1 # 1000) 5];
i "E" [TP PZ 2%nat] [Mix (1 # 1000) 5];
i "E" [TP PZ 2%nat; TP PX 12%nat] [Mix (1 # 1000) 5];
i "E" [TP PZ 2%nat; TP PX 8%nat] [Mix (1 # 1000) 5];
i "E" [TP PZ 2%nat; TP PX 8%nat; TP PX 12%nat] [Mix (1 # 1000) 5];
i "E" [TP PZ 2%nat; TP PY 8%nat] [Mix (1 # 1000) 5];
i "E" [TP PZ 2%nat; TP PY 8%nat; TP PX 12%nat] [Mix (1 # 1000) 5];
i "E" [TP PZ 2%nat; TP PZ 8%nat] [Mix (1 # 1000) 5];
i "E" [TP PZ 2%nat; TP PZ 8%nat; TP PX 12%nat] [Mix (1 # 1000) 5];
i "M" (qs [12]%nat) [];
i "R" (qs [12]%nat) [];
i "CX" (qs [7; 12; 6; 12]%nat) [];
i "E" [TP PX 12%nat] [Mix (1 # 1000) 5];
i "E" [TP PX 6%nat] [Mix (1 # 1000) 5];
i "E" [TP PX 6%nat; TP PX 12%nat] [Mix (1 # 1000) 5];
i "E" [TP PY 6%nat] [Mix (1 # 1000) 5];
i "E" [TP PY 6%nat; TP PX 12%nat] [Mix (1 # 1000) 5];
i "E" [TP PZ 6%nat] [Mix (1 # 1000) 5];
i "E" [TP PZ 6%nat; TP PX 12%nat] [Mix (1 # 1000) 5];
i "E" [TP PX 7%nat] [Mix (1 # 1000) 5];
i "E" [TP PX 7%nat; TP PX 12%nat] [Mix (1 # 1000) 5];
i "E" [TP PX 7%nat; TP PX 6%nat] [Mix (1 # 1000) 5];
i "E" [TP PX 7%nat; TP PX 6%nat; TP PX 12%nat] [Mix (1 # 1000) 5];
i "E" [TP PX 7%nat; TP PY 6%nat] [Mix (1 # 1000) 5];
i "E" [TP PX 7%nat; TP PY 6%nat; TP PX 12%nat] [Mix (1 # 1000) 5];
i "E" [TP PX 7%nat; TP PZ 6%nat] [Mix (1 # 1000) 5];
i "E" [TP PX 7%nat; TP PZ 6%nat; TP PX 12%nat] [Mix (1 # 1000) 5];
i "E" [TP PY 7%nat] [Mix (1 # 1000) 5];
i "E" [TP PY 7%nat; TP PX 12%nat] [Mix (1 # 1000) 5];
i "E" [TP PY 7%nat; TP PX 6%nat] [Mix (1 # 1000) 5];
i "E" [TP PY 7%nat; TP PX 6%nat; TP PX 12%nat] [Mix (1 # 1000) 5];
i "E" [TP PY 7%nat; TP PY 6%nat] [Mix (1 # 1000) 5];
i "E" [TP PY 7%nat; TP PY 6%nat; TP PX 12%nat] [Mix (1 # 1000) 5];
i "E" [TP PY 7%nat; TP PZ 6%nat] [Mix (1 # 1000) 5];
i "E" [TP PY 7%nat; TP PZ 6%nat; TP PX 12%nat] [Mix (1 # 1000) 5];
i "E" [TP PZ 7%nat] [Mix (1 # 1000) 5];
i "E" [TP PZ 7%nat; TP PX 12%nat] [Mix (1 # 1000) 5];
i "E" [TP PZ 7%nat; TP PX 6%nat] [Mix (1 # 1000) 5];
i "E" [TP PZ 7%nat; TP PX 6%nat; TP PX 12%nat] [Mix (1 # 1000) 5];
i "E" [TP PZ 7%nat; TP PY 6%nat] [Mix (1 # 1000) 5];
i "E" [TP PZ 7%nat; TP PY 6%nat; TP PX 12%nat] [Mix (1 # 1000) 5];
i "E" [TP PZ 7%nat; TP PZ 6%nat] [Mix (1 # 1000) 5];
i "E" [TP PZ 7%nat; TP PZ 6%nat; TP PX 12%nat] [Mix (1 # 1000) 5];
i "M" (qs [12]%nat) [];
i "R" (qs [12]%nat) [];
i "CX" (qs [9; 12; 10; 12]%nat) [];
i "E" [TP PX 12%nat] [Mix (1 # 1000) 5];
i "E" [TP PX 10%nat] [Mix (1 # 1000) 5];
i "E" [TP PX 10%nat; TP PX 12%nat] [Mix (1 # 1000) 5];
i "E" [TP PY 10%nat] [Mix (1 # 1000) 5];
i "E" [TP PY 10%nat; TP PX 12%nat] [Mix (1 # 1000) 5];
i "E" [TP PZ 10%nat] [Mix (1 # 1000) 5];
i "E" [TP PZ 10%nat; TP PX 12%nat] [Mix (1 # 1000) 5];
i "E" [TP PX 9%nat] [Mix (1 # 1000) 5];
i "E" [TP PX 9%nat; TP PX 12%nat] [Mix (1 # 1000) 5];
i "E" [TP PX 9%nat; TP PX 10%nat] [Mix (1 # 1000) 5];
i "E" [TP PX 9%nat; TP PX 10%nat; TP PX 12%nat] [Mix (1 # 1000) 5];
i "E" [TP PX 9%nat; TP PY 10%nat] [Mix (1 # 1000) 5];
i "E" [TP PX 9%nat; TP PY 10%nat; TP PX 12%nat] [Mix (1 # 1000) 5];
i "E" [TP PX 9%nat; TP PZ 10%nat] [Mix (1 # 1000) 5];
i "E" [TP PX 9%nat; TP PZ 10%nat; TP PX 12%nat] [Mix (1 # 1000) 5];
i "E" [TP PY 9%nat] [Mix (1 # 1000) 5];
i "E" [TP PY 9%nat; TP PX 12%nat] [Mix (1 # 1000) 5];
i "E" [TP PY 9%nat; TP PX 10%nat] [Mix (1 # 1000) 5];
i "E" [TP PY 9%nat; TP PX 10%nat; TP PX 12%nat] [Mix (1 # 1000) 5];
i "E" [TP PY 9%nat; TP PY 10%nat] [Mix (1 # 1000) 5];
i "E" [TP PY 9%nat; TP PY 10%nat; TP PX 12%nat] [Mix (1 # 1000) 5];
i "E" [TP PY 9%nat; TP PZ 10%nat] [Mix (1 # 1000) 5];
i "E" [TP PY 9%nat; TP PZ 10%nat; TP PX 12%nat] [Mix (1 # 1000) 5];
i "E" [TP PZ 9%nat] [Mix (1 # 1000) 5];
i "E" [TP PZ 9%nat; TP PX 12%nat] [Mix (1 # 1000) 5];
i "E" [TP PZ 9%nat; TP PX 10%nat] [Mix (1 # 1000) 5];
i "E" [TP PZ 9%nat; TP PX 10%nat; TP PX 12%nat] [Mix (1 # 1000) 5];
i "E" [TP PZ 9%nat; TP PY 10%nat] [Mix (1 # 1000) 5];
i "E" [TP PZ 9%nat; TP PY 10%nat; TP PX 12%nat] [Mix (1 # 1000) 5];
i "E" [TP PZ 9%nat; TP PZ 10%nat] [Mix (1 # 1000) 5];
i "E" [TP PZ 9%nat; TP PZ 10%nat; TP PX 12%nat] [Mix (1 # 1000) 5];
i "M" (qs [12]%nat) [];
i "OBSERVABLE_INCLUDE" (recs [(-5); (-4)]) [Num (0 # 1)];
i "DETECTOR" (recs [(-30); (-28); (-25); (-24); (-23); (-20); (-12); (-10); (-7); (-6); (-5); (-2)]) [Num (0 # 1); Num (0 # 1); Num (0 # 1)];
i "DETECTOR" (recs [(-29); (-27); (-26); (-22); (-21); (-19); (-11); (-9); (-8); (-4); (-3); (-1)]) [Num (2 # 1); Num (3 # 1); Num (0 # 1)];
i "SHIFT_COORDS" [] [Num (0 # 1); Num (0 # 1); Num (1 # 1)];
i "TICK" [] [];
i "R" (qs [12]%nat) [];
i "XCX" (qs [9; 12; 3; 12]%nat) [];
i "E" [TP PX 12%nat] [Mix (1 # 1000) 5];
i "E" [TP PX 3%nat] [Mix (1 # 1000) 5];
i "E" [TP PX 3%nat; TP PX 12%nat] [Mix (1 # 1000) 5];
i "E" [TP PY 3%nat] [Mix (1 # 1000) 5];
i "E" [TP PY 3%nat; TP PX 12%nat] [Mix (1 # 1000) 5];
i "E" [TP PZ 3%nat] [Mix (1 # 1000) 5];
i "E" [TP PZ 3%nat; TP PX 12%nat] [Mix (1 # 1000) 5];
i "E" [TP PX 9%nat] [Mix (1 # 1000) 5];
i "E" [TP PX 9%nat; TP PX 12%nat] [Mix (1 # 1000) 5];
i "E" [TP PX 9%nat; TP PX 3%nat] [Mix (1 # 1000) 5];
i "E" [TP PX 9%nat; TP PX 3%nat; TP PX 12%nat] [Mix (1 # 1000) 5];
i "E" [TP PX 9%nat; TP PY 3%nat] [Mix (1 # 1000) 5];
i "E" [TP PX 9%nat; TP PY 3%nat; TP PX 12%nat] [Mix (1 # 1000) 5];
i "E" [TP PX 9%nat; TP PZ 3%nat] [Mix (1 # 1000) 5];
i "E" [TP PX 9%nat; TP PZ 3%nat; TP PX 12%nat] [Mix (1 # 1000) 5];
i "E" [TP PY 9%nat] [Mix (1 # 1000) 5];
i "E" [TP PY 9%nat; TP PX 12%nat] [Mix (1 # 1000) 5];
i "E" [TP PY 9%nat; TP PX 3%nat] [Mix (1 # 1000) 5];
i "E" [TP PY 9%nat; TP PX 3%nat; TP PX 12%nat] [Mix (1 # 1000) 5];
i "E" [TP PY 9%nat; TP PY 3%nat] [Mix (1 # 1000) 5];
i "E" [TP PY 9%nat; TP PY 3%nat; TP PX 12%nat] [Mix (1 # 1000) 5];
i "E" [TP PY 9%nat; TP PZ 3%nat] [Mix (1 # 1000) 5];
i "E" [TP PY 9%nat; TP PZ 3%nat; TP PX 12%nat] [Mix (1 # 1000) 5];
i "E" [TP PZ 9%nat] [Mix (1 # 1000) 5];
i "E" [TP PZ 9%nat; TP PX 12%nat] [Mix (1 # 1000) 5];
i "E" [TP PZ 9%nat; TP PX 3%nat] [Mix (1 # 1000) 5];
i "E" [TP PZ 9%nat; TP PX 3%nat; TP PX 12%nat] [Mix (1 # 1000) 5];
i "E" [TP PZ 9%nat; TP PY 3%nat] [Mix (1 # 1000) 5];
i "E" [TP PZ 9%nat; TP PY 3%nat; TP PX 12%nat] [Mix (1 # 1000) 5];
i "E" [TP PZ 9%nat; TP PZ 3%nat] [Mix (1 # 1000) 5];
i "E" [TP PZ 9%nat; TP PZ 3%nat; TP PX 12%nat] [Mix (1 # 1000) 5];
i "M" (qs [12]%nat) [];
i "R" (qs [12]%nat) [];
i "XCX" (qs [2; 12; 1; 12]%nat) [];
i "E" [TP PX 12%nat] [Mix (1 # 1000) 5];
i "E" [TP PX 1%nat] [Mix (1 # 1000) 5];
i "E" [TP PX 1%nat; TP PX 12%nat] [Mix (1 # 1000) 5];
i "E" [TP PY 1%nat] [Mix (1 # 1000) 5];
i "E" [TP PY 1%nat; TP PX 12%nat] [Mix (1 # 1000) 5];
i "E" [TP PZ 1%nat] [Mix (1 # 1000) 5];
i "E" [TP PZ 1%nat; TP PX 12%nat] [Mix (1 # 1000) 5];
i "E" [TP PX 2%nat] [Mix (1 # 1000) 5];
i "E" [TP PX 2%nat; TP PX 12%nat] [Mix (1 # 1000) 5];
i "E" [TP PX 2%nat; TP PX 1%nat] [Mix (1 # 1000) 5];
i "E" [TP PX 2%nat; TP PX 1%nat; TP PX 12%nat] [Mix (1 # 1000) 5];
i "E" [TP PX 2%nat; TP PY 1%nat] [Mix (1 # 1000) 5];
i "E" [TP PX 2%nat; TP PY 1%nat; TP PX 12%nat] [Mix (1 # 1000) 5];
i "E" [TP PX 2%nat; TP PZ 1%nat] [Mix (1 # 1000) 5];
i "E" [TP PX 2%nat; TP PZ 1%nat; TP PX 12%nat] [Mix (1 # 1000) 5];
i "E" [TP PY 2%nat] [Mix (1 # 1000) 5];
i "E" [TP PY 2%nat; TP PX 12%nat] [Mix (1 # 1000) 5];
i "E" [TP PY 2%nat; TP PX 1%nat] [Mix (1 # 1000) 5];
i "E" [TP PY 2%nat; TP PX 1%nat; TP PX 12%nat] [Mix (1 # 1000) 5];
i "E" [TP PY 2%nat; TP PY 1%nat] [Mix (1 # 1000) 5];
i "E" [TP PY 2%nat; TP PY 1%nat; TP PX 12%nat] [Mix (1 # 1000) 5];
i "E" [TP PY 2%nat; TP PZ 1%nat] [Mix (1 # 1000) 5];
i "E" [TP PY 2%nat; TP PZ 1%nat; TP PX 12%nat] [Mix (1 # 1000) 5];
i "E" [TP PZ 2%nat] [Mix (1 # 1000) 5];
i "E" [TP PZ 2%nat; TP PX 12%nat] [Mix (1 # 1000) 5];
i "E" [TP PZ 2%nat; TP PX 1%nat] [Mix (1 # 1000) 5];
i "E" [TP PZ 2%nat; TP PX 1%nat; TP PX 12%nat] [Mix (1 # 1000) 5];
i "E" [TP PZ 2%nat; TP PY 1%nat] [Mix (1 # 1000) 5];
i "E" [TP PZ 2%nat; TP PY 1%nat; TP PX 12%nat] [Mix (1 # 1000) 5];
i "E" [TP PZ 2%nat; TP PZ 1%nat] [Mix (1 # 1000) 5];
i "E" [TP PZ 2%nat; TP PZ 1%nat; TP PX 12%nat] [Mix (1 # 1000) 5];
i "M" (qs [12]%nat) [];
i "R" (qs [12]%nat) [];
i "XCX" (qs [4; 12; 5; 12]%nat) [];
i "E" [TP PX 12%nat] [Mix (1 # 1000) 5];
i "E" [TP PX 5%nat] [Mix (1 # 1000) 5];
i "E" [TP PX 5%nat; TP PX 12%nat] [Mix (1 # 1000) 5];
i "E" [TP PY 5%nat] [Mix (1 # 1000) 5];
i "E" [TP PY 5%nat; TP PX 12%nat] [Mix (1 # 1000) 5];
i "E" [TP PZ 5%nat] [Mix (1 # 1000) 5];
i "E" [TP PZ 5%nat; TP PX 12%nat] [Mix (1 # 1000) 5];
i "E" [TP PX 4%nat] [Mix (1 # 1000) 5];
i "E" [TP PX 4%nat; TP PX 12%nat] [Mix (1 # 1000) 5];
i "E" [TP PX 4%nat; TP PX 5%nat] [Mix (1 # 1000) 5];
i "E" [TP PX 4%nat; TP PX 5%nat; TP PX 12%nat] [Mix (1 # 1000) 5];
i "E" [TP PX 4%nat; TP PY 5%nat] [Mix (1 # 1000) 5];
i "E" [TP PX 4%nat; TP PY 5%nat; TP PX 12%nat] [Mix (1 # 1000) 5];
i "E" [TP PX 4%nat; TP PZ 5%nat] [Mix (1 # 1000) 5];
i "E" [TP PX 4%nat; TP PZ 5%nat; TP PX 12%nat] [Mix (1 # 1000) 5];
i "E" [TP PY 4%nat] [Mix (1 # 1000) 5];
i "E" [TP PY 4%nat; TP PX 12%nat] [Mix (1 # 1000) 5];
i "E" [TP PY 4%nat; TP PX 5%nat] [Mix (1 # 1000) 5];
i "E" [TP PY 4%nat; TP PX 5%nat; TP PX 12%nat] [Mix (1 # 1000) 5];
i "E" [TP PY 4%nat; TP PY 5%nat] [Mix (1 # 1000) 5];
i "E" [TP PY 4%nat; TP PY 5%nat; TP PX 12%nat] [Mix (1 # 1000) 5];
i "E" [TP PY 4%nat; TP PZ 5%nat] [Mix (1 # 1000) 5];
i "E" [TP PY 4%nat; TP PZ 5%nat; TP PX 12%nat] [Mix (1 # 1000) 5];
i "E" [TP PZ 4%nat] [Mix (1 # 1000) 5];
i "E" [TP PZ 4%nat; TP PX 12%nat] [Mix (1 # 1000) 5];
i "E" [TP PZ 4%nat; TP PX 5%nat] [Mix (1 # 1000) 5];
i "E" [TP PZ 4%nat; TP PX 5%nat; TP PX 12%nat] [Mix (1 # 1000) 5];
i "E" [TP PZ 4%nat; TP PY 5%nat] [Mix (1 # 1000) 5];
i "E" [TP PZ 4%nat; TP PY 5%nat; TP PX 12%nat] [Mix (1 # 1000) 5];
i "E" [TP PZ 4%nat; TP PZ 5%nat] [Mix (1 # 1000) 5];
i "E" [TP PZ 4%nat; TP PZ 5%nat; TP PX 12%nat] [Mix (1 # 1000) 5];
i "M" (qs [12]%nat) [];
i "R" (qs [12]%nat) [];
i "XCX" (qs [0; 12; 6; 12]%nat) [];
i "E" [TP PX 12%nat] [Mix (1 # 1000) 5];
i "E" [TP PX 6%nat] [Mix (1 # 1000) 5];
i "E" [TP PX 6%nat; TP PX 12%nat] [Mix (1 # 1000) 5];
i "E" [TP PY 6%nat] [Mix (1 # 1000) 5];
i "E" [TP PY 6%nat; TP PX 12%nat] [Mix (1 # 1000) 5];
i "E" [TP PZ 6%nat] [Mix (1 # 1000) 5];
i "E" [TP PZ 6%nat; TP PX 12%nat] [Mix (1 # 1000) 5];
i "E" [TP PX 0%nat] [Mix (1 # 1000) 5];
i "E" [TP PX 0%nat; TP PX 12%nat] [Mix (1 # 1000) 5];
i "E" [TP PX 0%nat; TP PX 6%nat] [Mix (1 # 1000) 5];
i "E" [TP PX 0%nat; TP PX 6%nat; TP PX 12%nat] [Mix (1 # 1000) 5];
i "E" [TP PX 0%nat; TP PY 6%nat] [Mix (1 # 1000) 5];
i "E" [TP PX 0%nat; TP PY 6%nat; TP PX 12%nat] [Mix (1 # 1000) 5];
i "E" [TP PX 0%nat; TP PZ 6%nat] [Mix (1 # 1000) 5];
i "E" [TP PX 0%nat; TP PZ 6%nat; TP PX 12%nat] [Mix (1 # 1000) 5];
i "E" [TP PY 0%nat] [Mix (1 # 1000) 5];
i "E" [TP PY 0%nat; TP PX 12%nat] [Mix (1 # 1000) 5];
i "E" [TP PY 0%nat; TP PX 6%nat] [Mix (1 # 1000) 5];
i "E" [TP PY 0%nat; TP PX 6%nat; TP PX 12%nat] [Mix (1 # 1000) 5];
i "E" [TP PY 0%nat; TP PY 6%nat] [Mix (1 # 1000) 5];
i "E" [TP PY 0%nat; TP PY 6%nat; TP PX 12%nat] [Mix (1 # 1000) 5];
i "E" [TP PY 0%nat; TP PZ 6%nat] [Mix (1 # 1000) 5];
i "E" [TP PY 0%nat; TP PZ 6%nat; TP PX 12%nat] [Mix (1 # 1000) 5];
i "E" [TP PZ 0%nat] [Mix (1 # 1000) 5];
i "E" [TP PZ 0%nat; TP PX 12%nat] [Mix (1 # 1000) 5];
i "E" [TP PZ 0%nat; TP PX 6%nat] [Mix (1 # 1000) 5];
i "E" [TP PZ 0%nat; TP PX 6%nat; TP PX 12%nat] [Mix (1 # 1000) 5];
i "E" [TP PZ 0%nat; TP PY 6%nat] [Mix (1 # 1000) 5];
i "E" [TP PZ 0%nat; TP PY 6%nat; TP PX 12%nat] [Mix (1 # 1000) 5];
i "E" [TP PZ 0%nat; TP PZ 6%nat] [Mix (1 # 1000) 5];
i "E" [TP PZ 0%nat; TP PZ 6%nat; TP PX 12%nat] [Mix (1 # 1000) 5];
i "M" (qs [12]%nat) [];
i "R" (qs [12]%nat) [];
i "XCX" (qs [7; 12; 8; 12]%nat) [];
i "E" [TP PX 12%nat] [Mix (1 # 1000) 5];
i "E" [TP PX 8%nat] [Mix (1 # 1000) 5];
i "E" [TP PX 8%nat; TP PX 12%nat] [Mix (1 # 1000) 5];
i "E" [TP PY 8%nat] [Mix (1 # 1000) 5];
i "E" [TP PY 8%nat; TP PX 12%nat] [Mix (1 # 1000) 5];
i "E" [TP PZ 8%nat] [Mix (1 # 1000) 5];
i "E" [TP PZ 8%nat; TP PX 12%nat] [Mix (1 # 1000) 5];
i "E" [TP PX 7%nat] [Mix (1 # 1000) 5];
i "E" [TP PX 7%nat; TP PX 12%nat] [Mix (1 # 1000) 5];
i "E" [TP PX 7%nat; TP PX 8%nat] [Mix (1 # 1000) 5];
i "E" [TP PX 7%nat; TP PX 8%nat; TP PX 12%nat] [Mix (1 # 1000) 5];
i "E" [TP PX 7%nat; TP PY 8%nat] [Mix (1 # 1000) 5];
i "E" [TP PX 7%nat; TP PY 8%nat; TP PX 12%nat] [Mix (1 # 1000) 5];
i "E" [TP PX 7%nat; TP PZ 8%nat] [Mix (1 # 1000) 5];
i "E" [TP PX 7%nat; TP PZ 8%nat; TP PX 12%nat] [Mix (1 # 1000) 5];
i "E" [TP PY 7%nat] [Mix (1 # 1000) 5];
i "E" [TP PY 7%nat; TP PX 12%nat] [Mix (1 # 1000) 5];
i "E" [TP PY 7%nat; TP PX 8%nat] [Mix (1 # 1000) 5];
i "E" [TP PY 7%nat; TP PX 8%nat; TP PX 12%nat] [Mix (1 # 1000) 5];
i "E" [TP PY 7%nat; TP PY 8%nat] [Mix (1 # 1000) 5];
i "E" [TP PY 7%nat; TP PY 8%nat; TP PX 12%nat] [Mix (1 # 1000) 5];
i "E" [TP PY 7%nat; TP PZ 8%nat] [Mix (1 # 1000) 5];
i "E" [TP PY 7%nat; TP PZ 8%nat; TP PX 12%nat] [Mix (1 # 1000) 5];
i "E" [TP PZ 7%nat] [Mix (1 # 1000) 5];
i "E" [TP PZ 7%nat; TP PX 12%nat] [Mix (1 # 1000) 5];
i "E" [TP PZ 7%nat; TP PX 8%nat] [Mix (1 # 1000) 5];
i "E" [TP PZ 7%nat; TP PX 8%nat; TP PX 12%nat] [Mix (1 # 1000) 5];
i "E" [TP PZ 7%nat; TP PY 8%nat] [Mix (1 # 1000) 5];
i "E" [TP PZ 7%nat; TP PY 8%nat; TP PX 12%nat] [Mix (1 # 1000) 5];
i "E" [TP PZ 7%nat; TP PZ 8%nat] [Mix (1 # 1000) 5];
i "E" [TP PZ 7%nat; TP PZ 8%nat; TP PX 12%nat] [Mix (1 # 1000) 5];
i "M" (qs [12]%nat) [];
i "R" (qs [12]%nat) [];
i "XCX" (qs [11; 12; 10; 12]%nat) [];
i "E" [TP PX 12%nat] [Mix (1 # 1000) 5];
i "E" [TP PX 10%nat] [Mix (1 # 1000) 5];
i "E" [TP PX 10%nat; TP PX 12%nat] [Mix (1 # 1000) 5];
i "E" [TP PY 10%nat] [Mix (1 # 1000) 5];
i "E" [TP PY 10%nat; TP PX 12%nat] [Mix (1 # 1000) 5];
i "E" [TP PZ 10%nat] [Mix (1 # 1000) 5];
i "E" [TP PZ 10%nat; TP PX 12%nat] [Mix (1 # 1000) 5];
i "E" [TP PX 11%nat] [Mix (1 # 1000) 5];
i "E" [TP PX 11%nat; TP PX 12%nat] [Mix (1 # 1000) 5];
i "E" [TP PX 11%nat; TP PX 10%nat] [Mix (1 # 1000) 5];
i "E" [TP PX 11%nat; TP PX 10%nat; TP PX 12%nat] [Mix (1 # 1000) 5];
i "E" [TP PX 11%nat; TP PY 10%nat] [Mix (1 # 1000) 5];
i "E" [TP PX 11%nat; TP PY 10%nat; TP PX 12%nat] [Mix (1 # 1000) 5];
i "E" [TP PX 11%nat; TP PZ 10%nat] [Mix (1 # 1000) 5];
i "E" [TP PX 11%nat; TP PZ 10%nat; TP PX 12%nat] [Mix (1 # 1000) 5];
i "E" [TP PY 11%nat] [Mix (1 # 1000) 5];
i "E" [TP PY 11%nat; TP PX 12%nat] [Mix (1 # 1000) 5];
i "E" [TP PY 11%nat; TP PX 10%nat] [Mix (1 # 1000) 5];
i "E" [TP PY 11%nat; TP PX 10%nat; TP PX 12%nat] [Mix (1 # 1000) 5];
i "E" [TP PY 11%nat; TP PY 10%nat] [Mix (1 # 1000) 5];
i "E" [TP PY 11%nat; TP PY 10%nat; TP PX 12%nat] [Mix (1 # 1000) 5];
i "E" [TP PY 11%nat; TP PZ 10%nat] [Mix (1 # 1000) 5];
i "E" [TP PY 11%nat; TP PZ 10%nat; TP PX 12%nat] [Mix (1 # 1000) 5];
i "E" [TP PZ 11%nat] [Mix (1 # 1000) 5];
i "E" [TP PZ 11%nat; TP PX 12%nat] [Mix (1 # 1000) 5];
i "E" [TP PZ 11%nat; TP PX 10%nat] [Mix (1 # 1000) 5];
i "E" [TP PZ 11%nat; TP PX 10%nat; TP PX 12%nat] [Mix (1 # 1000) 5];
i "E" [TP PZ 11%nat; TP PY 10%nat] [Mix (1 # 1000) 5];
i "E" [TP PZ 11%nat; TP PY 10%nat; TP PX 12%nat] [Mix (1 # 1000) 5];
i "E" [TP PZ 11%nat; TP PZ 10%nat] [Mix (1 # 1000) 5];
i "E" [TP PZ 11%nat; TP PZ 10%nat; TP PX 12%nat] [Mix (1 # 1000) 5];
i "M" (qs [12]%nat) [];
i "OBSERVABLE_INCLUDE" (recs [(-5); (-4)]) [Num (0 # 1)];
i "DETECTOR" (recs [(-30); (-28); (-25); (-24); (-22); (-19); (-12); (-10); (-7); (-6); (-4); (-1)]) [Num (0 # 1); Num (4 # 1); Num (0 # 1)];
i "DETECTOR" (recs [(-29); (-27); (-26); (-23); (-21); (-20); (-11); (-9); (-8); (-5); (-3); (-2)]) [Num (2 # 1); Num (1 # 1); Num (0 # 1)];
i "SHIFT_COORDS" [] [Num (0 # 1); Num (0 # 1); Num (1 # 1)];
i "TICK" [] []];
i "H_YZ" (qs [0; 1; 2; 3; 4; 5; 6; 7; 8; 9; 10; 11]%nat) [];
i "TICK" [] [];
i "X_ERROR" (qs [0; 1; 2; 3; 4; 5; 6; 7; 8; 9; 10; 11]%nat) [Num (1 # 2000)];
i "M" (qs [0; 1; 2; 3; 4; 5; 6; 7; 8; 9; 10; 11]%nat) [];
i "DETECTOR" (recs [(-36); (-35); (-32); (-30); (-29); (-26); (-18); (-17); (-14); (-11); (-10); (-9); (-5); (-4); (-3)]) [Num (0 # 1); Num (2 # 1); Num (0 # 1)];
i "DETECTOR" (recs [(-34); (-33); (-31); (-28); (-27); (-25); (-16); (-15); (-13); (-12); (-8); (-7); (-6); (-2); (-1)]) [Num (2 # 1); Num (5 # 1); Num (0 # 1)];
i "DETECTOR" (recs [(-24); (-22); (-19); (-18); (-16); (-13); (-9); (-8); (-7); (-3); (-2); (-1)]) [Num (0 # 1); Num (4 # 1); Num (0 # 1)];
i "DETECTOR" (recs [(-23); (-21); (-20); (-17); (-15); (-14); (-12); (-11); (-10); (-6); (-5); (-4)]) [Num (2 # 1); Num (1 # 1); Num (0 # 1)];
i "OBSERVABLE_INCLUDE" (recs [(-11); (-10); (-8); (-7)]) [Num (0 # 1)]].

Example golden_EM3_v2 : matches (golden_layout 1003 "EM3_v2" "V") expected_EM3_v2 = true.
Proof. vm_compute. reflexivity. Qed.

(** test_circuit_details_EM3_h_obs, lines 2101-2203 *)
Definition expected_EM3_h_obs : circuit := [
i "QUBIT_COORDS" (qs [0]%nat) [Num (1 # 1); Num (0 # 1)];
i "QUBIT_COORDS" (qs [1]%nat) [Num (1 # 1); Num (1 # 1)];
i "QUBIT_COORDS" (qs [2]%nat) [Num (1 # 1); Num (2 # 1)];
i "QUBIT_COORDS" (qs [3]%nat) [Num (1 # 1); Num (3 # 1)];
i "QUBIT_COORDS" (qs [4]%nat) [Num (1 # 1); Num (4 # 1)];
i "QUBIT_COORDS" (qs [5]%nat) [Num (1 # 1); Num (5 # 1)];
i "QUBIT_COORDS" (qs [6]%nat) [Num (3 # 1); Num (0 # 1)];
i "QUBIT_COORDS" (qs [7]%nat) [Num (3 # 1); Num (1 # 1)];
i "QUBIT_COORDS" (qs [8]%nat) [Num (3 # 1); Num (2 # 1)];
i "QUBIT_COORDS" (qs [9]%nat) [Num (3 # 1); Num (3 # 1)];
i "QUBIT_COORDS" (qs [10]%nat) [Num (3 # 1); Num (4 # 1)];
i "QUBIT_COORDS" (qs [11]%nat) [Num (3 # 1); Num (5 # 1)];
i "R" (qs [0; 1; 2; 3; 4; 5; 6; 7; 8; 9; 10; 11]%nat) [];
i "X_ERROR" (qs [0; 1; 2; 3; 4; 5; 6; 7; 8; 9; 10; 11]%nat) [Num (1 # 1000)];
i "TICK" [] [];
i "H" (qs [0; 1; 2; 3; 4; 5; 6; 7; 8; 9; 10; 11]%nat) [];
i "DEPOLARIZE1" (qs [0; 1; 2; 3; 4; 5; 6; 7; 8; 9; 10; 11]%nat) [Num (1 # 1000)];
i "TICK" [] [];
i "DEPOLARIZE2" (qs [9; 3; 2; 1; 4; 5; 0; 6; 7; 8; 11; 10]%nat) [Num (1 # 1000)];
i "MPP" [TP PX 9%nat; TComb; TP PX 3%nat; TP PX 2%nat; TComb; TP PX 1%nat; TP PX 4%nat; TComb; TP PX 5%nat; TP PX 0%nat; TComb; TP PX 6%nat; TP PX 7%nat; TComb; TP PX 8%nat; TP PX 11%nat; TComb; TP PX 10%nat] [Num (1 # 1000)];
i "OBSERVABLE_INCLUDE" (recs [(-3)]) [Num (1 # 1)];
i "DETECTOR" (recs [(-6)]) [Num (0 # 1); Num (3 # 1); Num (0 # 1)];
i "DETECTOR" (recs [(-5)]) [Num (1 # 1); Num (3 # 2); Num (0 # 1)];
i "DETECTOR" (recs [(-4)]) [Num (1 # 1); Num (9 # 2); Num (0 # 1)];
i "DETECTOR" (recs [(-3)]) [Num (2 # 1); Num (0 # 1); Num (0 # 1)];
i "DETECTOR" (recs [(-2)]) [Num (3 # 1); Num (3 # 2); Num (0 # 1)];
i "DETECTOR" (recs [(-1)]) [Num (3 # 1); Num (9 # 2); Num (0 # 1)];
i "SHIFT_COORDS" [] [Num (0 # 1); Num (0 # 1); Num (1 # 1)];
i "TICK" [] [];
i "DEPOLARIZE2" (qs [7; 1; 2; 3; 0; 5; 4; 10; 9; 8; 11; 6]%nat) [Num (1 # 1000)];
i "MPP" [TP PY 7%nat; TComb; TP PY 1%nat; TP PY 2%nat; TComb; TP PY 3%nat; TP PY 0%nat; TComb; TP PY 5%nat; TP PY 4%nat; TComb; TP PY 10%nat; TP PY 9%nat; TComb; TP PY 8%nat; TP PY 11%nat; TComb; TP PY 6%nat] [Num (1 # 1000)];
i "OBSERVABLE_INCLUDE" (recs [(-6)]) [Num (1 # 1)];
i "SHIFT_COORDS" [] [Num (0 # 1); Num (0 # 1); Num (1 # 1)];
i "TICK" [] [];
i "DEPOLARIZE2" (qs [11; 5; 0; 1; 4; 3; 2; 8; 7; 6; 9; 10]%nat) [Num (1 # 1000)];
i "MPP" [TP PZ 11%nat; TComb; TP PZ 5%nat; TP PZ 0%nat; TComb; TP PZ 1%nat; TP PZ 4%nat; TComb; TP PZ 3%nat; TP PZ 2%nat; TComb; TP PZ 8%nat; TP PZ 7%nat; TComb; TP PZ 6%nat; TP PZ 9%nat; TComb; TP PZ 10%nat] [Num (1 # 1000)];
i "OBSERVABLE_INCLUDE" (recs [(-5); (-2)]) [Num (1 # 1)];
i "DETECTOR" (recs [(-12); (-10); (-7); (-6); (-5); (-2)]) [Num (0 # 1); Num (0 # 1); Num (0 # 1)];
i "DETECTOR" (recs [(-11); (-9); (-8); (-4); (-3); (-1)]) [Num (2 # 1); Num (3 # 1); Num (0 # 1)];
i "SHIFT_COORDS" [] [Num (0 # 1); Num (0 # 1); Num (1 # 1)];
i "TICK" [] [];
i "DEPOLARIZE2" (qs [9; 3; 2; 1; 4; 5; 0; 6; 7; 8; 11; 10]%nat) [Num (1 # 1000)];
i "MPP" [TP PX 9%nat; TComb; TP PX 3%nat; TP PX 2%nat; TComb; TP PX 1%nat; TP PX 4%nat; TComb; TP PX 5%nat; TP PX 0%nat; TComb; TP PX 6%nat; TP PX 7%nat; TComb; TP PX 8%nat; TP PX 11%nat; TComb; TP PX 10%nat] [Num (1 # 1000)];
i "OBSERVABLE_INCLUDE" (recs [(-3)]) [Num (1 # 1)];
i "SHIFT_COORDS" [] [Num (0 # 1); Num (0 # 1); Num (1 # 1)];
i "TICK" [] [];
Rep 333 [
i "DEPOLARIZE2" (qs [7; 1; 2; 3; 0; 5; 4; 10; 9; 8; 11; 6]%nat) [Num (1 # 1000)];
i "MPP" [TP PY 7%nat; TComb; TP PY 1%nat; TP PY 2%nat; TComb; TP PY 3%nat; TP PY 0%nat; TComb; TP PY 5%nat; TP PY 4%nat; TComb; TP PY 10%nat; TP PY 9%nat; TComb; TP PY 8%nat; TP PY 11%nat; TComb; TP PY 6%nat] [Num (1 # 1000)];
i "OBSERVABLE_INCLUDE" (recs [(-6)]) [Num (1 # 1)];
i "DETECTOR" (recs [(-30); (-29); (-26); (-24); (-23); (-20); (-12); (-11); (-8); (-6); (-5); (-2)]) [Num (0 # 1); Num (2 # 1); Num (0 # 1)];
i "DETECTOR" (recs [(-28); (-27); (-25); (-22); (-21); (-19); (-10); (-9); (-7); (-4); (-3); (-1)]) [Num (2 # 1); Num (5 # 1); Num (0 # 1)];
i "SHIFT_COORDS" [] [Num (0 # 1); Num (0 # 1); Num (1 # 1)];
i "TICK" [] [];
i "DEPOLARIZE2" (qs [11; 5; 0; 1; 4; 3; 2; 8; 7; 6; 9; 10]%nat) [Num (1 # 1000)];
i "MPP" [TP PZ 11%nat; TComb; TP PZ 5%nat; TP PZ 0%nat; TComb; TP PZ 1%nat; TP PZ 4%nat; TComb; TP PZ 3%nat; TP PZ 2%nat; TComb; TP PZ 8%nat; TP PZ 7%nat; TComb; TP PZ 6%nat; TP PZ 9%nat; TComb; TP PZ 10%nat] [Num (1 # 1000)];
i "OBSERVABLE_INCLUDE" (recs [(-5); (-2)]) [Num (1 # 1)];
i "DETECTOR" (recs [(-30); (-28); (-25); (-24); (-23); (-20); (-12); (-10); (-7); (-6); (-5); (-2)]) [Num (0 # 1); Num (0 # 1); Num (0 # 1)];
i "DETECTOR" (recs [(-29); (-27); (-26); (-22); (-21); (-19); (-11); (-9); (-8); (-4); (-3); (-1)]) [Num (2 # 1); Num (3 # 1); Num (0 # 1)];
i "SHIFT_COORDS" [] [Num (0 # 1); Num (0 # 1); Num (1 # 1)];
i "TICK" [] [];
i "DEPOLARIZE2" (qs [9; 3; 2; 1; 4; 5; 0; 6; 7; 8; 11; 10]%nat) [Num (1 # 1000)];
i "MPP" [TP PX 9%nat; TComb; TP PX 3%nat; TP PX 2%nat; TComb; TP PX 1%nat; TP PX 4%nat; TComb; TP PX 5%nat; TP PX 0%nat; TComb; TP PX 6%nat; TP PX 7%nat; TComb; TP PX 8%nat; TP PX 11%nat; TComb; TP PX 10%nat] [Num (1 # 1000)];
i "OBSERVABLE_INCLUDE" (recs [(-3)]) [Num (1 # 1)];
i "DETECTOR" (recs [(-30); (-28); (-25); (-24); (-22); (-19); (-12); (-10); (-7); (-6); (-4); (-1)]) [Num (0 # 1); Num (4 # 1); Num (0 # 1)];
i "DETECTOR" (recs [(-29); (-27); (-26); (-23); (-21); (-20); (-11); (-9); (-8); (-5); (-3); (-2)]) [Num (2 # 1); Num (1 # 1); Num (0 # 1)];
i "SHIFT_COORDS" [] [Num (0 # 1); Num (0 # 1); Num (1 # 1)];
i "TICK" [] []];
i "H" (qs [0; 1; 2; 3; 4; 5; 6; 7; 8; 9; 10; 11]%nat) [];
i "DEPOLARIZE1" (qs [0; 1; 2; 3; 4; 5; 6; 7; 8; 9; 10; 11]%nat) [Num (1 # 1000)];
i "TICK" [] [];
i "X_ERROR" (qs [0; 1; 2; 3; 4; 5; 6; 7; 8; 9; 10; 11]%nat) [Num (1 # 1000)];
i "M" (qs [0; 1; 2; 3; 4; 5; 6; 7; 8; 9; 10; 11]%nat) [];
i "DETECTOR" (recs [(-18); (-9); (-3)]) [Num (0 # 1); Num (3 # 1); Num (0 # 1)];
i "DETECTOR" (recs [(-17); (-11); (-10)]) [Num (1 # 1); Num (3 # 2); Num (0 # 1)];
i "DETECTOR" (recs [(-16); (-8); (-7)]) [Num (1 # 1); Num (9 # 2); Num (0 # 1)];
i "DETECTOR" (recs [(-15); (-12); (-6)]) [Num (2 # 1); Num (0 # 1); Num (0 # 1)];
i "DETECTOR" (recs [(-14); (-5); (-4)]) [Num (3 # 1); Num (3 # 2); Num (0 # 1)];
i "DETECTOR" (recs [(-13); (-2); (-1)]) [Num (3 # 1); Num (9 # 2); Num (0 # 1)];
i "DETECTOR" (recs [(-30); (-28); (-25); (-24); (-23); (-20); (-12); (-11); (-7); (-6); (-5); (-1)]) [Num (0 # 1); Num (0 # 1); Num (0 # 1)];
i "DETECTOR" (recs [(-29); (-27); (-26); (-22); (-21); (-19); (-10); (-9); (-8); (-4); (-3); (-2)]) [Num (2 # 1); Num (3 # 1); Num (0 # 1)];
i "OBSERVABLE_INCLUDE" (recs [(-11); (-5)]) [Num (1 # 1)]].

Example golden_EM3_h_obs : matches (golden_layout 1003 "EM3" "H") expected_EM3_h_obs = true.
Proof. vm_compute. reflexivity. Qed.

(** test_circuit_details_SI1000, lines 2218-2498 *)
Definition expected_SI1000 : circuit := [
i "QUBIT_COORDS" (qs [0]%nat) [Num (1 # 1); Num (0 # 1)];
i "QUBIT_COORDS" (qs [1]%nat) [Num (1 # 1); Num (1 # 1)];
i "QUBIT_COORDS" (qs [2]%nat) [Num (1 # 1); Num (2 # 1)];
i "QUBIT_COORDS" (qs [3]%nat) [Num (1 # 1); Num (3 # 1)];
i "QUBIT_COORDS" (qs [4]%nat) [Num (1 # 1); Num (4 # 1)];
i "QUBIT_COORDS" (qs [5]%nat) [Num (1 # 1); Num (5 # 1)];
i "QUBIT_COORDS" (qs [6]%nat) [Num (3 # 1); Num (0 # 1)];
i "QUBIT_COORDS" (qs [7]%nat) [Num (3 # 1); Num (1 # 1)];
i "QUBIT_COORDS" (qs [8]%nat) [Num (3 # 1); Num (2 # 1)];
i "QUBIT_COORDS" (qs [9]%nat) [Num (3 # 1); Num (3 # 1)];
i "QUBIT_COORDS" (qs [10]%nat) [Num (3 # 1); Num (4 # 1)];
i "QUBIT_COORDS" (qs [11]%nat) [Num (3 # 1); Num (5 # 1)];
i "QUBIT_COORDS" (qs [12]%nat) [Num (0 # 1); Num (1 # 1)];
i "QUBIT_COORDS" (qs [13]%nat) [Num (0 # 1); Num (3 # 1)];
i "QUBIT_COORDS" (qs [14]%nat) [Num (0 # 1); Num (5 # 1)];
i "QUBIT_COORDS" (qs [15]%nat) [Num (1 # 1); Num (1 # 2)];
i "QUBIT_COORDS" (qs [16]%nat) [Num (1 # 1); Num (3 # 2)];
i "QUBIT_COORDS" (qs [17]%nat) [Num (1 # 1); Num (5 # 2)];
i "QUBIT_COORDS" (qs [18]%nat) [Num (1 # 1); Num (7 # 2)];
i "QUBIT_COORDS" (qs [19]%nat) [Num (1 # 1); Num (9 # 2)];
i "QUBIT_COORDS" (qs [20]%nat) [Num (1 # 1); Num (11 # 2)];
i "QUBIT_COORDS" (qs [21]%nat) [Num (2 # 1); Num (0 # 1)];
i "QUBIT_COORDS" (qs [22]%nat) [Num (2 # 1); Num (2 # 1)];
i "QUBIT_COORDS" (qs [23]%nat) [Num (2 # 1); Num (4 # 1)];
i "QUBIT_COORDS" (qs [24]%nat) [Num (3 # 1); Num (1 # 2)];
i "QUBIT_COORDS" (qs [25]%nat) [Num (3 # 1); Num (3 # 2)];
i "QUBIT_COORDS" (qs [26]%nat) [Num (3 # 1); Num (5 # 2)];
i "QUBIT_COORDS" (qs [27]%nat) [Num (3 # 1); Num (7 # 2)];
i "QUBIT_COORDS" (qs [28]%nat) [Num (3 # 1); Num (9 # 2)];
i "QUBIT_COORDS" (qs [29]%nat) [Num (3 # 1); Num (11 # 2)];
i "R" (qs [0; 1; 2; 3; 4; 5; 6; 7; 8; 9; 10; 11; 12; 13; 14; 15; 16; 17; 18; 19; 20; 21; 22; 23; 24; 25; 26; 27; 28; 29]%nat) [];
i "X_ERROR" (qs [0; 1; 2; 3; 4; 5; 6; 7; 8; 9; 10; 11; 12; 13; 14; 15; 16; 17; 18; 19; 20; 21; 22; 23; 24; 25; 26; 27; 28; 29]%nat) [Num (1 # 500)];
i "TICK" [] [];
i "C_ZYX" (qs [0; 2; 4; 7; 9; 11]%nat) [];
i "H" (qs [12; 13; 14; 15; 16; 17; 18; 19; 20; 21; 22; 23; 24; 25; 26; 27; 28; 29]%nat) [];
i "DEPOLARIZE1" (qs [0; 2; 4; 7; 9; 11; 12; 13; 14; 15; 16; 17; 18; 19; 20; 21; 22; 23; 24; 25; 26; 27; 28; 29; 1; 3; 5; 6; 8; 10]%nat) [Num (1 # 10000)];
i "TICK" [] [];
i "C_ZYX" (qs [1; 3; 5; 6; 8; 10]%nat) [];
i "CZ" (qs [9; 13; 2; 16; 4; 19; 0; 21; 7; 25; 11; 28]%nat) [];
i "DEPOLARIZE1" (qs [1; 3; 5; 6; 8; 10]%nat) [Num (1 # 10000)];
i "DEPOLARIZE2" (qs [9; 13; 2; 16; 4; 19; 0; 21; 7; 25; 11; 28]%nat) [Num (1 # 1000)];
i "DEPOLARIZE1" (qs [12; 14; 15; 17; 18; 20; 22; 23; 24; 26; 27; 29]%nat) [Num (1 # 10000)];
i "TICK" [] [];
i "C_ZYX" (qs [0; 2; 4; 7; 9; 11]%nat) [];
i "CZ" (qs [3; 13; 1; 16; 5; 19; 6; 21; 8; 25; 10; 28]%nat) [];
i "DEPOLARIZE1" (qs [0; 2; 4; 7; 9; 11]%nat) [Num (1 # 10000)];
i "DEPOLARIZE2" (qs [3; 13; 1; 16; 5; 19; 6; 21; 8; 25; 10; 28]%nat) [Num (1 # 1000)];
i "DEPOLARIZE1" (qs [12; 14; 15; 17; 18; 20; 22; 23; 24; 26; 27; 29]%nat) [Num (1 # 10000)];
i "TICK" [] [];
i "C_ZYX" (qs [1; 3; 5; 6; 8; 10]%nat) [];
i "CZ" (qs [7; 12; 2; 17; 0; 20; 4; 23; 9; 26; 11; 29]%nat) [];
i "DEPOLARIZE1" (qs [1; 3; 5; 6; 8; 10]%nat) [Num (1 # 10000)];
i "DEPOLARIZE2" (qs [7; 12; 2; 17; 0; 20; 4; 23; 9; 26; 11; 29]%nat) [Num (1 # 1000)];
i "DEPOLARIZE1" (qs [13; 14; 15; 16; 18; 19; 21; 22; 24; 25; 27; 28]%nat) [Num (1 # 10000)];
i "TICK" [] [];
i "C_ZYX" (qs [0; 2; 4; 7; 9; 11]%nat) [];
i "CZ" (qs [1; 12; 3; 17; 5; 20; 10; 23; 8; 26; 6; 29]%nat) [];
i "DEPOLARIZE1" (qs [0; 2; 4; 7; 9; 11]%nat) [Num (1 # 10000)];
i "DEPOLARIZE2" (qs [1; 12; 3; 17; 5; 20; 10; 23; 8; 26; 6; 29]%nat) [Num (1 # 1000)];
i "DEPOLARIZE1" (qs [13; 14; 15; 16; 18; 19; 21; 22; 24; 25; 27; 28]%nat) [Num (1 # 10000)];
i "TICK" [] [];
i "C_ZYX" (qs [1; 3; 5; 6; 8; 10]%nat) [];
i "CZ" (qs [11; 14; 0; 15; 4; 18; 2; 22; 7; 24; 9; 27]%nat) [];
i "DEPOLARIZE1" (qs [1; 3; 5; 6; 8; 10]%nat) [Num (1 # 10000)];
i "DEPOLARIZE2" (qs [11; 14; 0; 15; 4; 18; 2; 22; 7; 24; 9; 27]%nat) [Num (1 # 1000)];
i "DEPOLARIZE1" (qs [12; 13; 16; 17; 19; 20; 21; 23; 25; 26; 28; 29]%nat) [Num (1 # 10000)];
i "TICK" [] [];
i "CZ" (qs [5; 14; 1; 15; 3; 18; 8; 22; 6; 24; 10; 27]%nat) [];
i "DEPOLARIZE2" (qs [5; 14; 1; 15; 3; 18; 8; 22; 6; 24; 10; 27]%nat) [Num (1 # 1000)];
i "DEPOLARIZE1" (qs [0; 2; 4; 7; 9; 11; 12; 13; 16; 17; 19; 20; 21; 23; 25; 26; 28; 29]%nat) [Num (1 # 10000)];
i "TICK" [] [];
i "H" (qs [12; 13; 14; 15; 16; 17; 18; 19; 20; 21; 22; 23; 24; 25; 26; 27; 28; 29]%nat) [];
i "DEPOLARIZE1" (qs [12; 13; 14; 15; 16; 17; 18; 19; 20; 21; 22; 23; 24; 25; 26; 27; 28; 29; 0; 1; 2; 3; 4; 5; 6; 7; 8; 9; 10; 11]%nat) [Num (1 # 10000)];
i "TICK" [] [];
i "X_ERROR" (qs [13; 16; 19; 21; 25; 28; 12; 17; 20; 23; 26; 29; 14; 15; 18; 22; 24; 27]%nat) [Num (1 # 200)];
i "M" (qs [13; 16; 19; 21; 25; 28]%nat) [];
i "OBSERVABLE_INCLUDE" (recs [(-5); (-4)]) [Num (0 # 1)];
i "SHIFT_COORDS" [] [Num (0 # 1); Num (0 # 1); Num (1 # 1)];
i "M" (qs [12; 17; 20; 23; 26; 29]%nat) [];
i "OBSERVABLE_INCLUDE" (recs [(-5); (-4)]) [Num (0 # 1)];
i "DETECTOR" (recs [(-12); (-11); (-8); (-6); (-5); (-2)]) [Num (0 # 1); Num (2 # 1); Num (0 # 1)];
i "DETECTOR" (recs [(-10); (-9); (-7); (-4); (-3); (-1)]) [Num (2 # 1); Num (5 # 1); Num (0 # 1)];
i "SHIFT_COORDS" [] [Num (0 # 1); Num (0 # 1); Num (1 # 1)];
i "M" (qs [14; 15; 18; 22; 24; 27]%nat) [];
i "OBSERVABLE_INCLUDE" (recs [(-5); (-4)]) [Num (0 # 1)];
i "SHIFT_COORDS" [] [Num (0 # 1); Num (0 # 1); Num (1 # 1)];
i "DEPOLARIZE1" (qs [0; 1; 2; 3; 4; 5; 6; 7; 8; 9; 10; 11]%nat) [Num (1 # 10000)];
i "DEPOLARIZE1" (qs [0; 1; 2; 3; 4; 5; 6; 7; 8; 9; 10; 11]%nat) [Num (1 # 500)];
i "TICK" [] [];
i "R" (qs [12; 13; 14; 15; 16; 17; 18; 19; 20; 21; 22; 23; 24; 25; 26; 27; 28; 29]%nat) [];
i "X_ERROR" (qs [12; 13; 14; 15; 16; 17; 18; 19; 20; 21; 22; 23; 24; 25; 26; 27; 28; 29]%nat) [Num (1 # 500)];
i "DEPOLARIZE1" (qs [0; 1; 2; 3; 4; 5; 6; 7; 8; 9; 10; 11]%nat) [Num (1 # 10000)];
i "DEPOLARIZE1" (qs [0; 1; 2; 3; 4; 5; 6; 7; 8; 9; 10; 11]%nat) [Num (1 # 500)];
i "TICK" [] [];
i "C_ZYX" (qs [0; 2; 4; 7; 9; 11]%nat) [];
i "H" (qs [12; 13; 14; 15; 16; 17; 18; 19; 20; 21; 22; 23; 24; 25; 26; 27; 28; 29]%nat) [];
i "DEPOLARIZE1" (qs [0; 2; 4; 7; 9; 11; 12; 13; 14; 15; 16; 17; 18; 19; 20; 21; 22; 23; 24; 25; 26; 27; 28; 29; 1; 3; 5; 6; 8; 10]%nat) [Num (1 # 10000)];
i "TICK" [] [];
i "C_ZYX" (qs [1; 3; 5; 6; 8; 10]%nat) [];
i "CZ" (qs [9; 13; 2; 16; 4; 19; 0; 21; 7; 25; 11; 28]%nat) [];
i "DEPOLARIZE1" (qs [1; 3; 5; 6; 8; 10]%nat) [Num (1 # 10000)];
i "DEPOLARIZE2" (qs [9; 13; 2; 16; 4; 19; 0; 21; 7; 25; 11; 28]%nat) [Num (1 # 1000)];
i "DEPOLARIZE1" (qs [12; 14; 15; 17; 18; 20; 22; 23; 24; 26; 27; 29]%nat) [Num (1 # 10000)];
i "TICK" [] [];
i "C_ZYX" (qs [0; 2; 4; 7; 9; 11]%nat) [];
i "CZ" (qs [3; 13; 1; 16; 5; 19; 6; 21; 8; 25; 10; 28]%nat) [];
i "DEPOLARIZE1" (qs [0; 2; 4; 7; 9; 11]%nat) [Num (1 # 10000)];
i "DEPOLARIZE2" (qs [3; 13; 1; 16; 5; 19; 6; 21; 8; 25; 10; 28]%nat) [Num (1 # 1000)];
i "DEPOLARIZE1" (qs [12; 14; 15; 17; 18; 20; 22; 23; 24; 26; 27; 29]%nat) [Num (1 # 10000)];
i "TICK" [] [];
i "C_ZYX" (qs [1; 3; 5; 6; 8; 10]%nat) [];
i "CZ" (qs [7; 12; 2; 17; 0; 20; 4; 23; 9; 26; 11; 29]%nat) [];
i "DEPOLARIZE1" (qs [1; 3; 5; 6; 8; 10]%nat) [Num (1 # 10000)];
i "DEPOLARIZE2" (qs [7; 12; 2; 17; 0; 20; 4; 23; 9; 26; 11; 29]%nat) [Num (1 # 1000)];
i "DEPOLARIZE1" (qs [13; 14; 15; 16; 18; 19; 21; 22; 24; 25; 27; 28]%nat) [Num (1 # 10000)];
i "TICK" [] [];
i "C_ZYX" (qs [0; 2; 4; 7; 9; 11]%nat) [];
i "CZ" (qs [1; 12; 3; 17; 5; 20; 10; 23; 8; 26; 6; 29]%nat) [];
i "DEPOLARIZE1" (qs [0; 2; 4; 7; 9; 11]%nat) [Num (1 # 10000)];
i "DEPOLARIZE2" (qs [1; 12; 3; 17; 5; 20; 10; 23; 8; 26; 6; 29]%nat) [Num (1 # 1000)];
i "DEPOLARIZE1" (qs [13; 14; 15; 16; 18; 19; 21; 22; 24; 25; 27; 28]%nat) [Num (1 # 10000)];
i "TICK" [] [];
i "C_ZYX" (qs [1; 3; 5; 6; 8; 10]%nat) [];
i "CZ" (qs [11; 14; 0; 15; 4; 18; 2; 22; 7; 24; 9; 27]%nat) [];
i "DEPOLARIZE1" (qs [1; 3; 5; 6; 8; 10]%nat) [Num (1 # 10000)];
i "DEPOLARIZE2" (qs [11; 14; 0; 15; 4; 18; 2; 22; 7; 24; 9; 27]%nat) [Num (1 # 1000)];
i "DEPOLARIZE1" (qs [12; 13; 16; 17; 19; 20; 21; 23; 25; 26; 28; 29]%nat) [Num (1 # 10000)];
i "TICK" [] [];
i "CZ" (qs [5; 14; 1; 15; 3; 18; 8; 22; 6; 24; 10; 27]%nat) [];
i "DEPOLARIZE2" (qs [5; 14; 1; 15; 3; 18; 8; 22; 6; 24; 10; 27]%nat) [Num (1 # 1000)];
i "DEPOLARIZE1" (qs [0; 2; 4; 7; 9; 11; 12; 13; 16; 17; 19; 20; 21; 23; 25; 26; 28; 29]%nat) [Num (1 # 10000)];
i "TICK" [] [];
i "H" (qs [12; 13; 14; 15; 16; 17; 18; 19; 20; 21; 22; 23; 24; 25; 26; 27; 28; 29]%nat) [];
i "DEPOLARIZE1" (qs [12; 13; 14; 15; 16; 17; 18; 19; 20; 21; 22; 23; 24; 25; 26; 27; 28; 29; 0; 1; 2; 3; 4; 5; 6; 7; 8; 9; 10; 11]%nat) [Num (1 # 10000)];
i "TICK" [] [];
i "X_ERROR" (qs [13; 16; 19; 21; 25; 28; 12; 17; 20; 23; 26; 29; 14; 15; 18; 22; 24; 27]%nat) [Num (1 # 200)];
i "M" (qs [13; 16; 19; 21; 25; 28]%nat) [];
i "OBSERVABLE_INCLUDE" (recs [(-5); (-4)]) [Num (0 # 1)];
i "DETECTOR" (recs [(-24); (-22); (-19); (-12); (-10); (-7); (-6); (-4); (-1)]) [Num (0 # 1); Num (4 # 1); Num (0 # 1)];
i "DETECTOR" (recs [(-23); (-21); (-20); (-11); (-9); (-8); (-5); (-3); (-2)]) [Num (2 # 1); Num (1 # 1); Num (0 # 1)];
i "SHIFT_COORDS" [] [Num (0 # 1); Num (0 # 1); Num (1 # 1)];
i "M" (qs [12; 17; 20; 23; 26; 29]%nat) [];
i "OBSERVABLE_INCLUDE" (recs [(-5); (-4)]) [Num (0 # 1)];
i "DETECTOR" (recs [(-30); (-29); (-26); (-24); (-23); (-20); (-12); (-11); (-8); (-6); (-5); (-2)]) [Num (0 # 1); Num (2 # 1); Num (0 # 1)];
i "DETECTOR" (recs [(-28); (-27); (-25); (-22); (-21); (-19); (-10); (-9); (-7); (-4); (-3); (-1)]) [Num (2 # 1); Num (5 # 1); Num (0 # 1)];
i "SHIFT_COORDS" [] [Num (0 # 1); Num (0 # 1); Num (1 # 1)];
i "M" (qs [14; 15; 18; 22; 24; 27]%nat) [];
i "OBSERVABLE_INCLUDE" (recs [(-5); (-4)]) [Num (0 # 1)];
i "DETECTOR" (recs [(-30); (-28); (-25); (-24); (-23); (-20); (-12); (-10); (-7); (-6); (-5); (-2)]) [Num (0 # 1); Num (0 # 1); Num (0 # 1)];
i "DETECTOR" (recs [(-29); (-27); (-26); (-22); (-21); (-19); (-11); (-9); (-8); (-4); (-3); (-1)]) [Num (2 # 1); Num (3 # 1); Num (0 # 1)];
i "SHIFT_COORDS" [] [Num (0 # 1); Num (0 # 1); Num (1 # 1)];
i "DEPOLARIZE1" (qs [0; 1; 2; 3; 4; 5; 6; 7; 8; 9; 10; 11]%nat) [Num (1 # 10000)];
i "DEPOLARIZE1" (qs [0; 1; 2; 3; 4; 5; 6; 7; 8; 9; 10; 11]%nat) [Num (1 # 500)];
i "TICK" [] [];
Rep 298 [
i "R" (qs [12; 13; 14; 15; 16; 17; 18; 19; 20; 21; 22; 23; 24; 25; 26; 27; 28; 29]%nat) [];
i "X_ERROR" (qs [12; 13; 14; 15; 16; 17; 18; 19; 20; 21; 22; 23; 24; 25; 26; 27; 28; 29]%nat) [Num (1 # 500)];
i "DEPOLARIZE1" (qs [0; 1; 2; 3; 4; 5; 6; 7; 8; 9; 10; 11]%nat) [Num (1 # 10000)];
i "DEPOLARIZE1" (qs [0; 1; 2; 3; 4; 5; 6; 7; 8; 9; 10; 11]%nat) [Num (1 # 500)];
i "TICK" [] [];
i "C_ZYX" (qs [0; 2; 4; 7; 9; 11]%nat) [];
i "H" (qs [12; 13; 14; 15; 16; 17; 18; 19; 20; 21; 22; 23; 24; 25; 26; 27; 28; 29]%nat) [];
i "DEPOLARIZE1" (qs [0; 2; 4; 7; 9; 11; 12; 13; 14; 15; 16; 17; 18; 19; 20; 21; 22; 23; 24; 25; 26; 27; 28; 29; 1; 3; 5; 6; 8; 10]%nat) [Num (1 # 10000)];
i "TICK" [] [];
i "C_ZYX" (qs [1; 3; 5; 6; 8; 10]%nat) [];
i "CZ" (qs [9; 13; 2; 16; 4; 19; 0; 21; 7; 25; 11; 28]%nat) [];
i "DEPOLARIZE1" (qs [1; 3; 5; 6; 8; 10]%nat) [Num (1 # 10000)];
i "DEPOLARIZE2" (qs [9; 13; 2; 16; 4; 19; 0; 21; 7; 25; 11; 28]%nat) [Num (1 # 1000)];
i "DEPOLARIZE1" (qs [12; 14; 15; 17; 18; 20; 22; 23; 24; 26; 27; 29]%nat) [Num (1 # 10000)];
i "TICK" [] [];
i "C_ZYX" (qs [0; 2; 4; 7; 9; 11]%nat) [];
i "CZ" (qs [3; 13; 1; 16; 5; 19; 6; 21; 8; 25; 10; 28]%nat) [];
i "DEPOLARIZE1" (qs [0; 2; 4; 7; 9; 11]%nat) [Num (1 # 10000)];
i "DEPOLARIZE2" (qs [3; 13; 1; 16; 5; 19; 6; 21; 8; 25; 10; 28]%nat) [Num (1 # 1000)];
i "DEPOLARIZE1" (qs [12; 14; 15; 17; 18; 20; 22; 23; 24; 26; 27; 29]%nat) [Num (1 # 10000)];
i "TICK" [] [];
i "C_ZYX" (qs [1; 3; 5; 6; 8; 10]%nat) [];
i "CZ" (qs [7; 12; 2; 17; 0; 20; 4; 23; 9; 26; 11; 29]%nat) [];
i "DEPOLARIZE1" (qs [1; 3; 5; 6; 8; 10]%nat) [Num (1 # 10000)];
i "DEPOLARIZE2" (qs [7; 12; 2; 17; 0; 20; 4; 23; 9; 26; 11; 29]%nat) [Num (1 # 1000)];
i "DEPOLARIZE1" (qs [13; 14; 15; 16; 18; 19; 21; 22; 24; 25; 27; 28]%nat) [Num (1 # 10000)];
i "TICK" [] [];
i "C_ZYX" (qs [0; 2; 4; 7; 9; 11]%nat) [];
i "CZ" (qs [1; 12; 3; 17; 5; 20; 10; 23; 8; 26; 6; 29]%nat) [];
i "DEPOLARIZE1" (qs [0; 2; 4; 7; 9; 11]%nat) [Num (1 # 10000)];
i "DEPOLARIZE2" (qs [1; 12; 3; 17; 5; 20; 10; 23; 8; 26; 6; 29]%nat) [Num (1 # 1000)];
i "DEPOLARIZE1" (qs [13; 14; 15; 16; 18; 19; 21; 22; 24; 25; 27; 28]%nat) [Num (1 # 10000)];
i "TICK" [] [];
i "C_ZYX" (qs [1; 3; 5; 6; 8; 10]%nat) [];
i "CZ" (qs [11; 14; 0; 15; 4; 18; 2; 22; 7; 24; 9; 27]%nat) [];
i "DEPOLARIZE1" (qs [1; 3; 5; 6; 8; 10]%nat) [Num (1 # 10000)];
i "DEPOLARIZE2" (qs [11; 14; 0; 15; 4; 18; 2; 22; 7; 24; 9; 27]%nat) [Num (1 # 1000)];
i "DEPOLARIZE1" (qs [12; 13; 16; 17; 19; 20; 21; 23; 25; 26; 28; 29]%nat) [Num (1 # 10000)];
i "TICK" [] [];
i "CZ" (qs [5; 14; 1; 15; 3; 18; 8; 22; 6; 24; 10; 27]%nat) [];
i "DEPOLARIZE2" (qs [5; 14; 1; 15; 3; 18; 8; 22; 6; 24; 10; 27]%nat) [Num (1 # 1000)];
i "DEPOLARIZE1" (qs [0; 2; 4; 7; 9; 11; 12; 13; 16; 17; 19; 20; 21; 23; 25; 26; 28; 29]%nat) [Num (1 # 10000)];
i "TICK" [] [];
i "H" (qs [12; 13; 14; 15; 16; 17; 18; 19; 20; 21; 22; 23; 24; 25; 26; 27; 28; 29]%nat) [];
i "DEPOLARIZE1" (qs [12; 13; 14; 15; 16; 17; 18; 19; 20; 21; 22; 23; 24; 25; 26; 27; 28; 29; 0; 1; 2; 3; 4; 5; 6; 7; 8; 9; 10; 11]%nat) [Num (1 # 10000)];
i "TICK" [] [];
i "X_ERROR" (qs [13; 16; 19; 21; 25; 28; 12; 17; 20; 23; 26; 29; 14; 15; 18; 22; 24; 27]%nat) [Num (1 # 200)];
i "M" (qs [13; 16; 19; 21; 25; 28]%nat) [];
i "OBSERVABLE_INCLUDE" (recs [(-5); (-4)]) [Num (0 # 1)];
i "DETECTOR" (recs [(-30); (-28); (-25); (-24); (-22); (-19); (-12); (-10); (-7); (-6); (-4); (-1)]) [Num (0 # 1); Num (4 # 1); Num (0 # 1)];
i "DETECTOR" (recs [(-29); (-27); (-26); (-23); (-21); (-20); (-11); (-9); (-8); (-5); (-3); (-2)]) [Num (2 # 1); Num (1 # 1); Num (0 # 1)];
i "SHIFT_COORDS" [] [Num (0 # 1); Num (0 # 1); Num (1 # 1)];
i "M" (qs [12; 17; 20; 23; 26; 29]%nat) [];
i "OBSERVABLE_INCLUDE" (recs [(-5); (-4)]) [Num (0 # 1)];
i "DETECTOR" (recs [(-30); (-29); (-26); (-24); (-23); (-20); (-12); (-11); (-8); (-6); (-5); (-2)]) [Num (0 # 1); Num (2 # 1); Num (0 # 1)];
i "DETECTOR" (recs [(-28); (-27); (-25); (-22); (-21); (-19); (-10); (-9); (-7); (-4); (-3); (-1)]) [Num (2 # 1); Num (5 # 1); Num (0 # 1)];
i "SHIFT_COORDS" [] [Num (0 # 1); Num (0 # 1); Num (1 # 1)];
i "M" (qs [14; 15; 18; 22; 24; 27]%nat) [];
i "OBSERVABLE_INCLUDE" (recs [(-5); (-4)]) [Num (0 # 1)];
i "DETECTOR" (recs [(-30); (-28); (-25); (-24); (-23); (-20); (-12); (-10); (-7); (-6); (-5); (-2)]) [Num (0 # 1); Num (0 # 1); Num (0 # 1)];
i "DETECTOR" (recs [(-29); (-27); (-26); (-22); (-21); (-19); (-11); (-9); (-8); (-4); (-3); (-1)]) [Num (2 # 1); Num (3 # 1); Num (0 # 1)];
i "SHIFT_COORDS" [] [Num (0 # 1); Num (0 # 1); Num (1 # 1)];
i "DEPOLARIZE1" (qs [0; 1; 2; 3; 4; 5; 6; 7; 8; 9; 10; 11]%nat) [Num (1 # 10000)];
i "DEPOLARIZE1" (qs [0; 1; 2; 3; 4; 5; 6; 7; 8; 9; 10; 11]%nat) [Num (1 # 500)];
i "TICK" [] []];
i "X_ERROR" (qs [0; 1; 2; 3; 4; 5; 6; 7; 8; 9; 10; 11]%nat) [Num (1 # 200)];
i "M" (qs [0; 1; 2; 3; 4; 5; 6; 7; 8; 9; 10; 11]%nat) [];
i "DETECTOR" (recs [(-18); (-7); (-1)]) [Num (0 # 1); Num (5 # 1); Num (0 # 1)];
i "DETECTOR" (recs [(-17); (-12); (-11)]) [Num (1 # 1); Num (1 # 2); Num (0 # 1)];
i "DETECTOR" (recs [(-16); (-9); (-8)]) [Num (1 # 1); Num (7 # 2); Num (0 # 1)];
i "DETECTOR" (recs [(-15); (-10); (-4)]) [Num (2 # 1); Num (2 # 1); Num (0 # 1)];
i "DETECTOR" (recs [(-14); (-6); (-5)]) [Num (3 # 1); Num (1 # 2); Num (0 # 1)];
i "DETECTOR" (recs [(-13); (-3); (-2)]) [Num (3 # 1); Num (7 # 2); Num (0 # 1)];
i "DETECTOR" (recs [(-30); (-29); (-26); (-24); (-23); (-20); (-11); (-10); (-9); (-5); (-4); (-3)]) [Num (0 # 1); Num (2 # 1); Num (0 # 1)];
i "DETECTOR" (recs [(-28); (-27); (-25); (-22); (-21); (-19); (-12); (-8); (-7); (-6); (-2); (-1)]) [Num (2 # 1); Num (5 # 1); Num (0 # 1)];
i "OBSERVABLE_INCLUDE" (recs [(-11); (-10); (-8); (-7)]) [Num (0 # 1)];
i "DEPOLARIZE1" (qs [12; 13; 14; 15; 16; 17; 18; 19; 20; 21; 22; 23; 24; 25; 26; 27; 28; 29]%nat) [Num (1 # 10000)];
i "DEPOLARIZE1" (qs [12; 13; 14; 15; 16; 17; 18; 19; 20; 21; 22; 23; 24; 25; 26; 27; 28; 29]%nat) [Num (1 # 500)]].

Example golden_SI1000 : matches (golden_layout 900 "SI1000" "V") expected_SI1000 = true.
Proof. vm_compute. reflexivity. Qed.
