(** src/circuit_diagrams.py: text pictures of circuits.

    Complex numbers are pairs of exact rationals; text is a list of characters; dicts
    are association lists in insertion order. *)
From Coq Require Import QArith Qround Ascii.
From Verif Require Import Prelude Layout Stim Noise Text Collect.
Open Scope Z_scope.

(** lines 12-21, one repetition of a list of items.  [flatten] of a body stands for no
    other code: a repeat block below level 0 repeats its body's iteration. *)
Fixpoint iter_item (nested : Z) (x : item) : list instr :=
  match x with
  | Rep n body => concat (repeat (flat_map (iter_item (nested - 1)) body) (Z.to_nat (if nested <=? 0 then n else 1)))
  | I op => if (nested <=? 0) || (iname op =? "QUBIT_COORDS")%string then [op] else []
  end.
(** lines 12-21: _iter_circuit *)
Definition iter_circuit (c : circuit) (reps : Z) (nested : Z) : list instr :=
  concat (repeat (flat_map (iter_item nested) c) (Z.to_nat reps)).

(** A complex number. *)
Definition cplx := (Q * Q)%type.
(** a == b *)
Definition cplx_eqb (a b : cplx) : bool := Qeq_bool (fst a) (fst b) && Qeq_bool (snd a) (snd b).
(** d[k] = v *)
Definition dset {K V} (eqb : K -> K -> bool) (k : K) (v : V) (l : list (K * V)) : list (K * V) := dupd eqb k v (fun _ => v) l.
(** int(x), truncation towards zero *)
Definition int_of (x : Q) : Z := Z.quot (Qnum x) (Zpos (Qden x)).
(** max(xs), for a non-empty list *)
Definition qmax (x : Q) (l : list Q) : Q := fold_left (fun a b => if Qle_bool b a then a else b) l x.
(** min(xs), for a non-empty list *)
Definition qmin (x : Q) (l : list Q) : Q := fold_left (fun a b => if Qle_bool a b then a else b) l x.
(** max(xs), ValueError for no values *)
Definition max_of (l : list Q) : res Q := match l with [] => Err ValueError | x :: r => Ok (qmax x r) end.
(** min(xs), ValueError for no values *)
Definition min_of (l : list Q) : res Q := match l with [] => Err ValueError | x :: r => Ok (qmin x r) end.

(** str.rstrip() on the ASCII white space characters *)
Definition is_space (c : ascii) : bool :=
  let n := nat_of_ascii c in ((9 <=? n)%nat && (n <=? 13)%nat) || ((28 <=? n)%nat && (n <=? 32)%nat).
(** str.lstrip *)
Fixpoint lstrip (l : list ascii) : list ascii := match l with [] => [] | c :: r => if is_space c then lstrip r else l end.
(** str.rstrip *)
Definition rstrip (l : list ascii) : list ascii := rev (lstrip (rev l)).
(** a blank *)
Definition sp : ascii := " "%char.
(** the character of a line break *)
Definition newline : ascii := ascii_of_nat 10.

(** lines 34-38: one cell appended to a line; the line is kept reversed *)
Fixpoint eat (k : nat) (line : list ascii) : res (list ascii) :=
  match k with
  | O => Ok line
  | S k => match line with c :: r => if Ascii.eqb c sp then eat k r else Err AssertionError | [] => Err AssertionError end
  end.
(** lines 35-38 *)
Definition add_cell (line : list ascii) (c : list ascii) : res (list ascii) :=
  let! line := eat (length c - 1) line in Ok (rev c ++ line).
(** the text of one cell, line 34 *)
Definition cell (values : list (cplx * string)) (x y : Z) : list ascii :=
  match dget cplx_eqb (inject_Z x, inject_Z y) values with Some s => list_ascii_of_string s | None => [sp] end.
(** lines 33-38: the cells of one row *)
Fixpoint row_from (values : list (cplx * string)) (y : Z) (xs : list Z) (line : list ascii) : res (list ascii) :=
  match xs with
  | [] => Ok (rev line)
  | x :: r => let! line := add_cell line (cell values x y) in row_from values y r line
  end.
(** lines 24-40; the values are strings already *)
Definition diagram_2d (values : list (cplx * string)) : res string :=
  let! _ := assert_ (forallb (fun '((a, _), _) => Qeq_bool a (inject_Z (int_of a))) values) in
  let! _ := assert_ (forallb (fun '((_, b), _) => Qeq_bool b (inject_Z (int_of b))) values) in
  let! _ := assert_ (forallb (fun '((a, b), _) => Qle_bool 0 a && Qle_bool 0 b) values) in
  let w := int_of (match map (fun v => fst (fst v)) values with [] => 0 | x :: r => qmax x r end + 1)%Q in
  let h := int_of (match map (fun v => snd (fst v)) values with [] => 0 | x :: r => qmax x r end + 1)%Q in
  let! rows := mapM (fun y => row_from values y (zrange 0 w) []) (zrange 0 h) in
  Ok (string_of_list_ascii (rstrip (flat_map (fun line => rstrip line ++ [newline]) rows))).

(** one level: the symbols at positions *)
Definition level := list (cplx * string).
(** the connectors of one level *)
Definition links := list (cplx * cplx).
(** 0.5 *)
Definition half : Q := 1 # 2.

(** lines 52-56, for n levels *)
Definition plot (n : Z) (xy : cplx) (z : Z) : Z * Z :=
  (Qceiling ((snd xy + 2) * inject_Z (n + 3) + inject_Z z), Qceiling ((fst xy + 1) * inject_Z (n + 2) + inject_Z z)).
(** equality of places on the canvas *)
Definition zpair_eqb (a b : Z * Z) : bool := (fst a =? fst b) && (snd a =? snd b).

(** lines 65-87: the segments and end marks of one connector *)
Definition connector (n : Z) (min_r max_r min_i max_i : Q) (z : Z) (ab : cplx * cplx) : list ((Z * Z) * (Z * Z)) * list (Z * Z) :=
  let '(a, b) := ab in
  let v1 := if Qle_bool (fst a) (fst b) then fst a else fst b in
  let v2 := if Qle_bool (fst a) (fst b) then fst b else fst a in
  let w1 := if Qle_bool (snd a) (snd b) then snd a else snd b in
  let w2 := if Qle_bool (snd a) (snd b) then snd b else snd a in
  if Qeq_bool v1 min_r && Qeq_bool v2 max_r then
    let p1 := plot n (v1, snd a) z in let q1 := plot n (v1 - half, snd a)%Q z in
    let p2 := plot n (v2, snd b) z in let q2 := plot n (v2 + half, snd b)%Q z in
    ([(p1, q1); (p2, q2)], [q1; q2])
  else if Qeq_bool w1 min_i && Qeq_bool w2 max_i then
    let p1 := plot n (fst a, w1) z in let q1 := plot n (fst a, w1 - half)%Q z in
    let p2 := plot n (fst b, w2) z in let q2 := plot n (fst b, w2 + half)%Q z in
    ([(p1, q1); (p2, q2)], [q1; q2])
  else ([(plot n a z, plot n b z)], []).

(** lines 89-112: drawing one segment *)
Definition draw_v (proj : list ((Z * Z) * string)) (key : Z * Z) : list ((Z * Z) * string) :=
  let old := match dget zpair_eqb key proj with Some s => s | None => " "%string end in
  dset zpair_eqb key (if (old =? "-")%string || (old =? "+")%string then "+"%string else "|"%string) proj.
(** lines 105-112: one character of a horizontal stroke *)
Definition draw_h (proj : list ((Z * Z) * string)) (key : Z * Z) : list ((Z * Z) * string) :=
  let old := match dget zpair_eqb key proj with Some s => s | None => " "%string end in
  dset zpair_eqb key (if (old =? "|")%string || (old =? "+")%string then "+"%string else if (old =? "-")%string then "="%string else "-"%string) proj.
(** lines 91-112: one connector *)
Definition draw (proj : list ((Z * Z) * string)) (seg : (Z * Z) * (Z * Z)) : list ((Z * Z) * string) :=
  let '(p1, p2) := seg in
  let proj := if fst p1 =? fst p2 then fold_left draw_v (map (fun k => (fst p1, k)) (zrange (Z.min (snd p1) (snd p2)) (Z.max (snd p1) (snd p2) + 1))) proj else proj in
  if snd p1 =? snd p2 then fold_left draw_h (map (fun k => (k, snd p1)) (zrange (Z.min (fst p1) (fst p2)) (Z.max (fst p1) (fst p2) + 1))) proj else proj.

(** enumerate(l) *)
Definition enumerate {A} (l : list A) : list (Z * A) := combine (zrange 0 (Z.of_nat (length l))) l.
(** lines 43-117 *)
Definition plotted_values (n : Z) (values : list level) : list ((Z * Z) * string) :=
  fold_left (fun d '(k, c) => dset zpair_eqb k c d)
    (flat_map (fun '(z, vs) => map (fun '(xy, c) => (plot n xy z, c)) vs) (enumerate values)) [].
(** lines 43-117 *)
Definition diagram_3d (values : list level) (connector_levels : list links) : res string :=
  let keys := flat_map (map fst) values in
  let! min_r := min_of (map fst keys) in
  let! max_r := max_of (map fst keys) in
  let! min_i := min_of (map snd keys) in
  let! max_i := max_of (map snd keys) in
  let n := Z.of_nat (length values) in
  let drawn := map (fun '(z, (lvl, _)) => map (connector n min_r max_r min_i max_i z) lvl) (enumerate (combine connector_levels values)) in
  let segments := flat_map fst (concat drawn) in
  let marks := flat_map snd (concat drawn) in
  let plotted := fold_left (fun d k => dset zpair_eqb k "~"%string d) marks (plotted_values n values) in
  let projected := fold_left draw segments [] in
  let projected := fold_left (fun d '(k, c) => dset zpair_eqb k c d) plotted projected in
  diagram_2d (map (fun '((x, y), c) => ((inject_Z x, inject_Z y), c)) projected).

(** lines 120-204 *)
Record plot_state := mkPlot {
  i2q : list (nat * cplx); seen_coords : list cplx;
  done_levels : list level; done_links : list links;
  cur_level : level; cur_links : links }.
(** lines 121-126: the variables at the start *)
Definition plot_start : plot_state := mkPlot [] [] [] [] [] [].
(** t.value, for targets that are qubits *)
Definition value_of (t : target) : res nat := match t with TQ q | TP _ q => Ok q | _ => Err ValueError end.
(** lines 131-132; unpacking another number of arguments raises ValueError *)
Definition coords_of (args : list num) : res cplx :=
  match args with [Num r; Num i] => Ok (r, i * 2)%Q | _ => Err ValueError end.
(** i2q[q] *)
Definition lookup_qubit (s : plot_state) (q : nat) : res cplx := match dget Nat.eqb q (i2q s) with Some p => Ok p | None => Err KeyError end.
(** assert q not in cur_level; cur_level[q] = c *)
Definition put_symbol (s : plot_state) (q : cplx) (c : string) : res plot_state :=
  let! _ := assert_ (negb (existsb (cplx_eqb q) (map fst (cur_level s)))) in
  Ok (mkPlot (i2q s) (seen_coords s) (done_levels s) (done_links s) (cur_level s ++ [(q, c)]) (cur_links s)).
(** cur_connectors.append((a, b)) *)
Definition add_link (s : plot_state) (a b : cplx) : plot_state :=
  mkPlot (i2q s) (seen_coords s) (done_levels s) (done_links s) (cur_level s) (cur_links s ++ [(a, b)]).
(** a for loop whose body may raise *)
Fixpoint foldM {A B} (f : A -> B -> res A) (l : list B) (a : A) : res A :=
  match l with [] => Ok a | x :: r => let! a := f a x in foldM f r a end.
(** lines 129-136 *)
Definition declare_qubit (args : list num) (s : plot_state) (t : target) : res plot_state :=
  let! q := value_of t in
  let! p := coords_of args in
  let! _ := assert_ (negb (existsb (Nat.eqb q) (map fst (i2q s)))) in
  let! _ := assert_ (negb (existsb (cplx_eqb p) (seen_coords s))) in
  Ok (mkPlot (i2q s ++ [(q, p)]) (seen_coords s ++ [p]) (done_levels s) (done_links s) (cur_level s) (cur_links s)).
(** lines 138-146 *)
Definition symbol_1 (name : string) : string :=
  if (name =? "H_YZ")%string then "G"
  else if (name =? "C_XYZ")%string || (name =? "C_ZYX")%string then "C"
  else if (name =? "MX")%string || (name =? "MY")%string then "m"
  else if (name =? "MR")%string then "D" else name.
(** lines 147-150 *)
Definition plot_1 (name : string) (s : plot_state) (t : target) : res plot_state :=
  let! v := value_of t in let! q := lookup_qubit s v in put_symbol s q (symbol_1 name).
(** lines 157, 159 *)
Definition symbol_first (name : string) : string :=
  if (String.length name =? 2)%nat then "@"%string else substring 0 1 name.
(** op.name[-1], line 159 *)
Definition symbol_second (name : string) : string := substring (String.length name - 1) 1 name.
(** lines 152-160 *)
Fixpoint plot_pairs (name : string) (s : plot_state) (l : list nat) : res plot_state :=
  match l with
  | [] => Ok s
  | [a] => let! q1 := lookup_qubit s a in Err IndexError
  | a :: b :: r =>
      let! q1 := lookup_qubit s a in
      let! q2 := lookup_qubit s b in
      let! s := put_symbol s q1 (symbol_first name) in
      let! s := put_symbol s q2 (symbol_second name) in
      plot_pairs name (add_link s q1 q2) r
  end.
(** lines 171-179; None where pop() meets an empty list: IndexError *)
Definition split_step (groups : list (list target)) (t : target) : res (list (list target)) :=
  match t with
  | TComb => match groups with [] => Err IndexError | _ => Ok (removelast groups) end
  | _ => match groups with [] => Err IndexError | _ => Ok (removelast groups ++ [last groups [] ++ [t]; []]) end
  end.
(** lines 171-179 *)
Definition mpp_groups (ts : list target) : res (list (list target)) :=
  let! groups := foldM split_step ts [[]] in
  match groups with [] => Err IndexError | _ => Ok (removelast groups) end.
(** lines 182-194 *)
Definition plot_factor (s : plot_state) (t : target) : res plot_state :=
  let! v := value_of t in
  let! q := lookup_qubit s v in
  match t with
  | TP PX _ => put_symbol s q "x" | TP PY _ => put_symbol s q "y" | TP PZ _ => put_symbol s q "z"
  | _ => let! _ := assert_ (negb (existsb (cplx_eqb q) (map fst (cur_level s)))) in Err NotImplementedError
  end.
(** lines 181-194: one product *)
Definition plot_group (s : plot_state) (g : list target) : res plot_state :=
  let! _ := assert_ ((1 <=? length g)%nat && (length g <=? 2)%nat) in
  let! s := foldM plot_factor g s in
  match g with
  | [a; b] => let! va := value_of a in let! vb := value_of b in
              let! qa := lookup_qubit s va in let! qb := lookup_qubit s vb in Ok (add_link s qa qb)
  | _ => Ok s
  end.
(** lines 128-196 *)
Definition plot_op (s : plot_state) (op : instr) : res plot_state :=
  let name := iname op in
  if (name =? "QUBIT_COORDS")%string then foldM (declare_qubit (iargs op)) (itargets op) s
  else if in_names name ["M"; "R"; "H"; "H_YZ"; "C_XYZ"; "C_ZYX"; "MR"; "MY"; "MX"]%string then foldM (plot_1 name) (itargets op) s
  else if in_names name ANY_CLIFFORD_2_OPS then let! l := mapM value_of (itargets op) in plot_pairs name s l
  else if (name =? "TICK")%string then
    Ok (mkPlot (i2q s) (seen_coords s) (done_levels s ++ [cur_level s]) (done_links s ++ [cur_links s]) [] [])
  else if in_names name ["DETECTOR"; "OBSERVABLE_INCLUDE"; "SHIFT_COORDS"]%string then Ok s
  else if in_names name ["X_ERROR"; "DEPOLARIZE1"; "DEPOLARIZE2"]%string then Ok s
  else if (name =? "MPP")%string then let! groups := mpp_groups (itargets op) in foldM plot_group groups s
  else Err NotImplementedError.
(** lines 197-203 *)
Definition fill_level (qubits : list cplx) (l : level) : level :=
  fold_left (fun l q => if existsb (cplx_eqb q) (map fst l) then l else l ++ [(q, "\"%string)]) qubits l.
(** lines 121-203: levels and connectors *)
Definition plot_levels (c : circuit) (only_repeat_block : bool) : res (list level * list links) :=
  let! s := foldM plot_op (iter_circuit c 1 (if only_repeat_block then 1 else 0)) plot_start in
  let '(levels, conns) := match cur_level s with [] => (done_levels s, done_links s) | _ => (done_levels s ++ [cur_level s], done_links s ++ [cur_links s]) end in
  Ok (map (fill_level (map snd (i2q s))) levels, conns).
(** lines 120-204 *)
Definition plot_circuit (c : circuit) (only_repeat_block : bool) : res string :=
  let! (levels, conns) := plot_levels c only_repeat_block in diagram_3d levels conns.
