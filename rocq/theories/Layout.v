(** Model of src/honeycomb_layout.py.

    Positions: a Python [complex] x + y*1j is the pair (2*x, 2*y) of integers;
    every position the layout computes is a multiple of 1/2, so nothing is lost
    and float arithmetic on it is exact.  Functions with [functools] caches are
    modelled without the cache (they are pure). *)
From Verif Require Import Prelude.
From Coq Require Import QArith.
Open Scope Z_scope.

(** ** Python dicts (insertion ordered) *)
Section Dict.
  Context {K V : Type} (eqb : K -> K -> bool).
  (** d[k] = v : overwrite in place, or append a new key at the end. *)
  Fixpoint dict_set (k : K) (v : V) (d : list (K * V)) : list (K * V) :=
    match d with
    | [] => [(k, v)]
    | (k', v') :: r => if eqb k k' then (k', v) :: r else (k', v') :: dict_set k v r
    end.
  (** d.get(k) *)
  Fixpoint dict_get (k : K) (d : list (K * V)) : option V :=
    match d with
    | [] => None
    | (k', v') :: r => if eqb k k' then Some v' else dict_get k r
    end.
  (** {k: v for k, v in kvs} *)
  Definition dict_of (kvs : list (K * V)) : list (K * V) :=
    fold_left (fun d kv => dict_set (fst kv) (snd kv) d) kvs [].
End Dict.

(** ** Positions *)
Definition cpx := (Z * Z)%type.

(** a == b on positions *)
Definition cpx_eqb (a b : cpx) : bool := (fst a =? fst b) && (snd a =? snd b).
(** equality of positions is decidable (for sets of positions) *)
Definition cpx_dec : forall a b : cpx, {a = b} + {a <> b}.
Proof. decide equality; apply Z.eq_dec. Defined.

(** The position x + y*1j for integers x, y. *)
Definition pos (x y : Z) : cpx := (2 * x, 2 * y).
(** a + b *)
Definition cadd (a b : cpx) : cpx := (fst a + fst b, snd a + snd b).
(** a - b *)
Definition csub (a b : cpx) : cpx := (fst a - fst b, snd a - snd b).
(** k * a *)
Definition cscale (k : Z) (a : cpx) : cpx := (k * fst a, k * snd a).
(** (a + b) / 2; exact because the code only averages integer positions. *)
Definition cmid (a b : cpx) : cpx := ((fst a + fst b) / 2, (snd a + snd b) / 2).

(** honeycomb_layout.py 428-429: sort key (v.real, v.imag). *)
Definition clex_leb (a b : cpx) : bool :=
  (fst a <? fst b) || ((fst a =? fst b) && (snd a <=? snd b)).
(** honeycomb_layout.py 428-429 *)
Definition sorted_complex (l : list cpx) : list cpx := isort clex_leb l.

(** honeycomb_layout.py 14-16: (q.real // 2 + q.imag) % 2 != 0, in half units. *)
Definition data_qubit_parity (q : cpx) : bool :=
  negb ((2 * (fst q / 4) + snd q) mod 4 =? 0).

(** ** Paulis: the characters X, Y, Z, indexed as in "XYZ". *)
Inductive pauli := PX | PY | PZ.
(** a == b on the characters X, Y, Z *)
Definition pauli_eqb (a b : pauli) : bool :=
  match a, b with PX, PX | PY, PY | PZ, PZ => true | _, _ => false end.
(** "XYZ"[k % 3] (honeycomb_layout.py 168-169, honeycomb_circuit.py 83). *)
Definition xyz (k : Z) : pauli :=
  match k mod 3 with 0 => PX | 1 => PY | _ => PZ end.
(** "XYZ".index(c). *)
Definition xyz_index (p : pauli) : Z := match p with PX => 0 | PY => 1 | PZ => 2 end.

(** ** Edges *)
(** honeycomb_layout.py 19-44.  Equality of edges is equality of the triple. *)
Record edge := mkEdge { e_left : cpx; e_right : cpx; e_center : cpx }.
(** equality of edges is decidable *)
Definition edge_dec : forall a b : edge, {a = b} + {a <> b}.
Proof. decide equality; apply cpx_dec. Defined.
(** Edge.__eq__, lines 30-36 *)
Definition edge_eqb (a b : edge) : bool :=
  cpx_eqb (e_left a) (e_left b) && cpx_eqb (e_right a) (e_right b)
  && cpx_eqb (e_center a) (e_center b).

(** Strict tuple comparison (parity, real, imag) > (parity, real, imag), line 21. *)
Definition endpoint_gt (a b : cpx) : bool :=
  let pa := data_qubit_parity a in
  let pb := data_qubit_parity b in
  if Bool.eqb pa pb then negb (clex_leb a b) else pa.

(** Edge.__init__, lines 20-25. *)
Definition Edge (left right center : cpx) : edge :=
  if endpoint_gt left right
  then mkEdge right left center
  else mkEdge left right center.

(** ** The layout *)
(** honeycomb_layout.py 80-106.  [noise] is an exact rational instead of a float. *)
Record layout := mkLayout {
  data_width : Z;
  data_height : Z;
  sub_rounds : Z;
  style : string;
  obs : string;
  noise : Q
}.

(** HoneycombLayout(...) with __post_init__, lines 108-112. *)
Definition HoneycombLayout (dw dh sr : Z) (st ob : string) (p : Q) : res layout :=
  if negb (dw mod 2 =? 0) then Err NotImplementedError
  else if negb (dh mod 6 =? 0) then Err NotImplementedError
  else Ok (mkLayout dw dh sr st ob p).

(** lines 405-411 *)
Definition tile_width (lay : layout) : Z := data_width lay / 2.
(** lines 409-411 *)
Definition tile_height (lay : layout) : Z := data_height lay / 6.
(** lines 305-311, in half units. *)
Definition coord_width2 (lay : layout) : Z := 8 * tile_width lay.
(** lines 309-311, in half units. *)
Definition coord_height2 (lay : layout) : Z := 12 * tile_height lay.

(** lines 128-131.  Simplification: for a zero width or height Python's float
    modulo raises ZeroDivisionError; the model is only used for positive sizes
    or on empty lists. *)
Definition wrap (lay : layout) (c : cpx) : cpx :=
  (fst c mod coord_width2 lay, snd c mod coord_height2 lay).

(** lines 47-65: EDGE_TYPES, as (hex_to_hex_delta, hex_to_qubit_delta). *)
Definition EDGE_TYPES : list (cpx * cpx) :=
  [ (pos 2 (-3), pos 1 (-1)); (pos 2 3, pos 1 1); (pos 4 0, pos 1 0) ].

(** EdgeType.hex_to_edge, lines 52-57. *)
Definition hex_to_edge (lay : layout) (center : cpx) (et : cpx * cpx) : edge :=
  let a := cadd center (snd et) in
  let b := csub (cadd center (fst et)) (snd et) in
  Edge (wrap lay a) (wrap lay b) (wrap lay (cmid a b)).

(** lines 394-403: rows, columns, centres and categories in loop order. *)
Definition hex_entries (lay : layout) : list (cpx * Z) :=
  flat_map (fun row =>
    map (fun col =>
      (wrap lay (pos (2 * col) (2 * row - col mod 2)), (- row - col mod 2) mod 3))
      (zrange 0 (2 * tile_width lay)))
    (zrange 0 (3 * tile_height lay)).
(** lines 394-403: _hex_center_categories *)
Definition hex_center_categories (lay : layout) : list (cpx * Z) :=
  dict_of cpx_eqb (hex_entries lay).

(** lines 313-320, without the assertion. *)
Definition hexes (lay : layout) (r : Z) : list cpx :=
  sorted_complex (map fst (filter (fun hc => snd hc =? r) (hex_center_categories lay))).
(** lines 313-320 *)
Definition round_hex_centers (lay : layout) (r : Z) : res (list cpx) :=
  if (0 <=? r) && (r <? 3) then Ok (hexes lay r) else Err AssertionError.

(** sort key of lines 328, 344, 392: (e.center.real, e.center.imag). *)
Definition edge_leb (a b : edge) : bool := clex_leb (e_center a) (e_center b).

(** lines 385-392 *)
Definition round_edges (lay : layout) (r : Z) : list edge :=
  isort edge_leb
    (flat_map (fun h => map (hex_to_edge lay h) EDGE_TYPES) (hexes lay (r mod 3))).

(** lines 381-383 *)
Definition all_edges (lay : layout) : list edge :=
  round_edges lay 0 ++ round_edges lay 1 ++ round_edges lay 2.

(** lines 153-166 *)
Definition FIRST_EDGES : list (cpx * cpx) :=
  [ (pos 1 (-1), pos 1 0); (pos 1 1, pos (-1) 1); (pos (-1) 0, pos (-1) (-1)) ].
(** lines 171-184 *)
Definition SECOND_EDGES : list (cpx * cpx) :=
  [ (pos (-1) (-1), pos 1 (-1)); (pos 1 0, pos 1 1); (pos (-1) 1, pos (-1) 0) ].
(** one Edge(...) of lines 159-166 and 177-184 *)
Definition edge_of_offsets (lay : layout) (center : cpx) (ab : cpx * cpx) : edge :=
  Edge (wrap lay (cadd center (fst ab))) (wrap lay (cadd center (snd ab)))
       (wrap lay (cadd center (cmid (fst ab) (snd ab)))).
(** lines 153-166 *)
Definition first_edges_around_hex (lay : layout) (center : cpx) : list edge :=
  map (edge_of_offsets lay center) FIRST_EDGES.
(** lines 171-184 *)
Definition second_edges_around_hex (lay : layout) (center : cpx) : list edge :=
  map (edge_of_offsets lay center) SECOND_EDGES.
(** lines 186-187 *)
Definition all_edges_around_hex (lay : layout) (center : cpx) : list edge :=
  first_edges_around_hex lay center ++ second_edges_around_hex lay center.

(** lines 168-169 *)
Definition sub_round_edge_basis (lay : layout) (sub_round : Z) : pauli := xyz sub_round.

(** lines 189-194 *)
Definition qubits_around_hex (lay : layout) (center : cpx) : list cpx :=
  sorted_complex
    (flat_map (fun et => map (fun sign => wrap lay (cadd center (cscale sign (snd et)))) [-1; 1])
       EDGE_TYPES).

(** lines 254-260 *)
Definition data_qubit_coords (lay : layout) : list cpx :=
  sorted_complex (nodup cpx_dec (flat_map (fun e => [e_left e; e_right e]) (all_edges lay))).
(** lines 262-268 *)
Definition measure_qubit_coords (lay : layout) : list cpx :=
  sorted_complex (nodup cpx_dec (map e_center (all_edges lay))).

(** lines 295-300: {q: i for i, q in enumerate(data + measure)} *)
Definition q2i_dict (lay : layout) : list (cpx * nat) :=
  let l := sorted_complex (data_qubit_coords lay) ++ sorted_complex (measure_qubit_coords lay) in
  dict_of cpx_eqb (combine l (seq 0 (length l))).
(** lay.q2i[q] *)
Definition q2i (lay : layout) (q : cpx) : res nat :=
  match dict_get cpx_eqb q (q2i_dict lay) with Some i => Ok i | None => Err KeyError end.

(** the test of the style in lines 280 and 291 *)
Definition is_em3 (s : string) : bool := (s =? "EM3")%string || (s =? "EM3_v2")%string.

(** lines 278-282 *)
Definition used_qubit_coords (lay : layout) : list cpx :=
  if is_em3 (style lay) then data_qubit_coords lay else map fst (q2i_dict lay).
(** lines 284-286 *)
Definition used_qubit_indices (lay : layout) : res (list nat) := mapM (q2i lay) (used_qubit_coords lay).
(** lines 246-252 *)
Definition data_qubit_indices_1st (lay : layout) : res (list nat) :=
  mapM (q2i lay) (filter (fun q => negb (data_qubit_parity q)) (data_qubit_coords lay)).
(** lines 250-252 *)
Definition data_qubit_indices_2nd (lay : layout) : res (list nat) :=
  mapM (q2i lay) (filter data_qubit_parity (data_qubit_coords lay)).
(** lines 270-276 *)
Definition measure_qubit_indices (lay : layout) : res (list nat) := mapM (q2i lay) (measure_qubit_coords lay).
(** lines 274-276 *)
Definition data_qubit_indices (lay : layout) : res (list nat) := mapM (q2i lay) (data_qubit_coords lay).

(** lines 288-293; int(result * 2.5) truncates towards zero. *)
Definition num_qubits (lay : layout) : Z :=
  let result := data_width lay * data_height lay in
  if is_em3 (style lay) then result else Z.quot (5 * result) 2.

(** lines 302-303 *)
Definition qubit_indices_except (lay : layout) (indices : list nat) : list nat :=
  isort Nat.leb (filter (fun i => negb (memb i indices)) (nodup Nat.eq_dec (map snd (q2i_dict lay)))).

(** ** Observables *)
(** lines 322-328: both end points have imaginary part 0 or 1. *)
Definition in_h_rows (q : cpx) : bool := (snd q =? 0) || (snd q =? 2).
(** lines 322-328 *)
Definition obs_h_edges (lay : layout) : list edge :=
  isort edge_leb (filter (fun e => in_h_rows (e_left e) && in_h_rows (e_right e)) (all_edges lay)).
(** lines 330-336: key (q.real, (1 + q.imag + q.real // 2) % 2), in half units. *)
Definition obs_h_key (q : cpx) : cpx := (fst q, (2 + snd q + 2 * (fst q / 4)) mod 4).
(** lines 330-336 *)
Definition obs_h_qubits (lay : layout) : list cpx :=
  isort (fun a b => clex_leb (obs_h_key a) (obs_h_key b)) (filter in_h_rows (data_qubit_coords lay)).
(** lines 338-344: e.left.real == e.right.real == 1 *)
Definition obs_v_edges (lay : layout) : list edge :=
  isort edge_leb (filter (fun e => (fst (e_left e) =? fst (e_right e)) && (fst (e_right e) =? 2)) (all_edges lay)).
(** lines 346-352 *)
Definition obs_v_qubits (lay : layout) : list cpx :=
  sorted_complex (filter (fun q => fst q =? 2) (data_qubit_coords lay)).

(** lines 196-215.  The pattern string is a list of flags (true = the basis
    letter, false = '_') together with the letter it uses. *)
Definition obs_h_pattern (sub_round : Z) : pauli * list bool :=
  match sub_round mod 6 with
  | 0 => (PX, [true; true; true; true])
  | 1 => (PX, [true; false; false; true])
  | 2 => (PZ, [true; false; false; true])
  | 3 => (PZ, [false; true; true; false])
  | 4 => (PY, [false; true; true; false])
  | _ => (PY, [true; true; true; true])
  end.
(** lines 225-239 *)
Definition obs_v_pattern (sub_round : Z) : pauli * list bool :=
  match sub_round mod 6 with
  | 0 => (PZ, [false; true; true])
  | 1 => (PY, [false; true; true])
  | 2 => (PY, [true; true; false])
  | 3 => (PX, [true; true; false])
  | 4 => (PX, [true; false; true])
  | _ => (PZ, [true; false; true])
  end.
(** Python's [pattern * k] for a sequence (empty when k <= 0). *)
Definition seq_mul {A} (l : list A) (k : Z) : list A := concat (repeat l (Z.to_nat k)).
(** [q for c, q in zip(pattern, qs) if c != "_"] *)
Definition select {A} (flags : list bool) (qs : list A) : list A :=
  map snd (filter fst (combine flags qs)).

(** lines 196-215 *)
Definition obs_h_before_sub_round (lay : layout) (sub_round : Z) : pauli * list cpx :=
  let (c, pat) := obs_h_pattern sub_round in
  (c, select (seq_mul pat (tile_width lay)) (obs_h_qubits lay)).
(** lines 225-244 *)
Definition obs_v_before_sub_round (lay : layout) (sub_round : Z) : pauli * list cpx :=
  let (c, pat) := obs_v_pattern sub_round in
  (c, select (seq_mul pat (tile_height lay * 2)) (obs_v_qubits lay)).
(** lines 217-223 *)
Definition obs_before_sub_round (lay : layout) (sub_round : Z) : res (pauli * list cpx) :=
  if (obs lay =? "V")%string then Ok (obs_v_before_sub_round lay sub_round)
  else if (obs lay =? "H")%string then Ok (obs_h_before_sub_round lay sub_round)
  else Err NotImplementedError.
(** lines 354-361 *)
Definition obs_index (lay : layout) : res nat :=
  if (obs lay =? "V")%string then Ok 0%nat
  else if (obs lay =? "H")%string then Ok 1%nat
  else Err NotImplementedError.
(** lines 363-370 *)
Definition obs_edges (lay : layout) : res (list edge) :=
  if (obs lay =? "V")%string then Ok (obs_v_edges lay)
  else if (obs lay =? "H")%string then Ok (obs_h_edges lay)
  else Err NotImplementedError.
(** lines 372-379 *)
Definition obs_qubits (lay : layout) : res (list cpx) :=
  if (obs lay =? "V")%string then Ok (obs_v_qubits lay)
  else if (obs lay =? "H")%string then Ok (obs_h_qubits lay)
  else Err NotImplementedError.

(** lines 413-415 *)
Definition code_distance_1qdep (lay : layout) : Z :=
  Z.min (data_width lay) (data_height lay / 3 * 2).

(** lines 417-424.  Formatting a float with the format specification "!r"
    raises ValueError; the text of the label is not modelled further than its
    integers. *)
Definition legend_label (lay : layout) : res (list Z) :=
  if Qeq_bool (noise lay) 0 then Ok [sub_rounds lay / 3; data_width lay; data_height lay]
  else Err ValueError.

(** The unit tests' first layout (honeycomb_layout_test.py 26). *)
Definition ctx1 : layout := mkLayout 2 6 18 "SD6" "V" (1 # 1000).
