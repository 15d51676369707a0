(** Model of src/decoding.py.

    stim detector error models are a syntax tree.  Probabilities and coordinates are
    rationals (floats in the code).  numpy boolean arrays are lists of rows together
    with the number of columns.  The stim sampler, pymatching and the internal decoder
    binary are arbitrary functions.  Networkx graphs are association lists of node and
    edge attributes; edges are keyed by the sorted pair of ends. *)
From Coq Require Import QArith.
From Coq Require Import DecimalString DecimalNat Ascii.
From Verif Require Import Prelude Text.
Open Scope Z_scope.

(** ** Detector error models *)
Inductive dtarget := DDet (k : nat) | DObs (k : nat) | DSep.
(** stim.DemInstruction and stim.DemRepeatBlock *)
Inductive ditem :=
| DError (p : Q) (ts : list dtarget)
| DShift (args : list Q) (k : nat)
| DDetector (args : list Q) (ids : list nat)
| DObservable (ids : list nat)
| DRepeat (reps : nat) (body : list ditem).
(** stim.DetectorErrorModel *)
Definition dmodel := list ditem.

(** A call of one of the two handlers. *)
Inductive event := EError (p : Q) (dets frames : list nat) | ECoords (det : nat) (coords : list Q).

Section Flatten.
  Context {S : Type} (handle : S -> event -> res S).

  (** lines 188-204: one error instruction; [dets] and [frames] are the component
      being read. *)
  Fixpoint error_targets (p : Q) (off : nat) (ts : list dtarget) (dets frames : list nat) (s : S) : res S :=
    match ts with
    | [] => handle s (EError p dets frames)
    | DDet k :: r => error_targets p off r (dets ++ [(k + off)%nat]) frames s
    | DObs k :: r => error_targets p off r dets (frames ++ [k]) s
    | DSep :: r => let! s := handle s (EError p dets frames) in error_targets p off r [] [] s
    end.

  (** line 208: coords_offset[:len(a)] += a; the array has 100 entries, a longer a does
      not fit (ValueError) *)
  Fixpoint add_prefix (a c : list Q) : list Q :=
    match a, c with x :: a, y :: c => (y + x)%Q :: add_prefix a c | _, c => c end.
  (** lines 207-208 *)
  Definition shift_coords (a c : list Q) : res (list Q) :=
    if (length a <=? length c)%nat then Ok (add_prefix a c) else Err ValueError.
  (** line 212: a + coords_offset[:len(a)] *)
  Fixpoint plus_prefix (a c : list Q) : list Q :=
    match a, c with x :: a, y :: c => (x + y)%Q :: plus_prefix a c | _, _ => [] end.
  (** line 212 *)
  Definition with_offset (a c : list Q) : res (list Q) :=
    if (length a <=? length c)%nat then Ok (plus_prefix a c) else Err ValueError.

  (** det_offset, coords_offset and the state of the handlers *)
  Definition fst_ := (nat * list Q * S)%type.

  (** lines 209-212: the targets of a detector instruction *)
  Fixpoint detector_ids (a : list Q) (off : nat) (c : list Q) (ids : list nat) (s : S) : res S :=
    match ids with
    | [] => Ok s
    | k :: r => let! xs := with_offset a c in let! s := handle s (ECoords (k + off)%nat xs) in detector_ids a off c r s
    end.

  (** lines 179-219, _helper: one instruction; a block's body runs [reps] times. *)
  Fixpoint helper_item (x : ditem) (st : fst_) : res fst_ :=
    let '(off, c, s) := st in
    match x with
    | DError p ts => let! s := error_targets p off ts [] [] s in Ok (off, c, s)
    | DShift a k => let! c' := shift_coords a c in Ok ((off + k)%nat, c', s)
    | DDetector a ids => let! s := detector_ids a off c ids s in Ok (off, c, s)
    | DObservable _ => Ok (off, c, s)
    | DRepeat reps body =>
        (fix loop (n : nat) (st : fst_) : res fst_ :=
           match n with
           | O => Ok st
           | Datatypes.S n =>
               let! st := (fix go (l : list ditem) (st : fst_) : res fst_ :=
                  match l with [] => Ok st | y :: r => let! st := helper_item y st in go r st end) body st in
               loop n st
           end) reps st
    end.
  (** lines 173-220: iter_flatten_model *)
  Definition iter_flatten_model (m : dmodel) (s : S) : res S :=
    let! st := helper_item (DRepeat 1 m) (O, repeat 0%Q 100, s) in
    let '(_, _, s) := st in Ok s.
End Flatten.

(** ** What stim reports about a model *)
(** stim.DetectorErrorModel.num_detectors / num_observables: one more than the largest
    absolute id mentioned. *)
Definition above (l : list nat) : nat := fold_right (fun k m => Nat.max (Datatypes.S k) m) O l.
(** the detectors among the targets *)
Fixpoint det_ids (ts : list dtarget) : list nat := match ts with [] => [] | DDet k :: r => k :: det_ids r | _ :: r => det_ids r end.
(** the observables among the targets *)
Fixpoint obs_ids (ts : list dtarget) : list nat := match ts with [] => [] | DObs k :: r => k :: obs_ids r | _ :: r => obs_ids r end.
(** the largest id and the detector offset after the instruction *)
Fixpoint count_item (x : ditem) (st : nat * nat) : nat * nat :=
  let '(m, off) := st in
  match x with
  | DError _ ts => (Nat.max m (above (map (fun k => (k + off)%nat) (det_ids ts))), off)
  | DShift _ k => (m, (off + k)%nat)
  | DDetector _ ids => (Nat.max m (above (map (fun k => (k + off)%nat) ids)), off)
  | DObservable _ => (m, off)
  | DRepeat reps body => Nat.iter reps (fun st => fold_left (fun st y => count_item y st) body st) st
  end.
(** model.num_detectors *)
Definition num_detectors (m : dmodel) : nat := fst (count_item (DRepeat 1 m) (O, O)).
(** the number of observables of an instruction *)
Fixpoint obs_item (x : ditem) : nat :=
  match x with
  | DError _ ts => above (obs_ids ts)
  | DObservable ids => above ids
  | DRepeat _ body => fold_right (fun y m => Nat.max (obs_item y) m) O body
  | _ => O
  end.
(** model.num_observables *)
Definition num_observables (m : dmodel) : nat := obs_item (DRepeat 1 m).

(** ** The networkx graph, lines 222-257 *)
(** weight = math.log(odds), or the literal 9999999999 *)
Inductive weight := LogOdds (odds : Q) | Huge.
(** attributes of an edge, line 250 *)
Record eattr := mkE { e_weight : weight; e_qubit_id : option (list nat); e_prob : option Q }.
(** attributes of a node, lines 227 and 253 *)
Record nattr := mkN { n_boundary : bool; n_coords : option (list Q) }.
(** nx.Graph: nodes and edges in the order they were added *)
Record graph := mkG { g_nodes : list (nat * nattr); g_edges : list (nat * nat * eattr) }.

(** undirected edges: the smaller end first *)
Definition ekey (u v : nat) : nat * nat := if (u <=? v)%nat then (u, v) else (v, u).
(** equality of edges *)
Definition eqk (a b : nat * nat) : bool := Nat.eqb (fst a) (fst b) && Nat.eqb (snd a) (snd b).
(** lookup in an association list *)
Fixpoint assoc {K V} (eqb : K -> K -> bool) (k : K) (l : list (K * V)) : option V :=
  match l with [] => None | (k', v) :: r => if eqb k k' then Some v else assoc eqb k r end.
(** replace the value in place or append a new entry *)
Fixpoint put {K V} (eqb : K -> K -> bool) (k : K) (v : V) (l : list (K * V)) : list (K * V) :=
  match l with [] => [(k, v)] | (k', v') :: r => if eqb k k' then (k', v) :: r else (k', v') :: put eqb k v r end.
(** g.get_edge_data(u, v), line 243 *)
Definition edge_data (g : graph) (u v : nat) : option eattr := assoc eqk (ekey u v) (g_edges g).
(** g.nodes[u] *)
Definition node_data (g : graph) (u : nat) : option nattr := assoc Nat.eqb u (g_nodes g).
(** add_node without attributes *)
Definition touch_node (u : nat) (g : graph) : graph :=
  match node_data g u with Some _ => g | None => mkG (g_nodes g ++ [(u, mkN false None)]) (g_edges g) end.
(** add_node(u, coords=...): other attributes are kept *)
Definition add_coords (u : nat) (c : list Q) (g : graph) : graph :=
  let b := match node_data g u with Some a => n_boundary a | None => false end in
  mkG (put Nat.eqb u (mkN b (Some c)) (g_nodes g)) (g_edges g).
(** add_edge(u, v, **attr): missing ends are added, given attributes overwritten, the
    others kept *)
Definition add_edge (u v : nat) (w : weight) (q : option (list nat)) (p : option Q) (g : graph) : graph :=
  let g := touch_node v (touch_node u g) in
  let old := edge_data g u v in
  let keep {A} (new : option A) (f : eattr -> option A) := match new with Some _ => new | None => match old with Some a => f a | None => None end end in
  mkG (g_nodes g) (put eqk (ekey u v) (mkE w (keep q e_qubit_id) (keep p e_prob)) (g_edges g)).
(** g.remove_edge(u, v), line 249 *)
Definition remove_edge (u v : nat) (g : graph) : graph :=
  mkG (g_nodes g) (filter (fun '(k, _) => negb (eqk (ekey u v) k)) (g_edges g)).

(** set(a) == set(b) *)
Definition same_set (a b : list nat) : bool := forallb (fun x => existsb (Nat.eqb x) b) a && forallb (fun x => existsb (Nat.eqb x) a) b.
(** math.log((1 - p) / p) for p /= 0: ValueError unless the argument is positive *)
Definition log_odds (p : Q) : res weight :=
  if Qeq_bool p 0 then Err ZeroDivisionError
  else if Qle_bool ((1 - p) / p) 0 then Err ValueError else Ok (LogOdds ((1 - p) / p)).

(** lines 229-250 *)
Definition handle_error (boundary : nat) (g : graph) (p : Q) (dets frames : list nat) : res graph :=
  if Qeq_bool p 0 then Ok g
  else match dets with
  | [] => Ok g
  | _ =>
    let! (u, v) := match dets with [u] => Ok (u, boundary) | [u; v] => Ok (u, v) | _ => Err NotImplementedError end in
    let! (p, g) :=
      match edge_data g u v with
      | None => Ok (p, g)
      | Some a =>
          let! old_p := match e_prob a with Some q => Ok q | None => Err KeyError end in
          let! old_frames := match e_qubit_id a with Some l => Ok l | None => Err KeyError end in
          if same_set old_frames frames then Ok ((p * (1 - old_p) + old_p * (1 - p))%Q, remove_edge u v g) else Ok (p, g)
      end in
    let! w := log_odds p in
    Ok (add_edge u v w (Some frames) (Some p) g)
  end.
(** lines 229-253: the two handlers *)
Definition graph_handler (boundary : nat) (g : graph) (e : event) : res graph :=
  match e with
  | EError p dets frames => handle_error boundary g p dets frames
  | ECoords d c => Ok (add_coords d c g)
  end.
(** lines 222-257 *)
Definition detector_error_model_to_nx_graph (m : dmodel) : res graph :=
  let boundary := num_detectors m in
  iter_flatten_model (graph_handler boundary) m (mkG [(boundary, mkN true (Some [-1; -1; -1]%Q))] []).

(** lines 260-277; the graph handed to pymatching.Matching *)
Definition detector_error_model_to_pymatching_graph (m : dmodel) : res graph :=
  let! g := detector_error_model_to_nx_graph m in
  let n := num_detectors m in
  let g := fold_left (fun g k => touch_node k g) (seq 0 n) g in
  let g := touch_node (n + 1)%nat g in
  let g := fold_left (fun g k => add_edge k (n + 1)%nat Huge None None g) (seq 0 (n + 1)) g in
  Ok (add_edge n (n + 1)%nat Huge (Some (seq 0 (num_observables m))) None g).

(** ** Arrays of booleans *)
Record array := mkA { a_rows : list (list bool); a_cols : nat }.
(** every row has the stated number of columns *)
Definition rect (a : array) : Prop := forall r, In r (a_rows a) -> length r = a_cols a.
(** np.all(a == b) of two rows, line 74 *)
Definition bits_eqb (a b : list bool) : bool := (length a =? length b)%nat && forallb (fun '(x, y) => Bool.eqb x y) (combine a b).

(** lines 78-99: decode_using_pymatching with an arbitrary matcher.  np.resize(row, n+1)
    repeats the row cyclically (zeros for an empty row); the last entry is then cleared.
    A prediction of another length than num_obs does not fit, except a single bit, which
    numpy broadcasts. *)
Definition np_resize (row : list bool) (n : nat) : list bool :=
  match row with [] => repeat false n | _ => map (fun k => nth (k mod length row) row false) (seq 0 n) end.
(** expanded_det[-1] = 0, line 97 *)
Definition clear_last (row : list bool) : list bool := removelast row ++ match row with [] => [] | _ => [false] end.
(** predictions[k] = row, line 98: numpy broadcasts one value, other lengths raise *)
Definition fit (n : nat) (row : list bool) : res (list bool) :=
  if (length row =? n)%nat then Ok row
  else match row with [b] => Ok (repeat b n) | _ => Err ValueError end.
(** lines 78-99 *)
Definition decode_using_pymatching (matcher : graph -> list bool -> list bool) (dem : dmodel) (num_dets num_obs : nat) (det_samples : array) (use_correlated_decoding : bool) : res array :=
  if use_correlated_decoding then Err NotImplementedError
  else
    let! g := detector_error_model_to_pymatching_graph dem in
    let! _ := assert_ (a_cols det_samples =? num_dets)%nat in
    let! rows := mapM (fun row => fit num_obs (matcher g (clear_last (np_resize row (num_dets + 1))))) (a_rows det_samples) in
    Ok (mkA rows num_obs).

(** lines 14-75.  The circuit enters through its numbers of detectors and observables
    and the sampler; the two decoders are arguments, given the detector samples and the
    correlated flag. *)
Definition drop_last {A} (n : nat) (l : list A) : list A := firstn (length l - n) l.
(** a[:, -n:] of a row, line 59 *)
Definition take_last {A} (n : nat) (l : list A) : list A := skipn (length l - n) l.
(** np.count_nonzero, line 75 *)
Definition count_true (l : list bool) : nat := length (filter (fun b => b) l).
(** lines 14-75 *)
Definition sample_decode_count_correct (num_dets num_obs : nat) (model_counts : option (nat * nat))
    (sample : nat -> res array) (pymatching internal : array -> bool -> res array) (num_shots : nat) (decoder : string) : res nat :=
  let! (use_internal, correlated) :=
    (if (decoder =? "pymatching")%string then Ok (false, false)
     else if (decoder =? "internal")%string then Ok (true, false)
     else if (decoder =? "internal_correlated")%string then Ok (true, true)
     else Err NotImplementedError) in
  let! _ := match model_counts with
            | None => Ok tt
            | Some (d, o) => let! _ := assert_ (d =? num_dets)%nat in assert_ (o =? num_obs)%nat
            end in
  let! samples := sample num_shots in
  let det_samples := if (num_obs =? 0)%nat then samples else mkA (map (drop_last num_obs) (a_rows samples)) (a_cols samples - num_obs) in
  let obs_samples := if (num_obs =? 0)%nat then mkA (map (fun _ => []) (a_rows samples)) 0
                     else mkA (map (take_last num_obs) (a_rows samples)) (Nat.min num_obs (a_cols samples)) in
  let! _ := assert_ (length (a_rows obs_samples) =? length (a_rows det_samples))%nat in
  let! _ := assert_ (a_cols obs_samples =? num_obs)%nat in
  let! _ := assert_ (a_cols det_samples =? num_dets)%nat in
  let! predictions := (if (use_internal : bool) then internal else pymatching) det_samples correlated in
  let! _ := assert_ ((length (a_rows predictions) =? length (a_rows obs_samples))%nat && (a_cols predictions =? a_cols obs_samples)%nat) in
  Ok (count_true (map (fun '(p, o) => bits_eqb p o) (combine (a_rows predictions) (a_rows obs_samples)))).

(** ** Files of the internal decoder, lines 110-170 *)
(** str(k) of a natural number *)
Definition decimal (k : nat) : string := NilZero.string_of_uint (Nat.to_uint k).
(** np.nonzero(row)[0] *)
Definition nonzero (row : list bool) : list nat := map fst (filter snd (combine (seq 0 (length row)) row)).
(** lines 126-131 *)
Definition shot_line (row : list bool) : string :=
  ("shot" ++ String.concat "" (map (fun k => " D" ++ decimal k) (nonzero row)) ++ newline)%string.
(** lines 126-131 *)
Definition shots_file (det_samples : array) : string := String.concat "" (map shot_line (a_rows det_samples)).

(** lines 161-169: f.read(1) gives "" at the end of the file, and "" in "01" holds *)
Fixpoint read_bits (n : nat) (f : string) : res (list bool * string) :=
  match n with
  | O => Ok ([], f)
  | S n =>
      let! (b, f) := match f with
        | EmptyString => Ok (false, EmptyString)
        | String c f => if Ascii.eqb c "0" then Ok (false, f) else if Ascii.eqb c "1" then Ok (true, f) else Err AssertionError
        end in
      let! (bs, f) := read_bits n f in Ok (b :: bs, f)
  end.
(** lines 161-169 *)
Fixpoint read_predictions (shots num_obs : nat) (f : string) : res (list (list bool)) :=
  match shots with
  | O => Ok []
  | S shots =>
      let! (row, f) := read_bits num_obs f in
      match f with
      | String c f => if Ascii.eqb c (ascii_of_nat 10) then let! rows := read_predictions shots num_obs f in Ok (row :: rows) else Err AssertionError
      | EmptyString => Err AssertionError
      end
  end.
(** the whole call, with the binary as a function from the shots file to the contents of
    the predictions file (None when the binary is missing) *)
Definition decode_using_internal_decoder (binary : option (string -> bool -> string)) (num_dets num_obs : nat) (det_samples : array) (correlated : bool) : res array :=
  let! _ := assert_ (a_cols det_samples =? num_dets)%nat in
  match binary with
  | None => Err RuntimeError
  | Some b => let! rows := read_predictions (length (a_rows det_samples)) num_obs (b (shots_file det_samples) correlated) in Ok (mkA rows num_obs)
  end.
