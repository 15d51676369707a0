(** Model of src/probability_util.py, of total_error_to_per_piece_error (src/plotting.py)
    and of ShotData.likely_error_rate_bounds (src/collect_data.py).

    Floats are real numbers extended with the two infinities; rounding, NaN and the
    float32 storage of log_binomial's result are not modelled. *)
From Coq Require Import Reals Lra.
From Verif Require Import Prelude Collect.
Open Scope R_scope.

(** a float without nan: a real or an infinity *)
Inductive ext := NInf | Fin (r : R) | PInf.
(** comparisons between floats *)
Definition eltb (a b : ext) : bool :=
  match a, b with
  | Fin x, Fin y => if Rlt_dec x y then true else false
  | NInf, NInf => false | NInf, _ => true
  | Fin _, PInf => true
  | _, _ => false
  end.
(** a == b *)
Definition eeqb (a b : ext) : bool :=
  match a, b with
  | Fin x, Fin y => if Req_EM_T x y then true else false
  | NInf, NInf => true | PInf, PInf => true
  | _, _ => false
  end.
(** -a *)
Definition eneg (a : ext) : ext := match a with NInf => PInf | PInf => NInf | Fin x => Fin (- x) end.
(** abs(a) *)
Definition eabs (a : ext) : ext := match a with Fin x => Fin (Rabs x) | _ => PInf end.
(** a - b; the infinity minus itself (NaN) is never computed: it is guarded by == *)
Definition esub (a b : ext) : ext :=
  match a, b with
  | Fin x, Fin y => Fin (x - y)
  | NInf, _ => NInf | PInf, _ => PInf
  | _, NInf => PInf | _, PInf => NInf
  end.
(** a + x for a finite x *)
Definition eadd (a : ext) (x : R) : ext := match a with Fin y => Fin (y + x) | _ => a end.

(** probability_util.py lines 64-79: binary_search, with fuel for the while loop *)
Fixpoint search (fuel : nat) (func : Z -> ext) (min_x max_x : Z) (target : ext) : res Z :=
  match fuel with
  | O => Err OutOfFuel
  | S fuel =>
      if (min_x + 1 <? max_x)%Z then
        let med_x := ((min_x + max_x) / 2)%Z in
        let out := func med_x in
        if eltb out target then search fuel func med_x max_x target
        else if eltb target out then search fuel func min_x med_x target
        else Ok med_x
      else
        let fmax := func max_x in
        let fmin := func min_x in
        let dmax := if eeqb fmax target then Fin 0 else esub fmax target in
        let dmin := if eeqb fmin target then Fin 0 else esub fmin target in
        Ok (if eltb (eabs dmax) (eabs dmin) then max_x else min_x)
  end.
(** lines 64-79 *)
Definition binary_search (func : Z -> ext) (min_x max_x : Z) (target : ext) : res Z :=
  search (S (Z.to_nat (max_x - min_x))) func min_x max_x target.

(** lines 54-61: log_factorial *)
Definition log_factorial (n : Z) : R :=
  if (n <? 20)%Z then fold_right Rplus 0 (map (fun k => ln (INR k)) (seq 1 (Z.to_nat n)))
  else (IZR n + 1 / 2) * ln (IZR n) - IZR n + ln (2 * PI) / 2.
(** lines 10-51: log_binomial, for one probability (arrays are broadcast) *)
Definition log_binomial (p : R) (n hits : Z) : ext :=
  let p := Rmax 0 (Rmin p 1) in
  let misses := (n - hits)%Z in
  let result := Fin 0 in
  let result := if negb (hits =? 0)%Z then (if Req_EM_T p 0 then NInf else result) else result in
  let result := if negb (misses =? 0)%Z then (if Req_EM_T p 1 then NInf else result) else result in
  let result := if Req_EM_T p 0 then result else eadd result (ln p * IZR hits) in
  let result := if Req_EM_T p 1 then result else eadd result (ln (1 - p) * IZR misses) in
  eadd result (log_factorial n - log_factorial misses - log_factorial hits).

(** collect_data.py lines 288-308: likely_error_rate_bounds *)
Definition likely_error_rate_bounds (num_shots num_correct : Z) (ratio : R) : res (R * R) :=
  let actual_errors := (num_shots - num_correct)%Z in
  if (num_shots =? 0)%Z then Err ZeroDivisionError
  else if Rle_dec ratio 0 then Err ValueError
  else
    let log_max_likelihood := log_binomial (IZR actual_errors / IZR num_shots) num_shots actual_errors in
    let target := eadd log_max_likelihood (ln ratio) in
    let acc := 100%Z in
    let f e := log_binomial (IZR e / IZR (acc * num_shots)) num_shots actual_errors in
    let! low := binary_search f 0 (actual_errors * acc) target in
    let! high := binary_search (fun e => eneg (f e)) (actual_errors * acc) (num_shots * acc) (eneg target) in
    Ok (IZR low / IZR acc / IZR num_shots, IZR high / IZR acc / IZR num_shots).

(** plotting.py lines 11-19.  x ** y of a float x >= 0 *)
Definition pow_float (x y : R) : R := if Req_EM_T x 0 then (if Req_EM_T y 0 then 1 else 0) else Rpower x y.
(** the part after the first test; 1 / pieces raises for 0, 0.0 ** negative too *)
Definition per_piece_low (error_rate : R) (pieces : Z) : res R :=
  if Rle_dec 0 error_rate then
    if Rle_dec error_rate (1 / 2) then
      if (pieces =? 0)%Z then Err ZeroDivisionError
      else
        let randomize_rate := 2 * error_rate in
        if (pieces <? 0)%Z then (if Req_EM_T (1 - randomize_rate) 0 then Err ZeroDivisionError else Ok ((1 - pow_float (1 - randomize_rate) (1 / IZR pieces)) / 2))
        else Ok ((1 - pow_float (1 - randomize_rate) (1 / IZR pieces)) / 2)
    else Err AssertionError
  else Err AssertionError.
(** lines 11-19: the recursive call has a rate below 1/2, so it does not recurse again *)
Definition total_error_to_per_piece_error (error_rate : R) (pieces : Z) : res R :=
  if Rlt_dec (1 / 2) error_rate then let! q := per_piece_low (1 - error_rate) pieces in Ok (1 - q)
  else per_piece_low error_rate pieces.

(** lines 82-105: binary_intercept.  The step never becomes infinite in exact
    arithmetic. *)
Definition geb (a b : R) : bool := if Rle_dec b a then true else false.
(** lines 87-90: the loop that doubles the step *)
Fixpoint widen (fuel : nat) (func : R -> R) (start_x step target_y : R) : res R :=
  match fuel with
  | O => Err OutOfFuel
  | S fuel =>
      if Bool.eqb (geb (func (start_x + step)) target_y) (geb (func start_x) target_y) then
        let step := step * 2 in
        if Req_EM_T step 0 then Err ValueError else widen fuel func start_x step target_y
      else Ok step
  end.
(** lines 96-105: the loop that halves the interval *)
Fixpoint bisect (fuel : nat) (func : R -> R) (increasing : bool) (min_x max_x target_y atol : R) : res R :=
  match fuel with
  | O => Err OutOfFuel
  | S fuel =>
      let med_x := (min_x + max_x) / 2 in
      let med_y := func med_x in
      if Rle_dec (Rabs (med_y - target_y)) atol then Ok med_x
      else if Req_EM_T med_x min_x then Err AssertionError
      else if Req_EM_T med_x max_x then Err AssertionError
      else if Bool.eqb (if Rlt_dec med_y target_y then true else false) increasing then bisect fuel func increasing med_x max_x target_y atol
      else bisect fuel func increasing min_x med_x target_y atol
  end.
(** lines 82-105 *)
Definition binary_intercept (fuel : nat) (func : R -> R) (start_x step target_y atol : R) : res R :=
  let start_y := func start_x in
  if Rle_dec (Rabs (start_y - target_y)) atol then Ok start_x
  else
    let! step := widen fuel func start_x step target_y in
    let min_x := Rmin start_x (start_x + step) in
    let max_x := Rmax start_x (start_x + step) in
    let increasing := if Rlt_dec (func min_x) (func max_x) then true else false in
    bisect fuel func increasing min_x max_x target_y atol.

(** lines 108-111: least_squares_cost; data are lists of points (the assertions say that
    xs and ys have the same length) *)
Definition rsum (l : list R) : R := fold_right Rplus 0 l.
(** lines 108-111 *)
Definition least_squares_cost (pts : list (R * R)) (intercept slope : R) : R :=
  rsum (map (fun '(x, y) => (intercept + slope * x - y) ^ 2) pts).
(** scipy.stats.linregress: slope and intercept of the usual fit *)
Definition mean (l : list R) : R := rsum l / INR (length l).
(** scipy.stats.linregress *)
Definition linregress (pts : list (R * R)) : R * R :=
  let mx := mean (map fst pts) in
  let my := mean (map snd pts) in
  let slope := rsum (map (fun '(x, y) => (x - mx) * (y - my)) pts) / rsum (map (fun '(x, y) => (x - mx) ^ 2) pts) in
  (slope, my - slope * mx).
Section LeastSquares.
  (** scipy.optimize.leastsq(func=f, x0=0): some minimiser of f squared *)
  Context (leastsq : (R -> R) -> R).
  (** lines 114-123: slope and intercept *)
  Definition least_squares_through_point (pts : list (R * R)) (required_x required_y : R) : R * R :=
    let pts2 := map (fun '(x, y) => (x - required_x, y - required_y)) pts in
    let best_slope := leastsq (fun slope => least_squares_cost pts2 0 slope) in
    (best_slope, required_y - required_x * best_slope).
  (** lines 126-131 *)
  Definition least_squares_with_slope (pts : list (R * R)) (required_slope : R) : R * R :=
    (required_slope, leastsq (fun intercept => least_squares_cost pts intercept required_slope)).
  (** the cost of a fitted line, lines 142, 147, 161 and 165 *)
  Definition cost_of (pts : list (R * R)) (fit : R * R) : R := least_squares_cost pts (snd fit) (fst fit).
  (** lines 134-151 *)
  Definition cost_for_y (pts : list (R * R)) (target_x y2 : R) : R := cost_of pts (least_squares_through_point pts target_x y2).
  (** lines 134-151 *)
  Definition least_squares_output_range (fuel : nat) (pts : list (R * R)) (target_x cost_increase : R) : res (R * R) :=
    let fit := linregress pts in
    let base_cost := cost_of pts fit in
    let base_y := snd fit + target_x * fst fit in
    let! low_y := binary_intercept fuel (cost_for_y pts target_x) base_y (-1) (base_cost + cost_increase) (1 / 100000) in
    let! high_y := binary_intercept fuel (cost_for_y pts target_x) base_y 1 (base_cost + cost_increase) (1 / 100000) in
    Ok (low_y, high_y).
  (** lines 154-169 *)
  Definition cost_for_slope (pts : list (R * R)) (slope : R) : R := cost_of pts (least_squares_with_slope pts slope).
  (** lines 154-169 *)
  Definition least_squares_slope_range (fuel : nat) (pts : list (R * R)) (cost_increase : R) : res (R * R * R) :=
    let fit := linregress pts in
    let base_cost := cost_of pts fit in
    let! low_slope := binary_intercept fuel (cost_for_slope pts) (fst fit) (-1) (base_cost + cost_increase) (1 / 100000) in
    let! high_slope := binary_intercept fuel (cost_for_slope pts) (fst fit) 1 (base_cost + cost_increase) (1 / 100000) in
    Ok (low_slope, fst fit, high_slope).
End LeastSquares.
