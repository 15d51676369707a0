(** Model of the real-valued half of LambdaGroup (src/paper/main_render_lambda_figure.py).

    Floats are real numbers.  A division by a zero slope is reported as an error, where
    numpy gives an infinity or nan and a warning.  The printed warnings are in Warnings.v. *)
From Coq Require Import QArith Qreals.
From Coq Require Import Reals Lra.
From Verif Require Import Prelude Layout Collect Prob Paper.
Open Scope R_scope.

(** collect_data.py lines 310-314 *)
Definition rate {F} (s : shot_data F) : R :=
  if (num_shots s =? 0)%Z then 1 else IZR (num_shots s - num_correct s) / IZR (num_shots s).
(** int(math.ceil(x)) *)
Definition ceilR (x : R) : Z := (- Int_part (- x))%Z.
(** math.log *)
Definition log (x : R) : res R := if Rle_dec x 0 then Err ValueError else Ok (ln x).

Section Group.
  Context {F : Type} (g : lambda_group F).
  (** line 358 *)
  Definition distances : list Z := isort Z.leb (nodup Z.eq_dec (map fst (pairs_h g) ++ map fst (pairs_v g))).
  (** lines 361-380; None and 0.0 are false *)
  Fixpoint combo (ds : list Z) : res (list (Z * R)) :=
    match ds with
    | [] => Ok []
    | d :: r =>
        let p1 := option_map rate (dget Z.eqb d (pairs_h g)) in
        let p2 := option_map rate (dget Z.eqb d (pairs_v g)) in
        let p2 := match p2 with None => p1 | Some _ => p2 end in
        let p1 := match p1 with None => p2 | Some _ => p1 end in
        match p1, p2 with
        | Some p1, Some p2 =>
            if Req_EM_T p1 0 then combo r else if Req_EM_T p2 0 then combo r
            else if (d_distance (g_rep g) =? 0)%Z then Err ZeroDivisionError
            else
              let cells := ceil_div (d_rounds (g_rep g)) (d_distance (g_rep g)) in
              let! p1 := total_error_to_per_piece_error p1 cells in
              let! p2 := total_error_to_per_piece_error p2 cells in
              let p_either := 1 - (1 - p1) * (1 - p2) in
              let! rest := combo r in
              Ok ((d, p_either) :: rest)
        | _, _ => combo r
        end
    end.
  (** lines 356-381 *)
  Definition combo_data : res (list (Z * R)) := combo distances.
  (** the points (distance, log error) of lines 409, 413-414 and 425-426 *)
  Definition log_points (pts : list (Z * R)) : res (list (R * R)) :=
    mapM (fun '(d, y) => let! l := log y in Ok (IZR d, l)) pts.
  (** lines 404-409: slope and intercept *)
  Definition linear_fit_d_to_log_err : res (R * R) :=
    let! pts := combo_data in
    if (Z.of_nat (length pts) <=? 1)%Z then Ok (linregress [(0, 0); (1, 0)])
    else let! lp := log_points pts in Ok (linregress lp).
  (** lines 395-398 *)
  Definition appears_to_be_suppressing_errors : res bool :=
    let! (slope, intercept) := linear_fit_d_to_log_err in
    let lt a b := if Rlt_dec a b then true else false in
    Ok (lt slope (- (2 / 100)) && lt intercept (- (1 / 10)) || lt slope (-1))%bool.
  (** lines 432-434 *)
  Definition projected_error (distance : R) : res R :=
    let! (slope, intercept) := linear_fit_d_to_log_err in Ok (exp (slope * distance + intercept)).
  (** lines 436-438 *)
  Definition projected_distance (target_error : R) : res R :=
    let! (slope, intercept) := linear_fit_d_to_log_err in
    let! l := log target_error in
    if Req_EM_T slope 0 then Err ZeroDivisionError else Ok ((l - intercept) / slope).
  (** lines 454-456 *)
  Definition projected_required_qubit_count (target_error : R) (style : string) : res Q :=
    let! d := projected_distance target_error in d_to_q g (ceilR d) style.

  (** lines 415-416 *)
  Definition slope_to_lambda (s : R) : R := 1 / exp s ^ 2.
  Context (leastsq : (R -> R) -> R) (fuel : nat).
  (** lines 411-421 *)
  Definition projected_lambda_range : res (R * R * R) :=
    let! pts := combo_data in
    let! lp := log_points pts in
    let! (s1, s2, s3) := if (Z.of_nat (length pts) <=? 1)%Z then Ok (0, 0, 0) else least_squares_slope_range leastsq fuel lp 1 in
    Ok (slope_to_lambda s1, slope_to_lambda s2, slope_to_lambda s3).
  (** lines 423-430: here the distances are fitted against the log errors *)
  Definition projected_qubit_count_range (target_probability : R) (style : string) : res (Q * Q) :=
    let! pts := combo_data in
    let! lp := log_points pts in
    if (Z.of_nat (length pts) <=? 1)%Z then let! q := projected_required_qubit_count target_probability style in Ok (q, q)
    else
      let! t := log target_probability in
      let! (d1, d2) := least_squares_output_range leastsq fuel (map (fun '(x, y) => (y, x)) lp) t 1 in
      let! q1 := d_to_q g (ceilR d1) style in
      let! q2 := d_to_q g (ceilR d2) style in
      Ok (q1, q2).
End Group.
