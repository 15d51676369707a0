(** Model of what the figures draw: src/plotting.py, src/paper/main_render_threshold_figure.py,
    main_render_detection_fraction_figure.py and the plotting half of
    main_render_lambda_figure.py.

    A figure is the data handed to matplotlib: curves, bands, scatters, labels, markers,
    colours and ticks.  How matplotlib renders them, axis limits, grids, legend placement
    and the blanking of axis labels on inner panels are left out.  Noise values are of any
    type with a decidable order where only their order matters, and rationals where the
    fits need them; rates are reals. *)
From Coq Require Import QArith.
From Coq Require Import Reals Lra.
From Coq Require Import Ascii.
From Verif Require Import Prelude Layout Collect Prob Paper PaperFit.
Open Scope R_scope.
Open Scope list_scope.

(** matplotlib.colors.TABLEAU_COLORS, iterated in its order *)
Definition TABLEAU_COLORS : list string :=
  ["tab:blue"; "tab:orange"; "tab:green"; "tab:red"; "tab:purple"; "tab:brown"; "tab:pink"; "tab:gray"; "tab:olive"; "tab:cyan"]%string.
(** [l * n] of a Python list or string *)
Definition repeated {A} (n : nat) (l : list A) : list A := concat (repeat l n).
(** plotting.py line 40 *)
Definition curve_markers : list ascii := repeated 100 (list_ascii_of_string "ov*sp^<>8PhH+xXDd|").
(** plotting.py line 41, main_render_detection_fraction_figure.py line 54, main_render_lambda_figure.py line 129 *)
Definition curve_colors : list string := repeated 3 TABLEAU_COLORS.
(** main_render_detection_fraction_figure.py line 53, main_render_lambda_figure.py line 128: not repeated *)
Definition few_markers : list ascii := list_ascii_of_string "ov*sp^<>8P+xXDd|".

(** ** plotting.py *)
Record curve (F : Type) := mkCurve {
  c_label : string; c_marker : ascii; c_color : string; c_zorder : Z;
  c_points : list (F * R);          (* ax.plot: xs and ys *)
  c_band : list (F * (R * R)) }.    (* ax.fill_between: x_bounds, ys_low and ys_high *)
Arguments mkCurve {F}. Arguments c_label {F}. Arguments c_marker {F}. Arguments c_color {F}. Arguments c_zorder {F}.
Arguments c_points {F}. Arguments c_band {F}.

Section Curves.
  Context {F : Type} (fzero : F) (feqb fleb : F -> F -> bool).
  (** line 44: e.with_changes(noise=0) *)
  Definition without_noise (d : desc F) : desc F := with_changes d None None None None None (Some fzero) None None None.
  (** lines 55-56: the dictionary from noise to shots, in the order of its sorted keys *)
  Definition by_noise (vals : problem_data F) : list (F * shot_data F) :=
    isort (fun a b => fleb (fst a) (fst b)) (fold_left (fun m '(k, v) => dupd feqb (d_noise k) v (fun _ => v) m) vals []).
  (** lines 56-66 *)
  Fixpoint points_and_band (cells : Z) (l : list (F * shot_data F)) : res (list (F * R) * list (F * (R * R))) :=
    match l with
    | [] => Ok ([], [])
    | (noise, s) :: r =>
        let! here := if (num_correct s <? num_shots s)%Z
                     then let! y := total_error_to_per_piece_error (rate s) cells in Ok [(noise, y)] else Ok [] in
        let! (low, high) := likely_error_rate_bounds (num_shots s) (num_correct s) (1 / 1000) in
        let! y_low := total_error_to_per_piece_error low cells in
        let! y_high := total_error_to_per_piece_error high cells in
        let! (ps, bs) := points_and_band cells r in
        Ok (here ++ ps, (noise, (y_low, y_high)) :: bs)
    end.
  (** line 67 *)
  Definition curve_label (k : desc F) : string :=
    (str_int (d_rounds k) ++ " rounds, " ++ str_int (d_width k) ++ "x" ++ str_int (d_height k) ++ " data")%string.
  (** lines 44-70, the body of the loop for the order-th group *)
  Definition one_curve (marker_offset order : Z) (key : desc F) (vals : problem_data F) : res (curve F) :=
    let! cells := if (d_distance key =? 0)%Z then Err ZeroDivisionError else Ok (ceil_div (d_rounds key) (d_distance key)) in
    let! (ps, bs) := points_and_band cells (by_noise vals) in
    let! m := py_index curve_markers (order + marker_offset) in
    let! c := py_index curve_colors (order + marker_offset) in
    Ok (mkCurve (curve_label key) m c (100 - order) ps bs).
  (** lines 44-70: the loop over the groups *)
  Fixpoint curves_from (marker_offset order : Z) (groups : list (desc F * problem_data F)) : res (list (curve F)) :=
    match groups with
    | [] => Ok []
    | (key, vals) :: r =>
        let! c := one_curve marker_offset order key vals in
        let! cs := curves_from marker_offset (order + 1) r in
        Ok (c :: cs)
    end.
  (** lines 22-110, what is drawn for the data *)
  Definition plot_data (data : problem_data F) (marker_offset : Z) : res (list (curve F)) :=
    curves_from marker_offset 0 (grouped_by feqb (desc_eqb feqb) (desc_leb feqb fleb) without_noise data).
End Curves.

(** lines 76-83: format_tick, on an exact p.  Each step multiplies by ten; the fuel is
    the number of binary digits of the denominator, enough by C70. *)
Fixpoint tick_loop (fuel : nat) (p : Q) (k : Z) : res (Q * Z) :=
  if Qle_bool 1 p then Ok (p, k)
  else match fuel with O => Err OutOfFuel | S n => tick_loop n (p * 10)%Q (k + 1) end.
(** lines 76-83 *)
Definition format_tick (p : Q) : res string :=
  let! _ := assert_ (negb (Qle_bool p 0)) in
  let! (p, k) := tick_loop (S (Z.to_nat (Z.log2_up (Zpos (Qden p))))) p 0 in
  let! _ := assert_ (negb (Qle_bool (1 # 10000) (p - inject_Z (Qround.Qfloor p)))) in
  Ok (str_int (Qround.Qfloor p) ++ "e-" ++ str_int k)%string.
(** lines 90-91 *)
Definition axis_ticks (low high : Q) : list Q :=
  (if Qle_bool (1 # 2) high then [1 # 2] else [])
  ++ filter (fun x => Qle_bool low x && Qle_bool x high) (map (fun p => 1 # (10 ^ p))%positive [1; 2; 3; 4; 5; 6; 7; 8; 9]%positive).
(** lines 84-89: the limits of the two axes *)
Definition axis_limits (focus_on_threshold : bool) : (Q * Q) * (Q * Q) :=
  if focus_on_threshold then ((5 # 10000, 1 # 100), (1 # 100, 1 # 10))
  else ((1 # 10000, 3 # 100), (1 # 100000000, 1 # 2)).
(** lines 90-101: positions and labels of the ticks of the two axes *)
Definition labelled_ticks (limits : Q * Q) : res (list (Q * string)) :=
  mapM (fun x => let! s := format_tick x in Ok (x, s)) (axis_ticks (fst limits) (snd limits)).

(** ** main_render_threshold_figure.py lines 42-99: which data goes in which panel; one
    list of rows per column *)
Definition threshold_styles (focused : bool) : list (string * list (option (string * string * string))) :=
  if focused then
    [("SD6", [Some ("surface_SD6", "Z", "internal_correlated"); Some ("honeycomb_SD6", "H", "internal_correlated")]);
     ("SI1000", [Some ("surface_SI1000", "Z", "internal_correlated"); Some ("honeycomb_SI1000", "H", "internal_correlated")]);
     ("EM3", [None; Some ("honeycomb_EM3_v2", "H", "internal_correlated")])]%string
  else
    [("SD6", [Some ("surface_SD6", "X", "internal"); Some ("surface_SD6", "Z", "internal");
              Some ("surface_SD6", "X", "internal_correlated"); Some ("surface_SD6", "Z", "internal_correlated");
              Some ("honeycomb_SD6", "H", "internal"); Some ("honeycomb_SD6", "V", "internal");
              Some ("honeycomb_SD6", "H", "internal_correlated"); Some ("honeycomb_SD6", "V", "internal_correlated")]);
     ("SI1000", [Some ("surface_SI1000", "X", "internal"); Some ("surface_SI1000", "Z", "internal");
              Some ("surface_SI1000", "X", "internal_correlated"); Some ("surface_SI1000", "Z", "internal_correlated");
              Some ("honeycomb_SI1000", "H", "internal"); Some ("honeycomb_SI1000", "V", "internal");
              Some ("honeycomb_SI1000", "H", "internal_correlated"); Some ("honeycomb_SI1000", "V", "internal_correlated")]);
     ("EM3", [None; None; None; None;
              Some ("honeycomb_EM3_v2", "H", "internal"); Some ("honeycomb_EM3_v2", "V", "internal");
              Some ("honeycomb_EM3_v2", "H", "internal_correlated"); Some ("honeycomb_EM3_v2", "V", "internal_correlated")])]%string.
(** equality of the keys of line 101 *)
Definition triple_eqb (a b : string * string * string) : bool :=
  let '(a1, a2, a3) := a in let '(b1, b2, b3) := b in ((a1 =? b1) && (a2 =? b2) && (a3 =? b3))%string.
(** the order of the keys of line 101 *)
Definition triple_leb (a b : string * string * string) : bool :=
  let '(a1, a2, a3) := a in let '(b1, b2, b3) := b in
  lex String.eqb String.leb a1 b1 (lex String.eqb String.leb a2 b2 (lex String.eqb String.leb a3 b3 true)).

Section Threshold.
  Context {F : Type} (fzero : F) (feqb fleb : F -> F -> bool).
  (** all_groups.get(key, ProblemShotData({})) *)
  Definition group_or_empty {K} (keqb : K -> K -> bool) (k : K) (groups : list (K * problem_data F)) : problem_data F :=
    match dget keqb k groups with Some g => g | None => [] end.
  (** lines 101, 116-125: the curves of one panel *)
  Definition threshold_panel (all_data : problem_data F) (k : string * string * string) : res (list (curve F)) :=
    let all_groups := grouped_by feqb triple_eqb triple_leb (fun e => (d_style e, d_obs e, d_decoder e)) all_data in
    plot_data fzero feqb fleb (group_or_empty triple_eqb k all_groups) (if str_in (snd (fst k)) "XZ" then 4 else 0).
  (** lines 109-125: columns in order, rows in order; None for a panel that is switched off *)
  Definition plot_thresholds (all_data : problem_data F) (focused : bool) : res (list (string * list (option (list (curve F))))) :=
    mapM (fun '(name, cases) =>
            let! ps := mapM (fun c => match c with None => Ok None | Some k => let! p := threshold_panel all_data k in Ok (Some p) end) cases in
            Ok (name, ps)) (threshold_styles focused).
End Threshold.
(** lines 127-143: the texts of the legend; [axs[0][0]] and [axs[-1][0]] are used panels
    of the first column *)
Definition threshold_legend {F} (fig : list (string * list (option (list (curve F))))) : list string :=
  let labels p := match p with Some (Some cs) => map c_label cs | _ => [] end in
  let col0 := match fig with (_, ps) :: _ => ps | [] => [] end in
  ("Surface Code Sizes:"%string :: labels (nth_error col0 0)) ++ ("Honeycomb Code Sizes:"%string :: labels (nth_error col0 (length col0 - 1))).

(** ** main_render_detection_fraction_figure.py
    lines 36-43; the line breaks of the titles are written as spaces *)
Definition detection_styles : list (string * string) :=
  [("surface_SD6", "SD6 Surface Code"); ("surface_SI1000", "SI1000 Surface Code"); ("honeycomb_SD6", "SD6 Honeycomb Code");
   ("honeycomb_SI1000", "SI1000 Honeycomb Code"); ("honeycomb_EM3_v2", "EM3 Honeycomb Code"); ("honeycomb_EM3", "Tweaked EM3 Honeycomb Code")]%string.
Section Detection.
  Context {F : Type} (feqb fleb : F -> F -> bool).
  (** index in a list *)
  Fixpoint position (x : F) (l : list F) : option nat :=
    match l with [] => None | y :: r => if feqb x y then Some O else option_map S (position x r) end.
  (** set(...) of a list *)
  Fixpoint dedup (l : list F) : list F := match l with [] => [] | x :: r => if existsb (feqb x) r then dedup r else x :: dedup r end.
  (** line 45: the noise values in order; p2i is the position in this list *)
  Definition all_noises (data : problem_data F) : list F := isort fleb (dedup (map (fun e => d_noise (fst e)) data)).
  (** p2i[noise], lines 45 and 64 *)
  Definition p2i (data : problem_data F) (noise : F) : res Z :=
    match position noise (all_noises data) with Some i => Ok (Z.of_nat i) | None => Err KeyError end.
  (** lines 57-65: one line per noise value; the labels are str(noise) *)
  Record line := mkLine { n_noise : F; n_marker : ascii; n_color : string; n_points : list (Z * R) }.
  (** lines 58-65: one line *)
  Definition detection_line (all_data : problem_data F) (noise : F) (vals : problem_data F) : res line :=
    let! order := p2i all_data noise in
    let! m := py_index few_markers order in
    let! c := py_index curve_colors order in
    Ok (mkLine noise m c (map (fun '(k, v) => (d_distance k, rate v)) vals)).
  (** lines 55-65 *)
  Definition plot_detection_fraction (all_data : problem_data F) : res (list (string * list line)) :=
    let all_groups := grouped_by feqb String.eqb String.leb d_style all_data in
    mapM (fun '(style, title) =>
            let! ls := mapM (fun '(noise, vals) => detection_line all_data noise vals)
                            (grouped_by feqb feqb fleb d_noise (group_or_empty String.eqb style all_groups)) in
            Ok (title, ls)) detection_styles.
  (** lines 74-75: the legend has the lines of axs[-2], the last of the panels, last first *)
  Definition detection_legend (fig : list (string * list line)) : list F :=
    rev (map n_noise (match rev fig with (_, ls) :: _ => ls | [] => [] end)).
End Detection.
Arguments line F : clear implicits.

(** ** main_render_lambda_figure.py, the plotting functions *)
Definition pair_eqb (a b : string * string) : bool := let '(a1, a2) := a in let '(b1, b2) := b in ((a1 =? b1) && (a2 =? b2))%string.
(** the order of the keys of lines 109, 195 and 281 *)
Definition pair_leb (a b : string * string) : bool :=
  let '(a1, a2) := a in let '(b1, b2) := b in lex String.eqb String.leb a1 b1 (lex String.eqb String.leb a2 b2 true).
(** lines 62-102 *)
Definition fit_styles (focus : bool) : list (string * list (option (string * string))) :=
  if focus then
    [("SD6", [Some ("surface_SD6", "internal_correlated"); Some ("honeycomb_SD6", "internal_correlated")]);
     ("SI1000", [Some ("surface_SI1000", "internal_correlated"); Some ("honeycomb_SI1000", "internal_correlated")]);
     ("EM3", [None; Some ("honeycomb_EM3_v2", "internal_correlated")])]%string
  else
    [("SD6", [Some ("surface_SD6", "internal"); Some ("surface_SD6", "internal_correlated"); Some ("honeycomb_SD6", "internal"); Some ("honeycomb_SD6", "internal_correlated")]);
     ("SI1000", [Some ("surface_SI1000", "internal"); Some ("surface_SI1000", "internal_correlated"); Some ("honeycomb_SI1000", "internal"); Some ("honeycomb_SI1000", "internal_correlated")]);
     ("EM3", [None; None; Some ("honeycomb_EM3_v2", "internal"); Some ("honeycomb_EM3_v2", "internal_correlated")])]%string.
(** lines 176-193 and 262-279 *)
Definition combo_styles : list (string * list (string * string)) :=
  [("SD6", [("honeycomb_SD6", "internal"); ("honeycomb_SD6", "internal_correlated"); ("surface_SD6", "internal"); ("surface_SD6", "internal_correlated")]);
   ("SI1000", [("honeycomb_SI1000", "internal"); ("honeycomb_SI1000", "internal_correlated"); ("surface_SI1000", "internal"); ("surface_SI1000", "internal_correlated")]);
   ("EM3", [("honeycomb_EM3_v2", "internal"); ("honeycomb_EM3_v2", "internal_correlated")])]%string.

(** label.endswith(suffix), and the label without it *)
Definition ends_with (suffix s : string) : bool := String.prefix (string_of_list_ascii (rev (list_ascii_of_string suffix))) (string_of_list_ascii (rev (list_ascii_of_string s))).
(** label[:-n] *)
Definition drop_end (n : nat) (s : string) : string := String.substring 0 (String.length s - n) s.
(** str.upper on one character *)
Definition upper_char (c : ascii) : ascii :=
  let n := nat_of_ascii c in if andb (97 <=? n)%nat (n <=? 122)%nat then ascii_of_nat (n - 32) else c.
(** str.capitalize for ASCII *)
Definition capitalize (s : string) : string := match s with EmptyString => EmptyString | String c r => String (upper_char c) (lower r) end.
(** lines 228-237 and 315-324 *)
Definition combo_label (name : string) (rep : desc Q) : string :=
  let label := d_style rep in
  let label := if ends_with "_v2" label then drop_end 3 label else label in
  let label := if ends_with ("_" ++ name) label then drop_end (String.length name + 1) label else label in
  (capitalize label ++ (if str_in "correlated" (d_decoder rep) then " (Correlated)" else " (Standard)"))%string.

Section Lambda.
  Context (leastsq : (R -> R) -> R) (fuel : nat).
  (** ProblemShotData with exact noise values *)
  Definition qdata := problem_data Q.
  (** all_groups of lines 109, 195 and 281 *)
  Definition style_groups (all_data : qdata) : list ((string * string) * qdata) :=
    grouped_by Qeq_bool pair_eqb pair_leb (fun e => (d_style e, d_decoder e)) all_data.
  (** sorted(groups.keys()), with the groups *)
  Definition by_noise_value (groups : list (Q * lambda_group Q)) : list (Q * lambda_group Q) :=
    isort (fun a b => Qle_bool (fst a) (fst b)) groups.

  (** lines 124-143: one panel of plot_lambda_line_fits_combo.  A dashed line runs from
      error 1 to error 10^-13; a scatter has the points of the fit. *)
  Record fit_marks := mkFit { f_noise : Q; f_color : string; f_marker : ascii; f_dashed : option (R * R); f_scatter : list (Z * R) }.
  (** lines 133-143: one group *)
  Definition fit_one (all_data : qdata) (noise : Q) (g : lambda_group Q) : res fit_marks :=
    let! _ := linear_fit_d_to_log_err g in
    let! pts := combo_data g in
    let! order := p2i Qeq_bool Qle_bool all_data noise in
    let! sup := appears_to_be_suppressing_errors g in
    let! dashed :=
      if sup then
        let! x1 := projected_distance g 1 in
        let! x2 := projected_distance g (1 / 10 ^ 13) in
        let! _ := py_index curve_colors order in
        Ok (Some (x1, x2))
      else Ok None in
    let! c := py_index curve_colors order in
    let! m := py_index few_markers order in
    Ok (mkFit noise c m dashed pts).
  (** lines 124-143: one panel *)
  Definition fit_panel (all_data : qdata) (k : string * string) : res (list fit_marks) :=
    let! groups := groups_from_data (group_or_empty pair_eqb k (style_groups all_data)) in
    mapM (fun '(noise, g) => fit_one all_data noise g) (by_noise_value groups).
  (** lines 109-147 *)
  Definition plot_lambda_line_fits_combo (all_data : qdata) (focus : bool) : res (list (string * list (option (list fit_marks)))) :=
    mapM (fun '(name, cases) =>
            let! ps := mapM (fun c => match c with None => Ok None | Some k => let! p := fit_panel all_data k in Ok (Some p) end) cases in
            Ok (name, ps)) (fit_styles focus).

  (** The two summary figures have the same loop; [project] gives low, value and high of a
      group for a style. *)
  Record summary_line (Y : Type) := mkSummary { s_label : string; s_marker : ascii; s_zorder : Z; s_points : list (Q * (Y * Y * Y)) }.
  Arguments mkSummary {Y}. Arguments s_label {Y}. Arguments s_marker {Y}. Arguments s_zorder {Y}. Arguments s_points {Y}.
  Section Summary.
    Context {Y : Type} (project : lambda_group Q -> string -> res (Y * Y * Y)).
    (** lines 216-226 and 302-313: the points, and the ones noted as poor *)
    Fixpoint summary_points (style : string) (groups : list (Q * lambda_group Q)) : res (list (Q * (Y * Y * Y)) * list (Q * Y)) :=
      match groups with
      | [] => Ok ([], [])
      | (noise, g) :: r =>
          let! sup := appears_to_be_suppressing_errors g in
          let! here := if sup then let! y := project g style in Ok [y] else Ok [] in
          let! (ps, poor) := summary_points style r in
          Ok (map (fun y => (noise, y)) here ++ ps,
              (if has_low_confidence_extrapolation g then map (fun y => (noise, snd (fst y))) here else []) ++ poor)
      end.
    (** lines 204-239 and 290-326: one column; [zorder] of the column and the case *)
    Fixpoint summary_cases (all_data : qdata) (name : string) (zorder : Z -> Z) (case_i : Z) (cases : list (string * string))
        : res (list (summary_line Y) * list (Q * Y)) :=
      match cases with
      | [] => Ok ([], [])
      | (style, decoder) :: r =>
          let! groups := groups_from_data (group_or_empty pair_eqb (style, decoder) (style_groups all_data)) in
          match by_noise_value groups with
          | [] => summary_cases all_data name zorder (case_i + 1) r
          | ((_, g0) :: _) as sorted =>
              let! (ps, poor) := summary_points style sorted in
              let! m := py_index (list_ascii_of_string "ov*s") case_i in
              let! (ls, poors) := summary_cases all_data name zorder (case_i + 1) r in
              Ok (mkSummary (combo_label name (g_rep g0)) m (zorder case_i) ps :: ls, poor ++ poors)
          end
      end.
  End Summary.
  (** a column: title, lines, and the red marks if they are drawn *)
  Definition summary_column (Y : Type) := (string * list (summary_line Y) * option (list (Q * Y)))%type.

  (** lines 201-251 of plot_lambda_combo.  have_any_poor is never assigned after line 200,
      so the marks of lines 240-241 are never drawn. *)
  Fixpoint lambda_columns (all_data : qdata) (have_any_poor : bool) (i : Z) (styles : list (string * list (string * string))) : res (list (summary_column R)) :=
    match styles with
    | [] => Ok []
    | (name, cases) :: r =>
        let! (ls, poor) := summary_cases (fun g _ => projected_lambda_range g leastsq fuel) all_data name (fun _ => 100 - i)%Z 0 cases in
        let! rest := lambda_columns all_data have_any_poor (i + 1) r in
        Ok ((name, ls, if have_any_poor then Some poor else None) :: rest)
    end.
  (** lines 175-258 *)
  Definition plot_lambda_combo (all_data : qdata) : res (list (summary_column R)) := lambda_columns all_data false 0 combo_styles.

  (** lines 305-306 *)
  Definition teraquop_range (g : lambda_group Q) (style : string) : res (Q * Q * Q) :=
    let! y := projected_required_qubit_count g (1 / 10 ^ 12) style in
    let! (low, high) := projected_qubit_count_range g leastsq fuel (1 / 10 ^ 12) style in
    Ok (low, y, high).
  (** lines 287-340 *)
  Fixpoint teraquop_columns (all_data : qdata) (have_any_poor : bool) (styles : list (string * list (string * string))) : res (list (summary_column Q)) :=
    match styles with
    | [] => Ok []
    | (name, cases) :: r =>
        let! (ls, poor) := summary_cases teraquop_range all_data name (fun case_i => 100 - case_i)%Z 0 cases in
        let have_any_poor := have_any_poor || match poor with [] => false | _ => true end in
        let! rest := teraquop_columns all_data have_any_poor r in
        Ok ((name, ls, if have_any_poor then Some poor else None) :: rest)
    end.
  (** lines 261-346 *)
  Definition plot_teraquop_combo (all_data : qdata) : res (list (summary_column Q)) := teraquop_columns all_data false combo_styles.
End Lambda.
