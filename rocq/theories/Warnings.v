(** Model of the warnings printed by LambdaGroup.combo_data (lines 356-381 of
    src/paper/main_render_lambda_figure.py), which PaperFit.v leaves out.  A warning is
    given by the observable and the distance it names. *)
From Coq Require Import QArith Qreals.
From Coq Require Import Reals Lra.
From Verif Require Import Prelude Layout Collect Prob Paper PaperFit.
Open Scope R_scope.

Section Group.
  Context {F : Type} (g : lambda_group F).
  (** lines 367-369 and 370-372, for one distance; p1 keeps its old value until line 371 *)
  Definition warns (d : Z) : list (string * Z) :=
    (match dget Z.eqb d (pairs_v g) with None => [("V"%string, d)] | Some _ => [] end) ++
    (match dget Z.eqb d (pairs_h g) with None => [("H"%string, d)] | Some _ => [] end).
  (** lines 361-381: the loop, with what it prints *)
  Fixpoint combo_said (ds : list Z) : list (string * Z) * res (list (Z * R)) :=
    match ds with
    | [] => ([], Ok [])
    | d :: r =>
        match combo g [d] with
        | Err e => (warns d, Err e)
        | Ok one =>
            let '(said, rest) := combo_said r in
            (warns d ++ said, let! rest := rest in Ok (one ++ rest))
        end
    end.
  (** lines 356-381 *)
  Definition combo_data_said : list (string * Z) * res (list (Z * R)) := combo_said (distances g).
End Group.
