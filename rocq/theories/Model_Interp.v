(** [np.interp] and [np.linspace] tables. *)
From Coq Require Import List Reals Bool.
From Verif Require Import Base.
Import ListNotations.
Open Scope R_scope.

(** [np.interp(x, xp, fp)] for [x >= x0]: [(x0, y0)] is the last knot not above
    [x] so far, [rest] the knots after it. *)
Fixpoint interp_from (x0 y0 : R) (rest : list (R * R)) (x : R) : R :=
  match rest with
  | [] => y0
  | (x1, y1) :: r =>
    if Rltb x x1 then (y1 - y0) / (x1 - x0) * (x - x0) + y0
    else interp_from x1 y1 r x
  end.

(** [np.interp(x, xp, fp)] for increasing [xp] (numpy bisects, which finds the
    same knot); ValueError for an empty table. *)
Definition interp (knots : list (R * R)) (x : R) : result R :=
  match knots with
  | [] => Err ValueError
  | (x0, y0) :: r => Ok (if Rltb x x0 then y0 else interp_from x0 y0 r x)
  end.
