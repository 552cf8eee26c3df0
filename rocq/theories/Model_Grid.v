(** The gridded outputs (cfg.write_npy): /repo/moonpies/moonpies.py.  Definitions only. *)
From Coq Require Import String List ZArith Reals Bool.
From Verif Require Import Base Model_Geo Model_Crater.
Import ListNotations.
Open Scope R_scope.

(** [np.arange(start, stop, step, dtype)] for Python ints: the length is the quotient rounded
    up, an empty array if negative.  The first two elements are exact integers stored in the
    dtype; the others are computed in the dtype from these two ([FLOAT_fill] of numpy).
    [rnd] is the conversion to the dtype. *)
Definition arange (rnd : R -> R) (start stop step : Z) : result (list R) :=
  if Z.eqb step 0 then Err ZeroDivisionError
  else
    let n := (- ((start - stop) / step))%Z in
    let v0 := rnd (IZR start) in
    let v1 := rnd (IZR (start + step)) in
    let delta := rnd (v1 - v0) in
    Ok (map (fun i => match i with
                      | O => v0
                      | S O => v1
                      | _ => rnd (v0 + rnd (rnd (INR i) * delta))
                      end) (seq 0 (Z.to_nat n))).

(** moonpies.py:2704-2719 [get_grid_arrays]: the values along y and along x. *)
Definition get_grid_arrays (rnd : R -> R) (xsize ysize step : Z) : result (list R * list R) :=
  let* ys := arange rnd ysize (- ysize - step) (- step) in
  let* xs := arange rnd (- xsize) (xsize + step) step in
  Ok (ys, xs).

(** moonpies.py:2498-2506, the distances of one crater, rows along y.  Points outside the
    sphere are NaN. *)
Definition dist_rows (rp ej_thr basin_thr : R) (xs ys : list R) (s : site) : list (list (option R)) :=
  map (fun y => map (fun x =>
    if Rltb (rp ^ 2) (x ^ 2 + y ^ 2) then None
    else let (lat, lon) := xy2latlon rp x y in dist_cell ej_thr basin_thr s lon lat) xs) ys.

(** Position of the label [i] used as an index into an array of [n]: negative ones count from
    the end. *)
Definition position (n : nat) (i : Z) : result nat :=
  let k := (if i <? 0 then i + Z.of_nat n else i)%Z in
  if ((k <? 0) || (Z.of_nat n <=? k))%Z then Err IndexError else Ok (Z.to_nat k).

(** moonpies.py:2496-2507 [get_gc_dist_grid]: the loop over (index label, row) of
    [df.iterrows()], where the label is used as the position; [nx] by [ny] zeros at first.
    Storing rows along y in an array of shape (nx, ny) needs nx = ny.  The rounding to
    cfg.dtype is left out. *)
Definition get_gc_dist_grid (rp ej_thr basin_thr : R) (xs ys : list R) (df : list (Z * site))
  : result (list (list (list (option R)))) :=
  let n := length df in
  let zeros := repeat (repeat (repeat (Some 0) (length ys)) (length xs)) n in
  fold_left (fun acc '(i, s) =>
    let* grd := acc in
    let* k := position n i in
    if Nat.eqb (length xs) (length ys)
    then set grd k (dist_rows rp ej_thr basin_thr xs ys s) else Err ValueError) df (Ok zeros).

(** moonpies.py:2433-2468 [get_grid_outputs]: the radii [df.rad.values] follow the order of
    the rows. *)
Definition get_grid_outputs (c : ccfg) (sort : list site -> list site)
  (timestart ej_thr basin_thr : R) (xs ys : list R) (df : list (Z * site))
  : result (list (list R) * list (list (list R))) :=
  let* ages := get_age_grid sort (rad_moon c) timestart ej_thr basin_thr xs ys (map snd df) in
  let* dists := get_gc_dist_grid (rad_moon c) ej_thr basin_thr xs ys df in
  Ok (ages, map (fun '(s, m) => map (map (fun d => get_ejecta_thickness c d (s_rad s))) m)
                (combine (map snd df) dists)).
