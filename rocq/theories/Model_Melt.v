(** Melt fraction lookup and ballistic sedimentation: /repo/moonpies/moonpies.py. *)
From Coq Require Import String List ZArith Reals Bool.
From Verif Require Import Base Model_Time Model_Geo Model_Interp Model_Crater Model_Strat.
Import ListNotations.
Open Scope R_scope.

(** The melt fraction table (moonpies.py:442-462 [read_ballistic_melt_frac]): mixing
    ratios, temperatures and one row of values per mixing ratio.  The conversion of the
    file to cfg.dtype is left out. *)
Record table := mk_table { t_mrs : list R; t_temps : list R; t_vals : list (list R) }.

(** [np.sort(np.unique(l))]. *)
Fixpoint insert_uniq (x : R) (l : list R) : list R :=
  match l with
  | [] => [x]
  | y :: r => if Rltb x y then x :: l else if Reqb x y then l else y :: insert_uniq x r
  end.
Definition sort_unique (l : list R) : list R := fold_right insert_uniq [] l.

(** moonpies.py:1157-1163 [insert_unique_in_range]; [src] without NaNs.  ValueError from
    [target.min()] on an empty axis. *)
Definition insert_unique_in_range (src target : list R) : result (list R) :=
  match target with
  | [] => Err ValueError
  | x :: r =>
    let uniq := filter (fun u => Rltb (list_min x r) u && Rltb u (list_max x r)) src in
    Ok (sort_unique (target ++ uniq))
  end.

(** Position of a label of an index; [None] if absent. *)
Fixpoint index_of (x : R) (l : list R) : option nat :=
  match l with
  | [] => None
  | y :: r => if Reqb x y then Some O else option_map S (index_of x r)
  end.

(** One cell after [reindex] (moonpies.py:1168): NaN where the table has no such label. *)
Definition cell (t : table) (mr temp : R) : option R :=
  match index_of mr (t_mrs t), index_of temp (t_temps t) with
  | Some i, Some j => match nth_error (t_vals t) i with Some row => nth_error row j | None => None end
  | _, _ => None
  end.

(** Series.interpolate() with its default method "linear": the labels are ignored, the
    valid entries are knots at their positions [k], [k+1], ... (pandas calls np.interp
    on the positions); entries before the first valid one stay NaN. *)
Fixpoint knots_from (k : nat) (l : list (option R)) : list (R * R) :=
  match l with
  | [] => []
  | Some v :: r => (INR k, v) :: knots_from (S k) r
  | None :: r => knots_from (S k) r
  end.
Definition fill_at (knots : list (R * R)) (k : nat) (v : option R) : option R :=
  match v with
  | Some _ => v
  | None =>
    match knots with
    | [] => None
    | (x0, _) :: _ =>
      if Rltb (INR k) x0 then None
      else match interp knots (INR k) with Ok y => Some y | Err _ => None end
    end
  end.
Definition interpolate (l : list (option R)) : list (option R) :=
  let knots := knots_from 0 l in
  map (fun '(k, v) => fill_at knots k v) (combine (seq 0 (length l)) l).

(** moonpies.py:1168-1169: the table on the labels [mrs] and [temps], interpolated down
    each column and then along each row; a list of rows. *)
Definition interp_table (t : table) (mrs temps : list R) : list (list (option R)) :=
  let cols := map (fun temp => interpolate (map (fun mr => cell t mr temp) mrs)) temps in
  map (fun i => interpolate (map (fun col => nth i col None) cols)) (seq 0 (length mrs)).

(** [minterp.loc[mr, temp]]: KeyError for an unknown label. *)
Definition loc (m : list (list (option R))) (mrs temps : list R) (mr temp : R)
  : result (option R) :=
  match index_of mr mrs, index_of temp temps with
  | Some i, Some j => Ok (nth j (nth i m []) None)
  | _, _ => Err KeyError
  end.

(** The non-NaN elements of a 2D array. *)
Definition non_nan (m : list (list (option R))) : list R :=
  flat_map (fun o => match o with Some x => [x] | None => [] end) (concat m).

(** moonpies.py:1137-1177 [get_melt_frac]; the result is 0 at NaN mixing ratios. *)
Definition get_melt_frac (t : table) (ejecta_temps : list (list R))
  (mixing_ratios : list (list (option R))) : result (list (list (option R))) :=
  let* temps := insert_unique_in_range (concat ejecta_temps) (t_temps t) in
  let* mrs := insert_unique_in_range (non_nan mixing_ratios) (t_mrs t) in
  let minterp := interp_table t mrs temps in
  mapM (fun '(trow, mrow) =>
    mapM (fun '(temp, mr) =>
            match mr with
            | Some m => loc minterp mrs temps m temp
            | None => Ok (Some 0)
            end) (combine trow mrow)) (combine ejecta_temps mixing_ratios).

(** The options used by ballistic sedimentation (config.py:98-115). *)
Record bcfg := mk_bcfg {
  bsed_on : bool; mr_a : R; mr_b : R; mr_petro : bool; temp_init : R;
  basin_warm : bool; temp_warm : R; temp_cold : R; frac_lost : R }.

(** moonpies.py:1310-1347 [get_mixing_ratio_oberbeck] on a 2D array; NaN stays NaN. *)
Definition get_mixing_ratio_oberbeck (b : bcfg) (dists : list (list (option R)))
  : list (list (option R)) :=
  map (map (option_map (mixing_ratio (mr_a b) (mr_b b) (mr_petro b)))) dists.

(** moonpies.py:1185-1218 [ejecta_temp] with shape (number of craters, [ncol]). *)
Definition ejecta_temp (b : bcfg) (ncol : nat) (df : list site) : list (list R) :=
  let basin_t := if basin_warm b then temp_warm b else temp_cold b in
  map (fun s => repeat (if s_basin s then basin_t else temp_init b) ncol) df.

(** [np.nanmax] of two values. *)
Definition nanmax (a b : option R) : option R :=
  match a, b with
  | Some x, Some y => Some (Rmax x y)
  | Some x, None => Some x
  | None, o => o
  end.

(** moonpies.py:1256-1307 [get_bsed_depth]: depths and melt fractions, one row per time
    and one entry per cold trap.  Products are exact; a product with NaN is NaN. *)
Definition omul (a b : option R) : option R :=
  match a, b with Some x, Some y => Some (x * y) | _, _ => None end.
Definition get_bsed_depth (c : ccfg) (b : bcfg) (t : table) (thick_min tol : R) (ncol : nat)
  (time : list R) (df : list site) (dists : list (list (option R)))
  : result (list (list (option R)) * list (list (option R))) :=
  if bsed_on b then
    let mixing := get_mixing_ratio_oberbeck b dists in
    let* melt := get_melt_frac t (ejecta_temp b ncol df) mixing in
    let* (ej, _) := get_ejecta_thickness_time c thick_min tol ncol time df dists in
    let ages := map s_age df in
    let* mixing_t := ages2time (zipw nanmax) (repeat (Some 0) ncol) tol time (combine ages mixing) in
    let depths := map (fun '(e, m) => zipw (fun x y => omul (Some x) y) e m) (combine ej mixing_t) in
    let* melt_t := ages2time (zipw nanmax) (repeat (Some 0) ncol) tol time (combine ages melt) in
    Ok (depths, map (map (omul (Some (frac_lost b)))) melt_t)
  else
    let z := map (fun _ => repeat (Some 0) ncol) time in
    Ok (z, z).
