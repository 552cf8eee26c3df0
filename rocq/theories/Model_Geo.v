(** Geometry on the sphere and on the polar grid: /repo/moonpies/moonpies.py. *)
From Coq Require Import List String Reals Bool.
From Verif Require Import Base.
Import ListNotations.
Open Scope R_scope.

(** [np.deg2rad], [np.rad2deg]. *)
Definition deg2rad (x : R) : R := x * (PI / 180).
Definition rad2deg (x : R) : R := x * (180 / PI).

(** [np.arctan2(y, x)]; signed zeros are not distinguished. *)
Definition atan2 (y x : R) : R :=
  if Rltb 0 x then atan (y / x)
  else if Rltb x 0 then (if Rleb 0 y then atan (y / x) + PI else atan (y / x) - PI)
  else if Rltb 0 y then PI / 2
  else if Rltb y 0 then - (PI / 2)
  else 0.

(** moonpies.py:2782-2785: the haversine term [a] of [gc_dist]. *)
Definition haversine (lon1 lat1 lon2 lat2 : R) : R :=
  let lon1 := deg2rad lon1 in let lat1 := deg2rad lat1 in
  let lon2 := deg2rad lon2 in let lat2 := deg2rad lat2 in
  let sin2_dlon := sin ((lon2 - lon1) / 2) ^ 2 in
  let sin2_dlat := sin ((lat2 - lat1) / 2) ^ 2 in
  sin2_dlat + cos lat1 * cos lat2 * sin2_dlon.

(** moonpies.py:2764-2789 [gc_dist] (exact arithmetic; [rp] is the radius). *)
Definition gc_dist (rp lon1 lat1 lon2 lat2 : R) : R :=
  let a := haversine lon1 lat1 lon2 lat2 in
  rp * (2 * atan2 (sqrt a) (sqrt (1 - a))).

(** moonpies.py:2722-2740 [latlon2xy]. *)
Definition latlon2xy (rp lat lon : R) : R * R :=
  let lat := deg2rad lat in let lon := deg2rad lon in
  (rp * cos lat * sin lon, rp * cos lat * cos lon).

(** moonpies.py:2743-2761 [xy2latlon], for [x^2 + y^2 <= rp^2] (NaN otherwise). *)
Definition xy2latlon (rp x y : R) : R * R :=
  let z := sqrt (rp ^ 2 - x ^ 2 - y ^ 2) in
  (rad2deg (- asin (z / rp)), rad2deg (atan2 x y)).

(** The columns of the crater table that the geometry uses (moonpies.py:315-341). *)
Record site := mk_site {
  s_name : string; s_lon : R; s_lat : R; s_plon : R; s_plat : R;
  s_rad : R; s_age : R; s_basin : bool }.

(** moonpies.py:496-501: [None] is np.inf. *)
Definition ej_limit (ej_thr basin_thr : R) (s : site) : option R :=
  let thr := if s_basin s then basin_thr else ej_thr in
  if Rltb thr 0 then None else Some thr.

(** [d < threshold * rad] with an infinite threshold; [inf * rad] is inf for
    [rad > 0] (the only radii in the data). *)
Definition below_limit (d : R) (thr : option R) (rad : R) : bool :=
  match thr with Some t => Rltb d (t * rad) | None => true end.

(** The radius that [gc_dist] uses when called without [rp] (moonpies.py:2764). *)
Definition default_rp : R := 1737400.

(** moonpies.py:502-511, one element of [get_coldtrap_dists]; [None] is NaN.
    A name that occurs in no row gives an empty array, whose truth value is False;
    one that occurs in several rows gives an array without truth value. *)
Definition coldtrap_dist (ej_thr basin_thr : R) (sites : list site) (s : site)
  (cname : string) : result (option R) :=
  if String.eqb (s_name s) cname then Ok None
  else
    match filter (fun r => String.eqb (s_name r) cname) sites with
    | [] => Ok None
    | [dst] =>
      let d := gc_dist default_rp (s_lon s) (s_lat s) (s_plon dst) (s_plat dst) in
      if Rltb (s_rad s) d && below_limit d (ej_limit ej_thr basin_thr s) (s_rad s)
      then (if Rleb d 0 then Ok None else Ok (Some d)) else Ok None
    | _ => Err ValueError
    end.

(** moonpies.py:465-512 [get_coldtrap_dists]; rows in table order. *)
Definition get_coldtrap_dists (ej_thr basin_thr : R) (names : list string)
  (sites : list site) : result (list (list (option R))) :=
  mapM (fun s => mapM (coldtrap_dist ej_thr basin_thr sites s) names) sites.

(** moonpies.py:2535-2541, the value of one grid cell after the loop over craters
    ([sorted] is the table sorted by descending age); a negative threshold is used
    as it is. *)
Definition age_cell (timestart ej_thr basin_thr : R) (sorted : list site)
  (lon lat : R) : R :=
  fold_left (fun acc s =>
    let d := gc_dist default_rp (s_lon s) (s_lat s) lon lat in
    let thr := if s_basin s then basin_thr else ej_thr in
    if Rltb d (s_rad s * thr) then s_age s else acc) sorted timestart.

(** moonpies.py:2510-2542 [get_age_grid] on the sparse grid of x and y values;
    rows follow y.  A point outside the sphere has NaN coordinates, so no comparison holds
    there.  The age array has shape (nx, ny) and the distance array
    (ny, nx), so they combine only if nx = ny (sides of 1, which numpy would
    broadcast, are not modelled). *)
Definition get_age_grid (sort : list site -> list site) (rp timestart ej_thr basin_thr : R)
  (xs ys : list R) (sites : list site) : result (list (list R)) :=
  match sites with
  | [] => Ok (map (fun _ => map (fun _ => timestart) ys) xs)
  | _ =>
    if Nat.eqb (List.length xs) (List.length ys) then
      let sorted := sort sites in
      Ok (map (fun y => map (fun x =>
        if Rltb (rp ^ 2) (x ^ 2 + y ^ 2) then timestart else
        let (lat, lon) := xy2latlon rp x y in
        age_cell timestart ej_thr basin_thr sorted lon lat) xs) ys)
    else Err ValueError
  end.

(** moonpies.py:2494-2506, one element of [get_gc_dist_grid]; [None] is NaN. *)
Definition dist_cell (ej_thr basin_thr : R) (s : site) (lon lat : R) : option R :=
  let d := gc_dist default_rp (s_lon s) (s_lat s) lon lat in
  let thr := if s_basin s then basin_thr else ej_thr in
  if Rltb d (s_rad s) then None
  else if Rltb (thr * s_rad s) d then None
  else Some d.
