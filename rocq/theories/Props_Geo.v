(** Geometry: properties C15-C18. *)
From Coq Require Import String List ZArith Reals Lia Lra Bool Permutation Sorted.
From Verif Require Import Base Model_Geo Spec_Geo Proofs_Base Proofs_Geo.
Import ListNotations.
Open Scope R_scope.

(** ** C15 *)
Theorem C15_square_roots_defined : forall lon1 lat1 lon2 lat2,
  0 <= haversine lon1 lat1 lon2 lat2 /\ 0 <= 1 - haversine lon1 lat1 lon2 lat2.
Proof. intros. pose proof (haversine_range lon1 lat1 lon2 lat2). lra. Qed.

Theorem C15_symmetric : forall rp lon1 lat1 lon2 lat2,
  gc_dist rp lon1 lat1 lon2 lat2 = gc_dist rp lon2 lat2 lon1 lat1.
Proof. exact gc_dist_sym. Qed.

Theorem C15_range : forall rp lon1 lat1 lon2 lat2, 0 <= rp ->
  0 <= gc_dist rp lon1 lat1 lon2 lat2 <= PI * rp.
Proof. exact gc_dist_range. Qed.

Theorem C15_cosine : forall rp lon1 lat1 lon2 lat2, 0 < rp ->
  cos (gc_dist rp lon1 lat1 lon2 lat2 / rp) = dot (pos lon1 lat1) (pos lon2 lat2).
Proof. exact gc_dist_cos. Qed.

(** Range and cosine determine the distance. *)
Theorem C15_unique : forall rp lon1 lat1 lon2 lat2 d, 0 < rp -> 0 <= d <= PI * rp ->
  cos (d / rp) = dot (pos lon1 lat1) (pos lon2 lat2) -> d = gc_dist rp lon1 lat1 lon2 lat2.
Proof. exact gc_dist_unique. Qed.

Theorem C15_zero : forall rp lon1 lat1 lon2 lat2, 0 < rp ->
  (gc_dist rp lon1 lat1 lon2 lat2 = 0 <-> pos lon1 lat1 = pos lon2 lat2).
Proof. exact gc_dist_zero. Qed.

Theorem C15_triangle : forall rp lon1 lat1 lon2 lat2 lon3 lat3, 0 <= rp ->
  gc_dist rp lon1 lat1 lon3 lat3
  <= gc_dist rp lon1 lat1 lon2 lat2 + gc_dist rp lon2 lat2 lon3 lat3.
Proof. exact gc_dist_triangle. Qed.

(** A quarter of a great circle. *)
Example C15_case : gc_dist 2 0 0 90 0 = PI.
Proof.
  symmetry. pose proof PI_RGT_0. apply gc_dist_unique; [lra|nra|].
  unfold dot, pos. replace (0 * PI / 180) with 0 by field.
  replace (90 * PI / 180) with (PI / 2) by field.
  rewrite cos_PI2, sin_0, cos_0. rewrite !Rmult_0_r. lra.
Qed.

(** ** C16 *)
Theorem C16_coldtrap_dists : forall ej_thr basin_thr names sites,
  NoDup (map s_name sites) -> Forall (fun s => 0 <= s_rad s) sites ->
  (forall c, In c names -> exists dst, In dst sites /\ s_name dst = c) ->
  exists m, get_coldtrap_dists ej_thr basin_thr names sites = Ok m /\
    length m = length sites /\
    forall i j s dst, nth_error sites i = Some s -> In dst sites ->
      nth_error names j = Some (s_name dst) ->
      let d := gc_dist default_rp (s_lon s) (s_lat s) (s_plon dst) (s_plat dst) in
      let thr := if s_basin s then basin_thr else ej_thr in
      exists row, nth_error m i = Some row /\ length row = length names /\
        (nth_error row j = Some (Some d) \/ nth_error row j = Some None) /\
        (nth_error row j = Some (Some d) <->
           s_name s <> s_name dst /\ s_rad s < d /\ (thr < 0 \/ d < thr * s_rad s)).
Proof. exact coldtrap_dists_spec. Qed.

Example C16_case :
  let sites := [mk_site "Haworth" 0 (-87) 1 (-88) 25000 4000 false;
                mk_site "Faustini" 84 (-87) 84 (-87) 21000 4100 false;
                mk_site "Orientale" (-95) (-19) (-95) (-19) 460000 3800 true]%string in
  NoDup (map s_name sites) /\ Forall (fun s => 0 <= s_rad s) sites /\
  (forall c, In c ["Haworth"; "Faustini"]%string -> exists dst, In dst sites /\ s_name dst = c).
Proof.
  cbv zeta. split; [|split].
  - cbn [map s_name]. repeat constructor; cbn [In]; intuition discriminate.
  - repeat constructor; cbn [s_rad]; lra.
  - intros c [<-|[<-|[]]]; [exists (mk_site "Haworth" 0 (-87) 1 (-88) 25000 4000 false)
      |exists (mk_site "Faustini" 84 (-87) 84 (-87) 21000 4100 false)]; cbn [In]; auto.
Qed.

(** ** C17 *)
Theorem C17_latlon_round_trip : forall rp lat lon,
  0 < rp -> -90 < lat <= 0 -> -180 < lon <= 180 ->
  let (x, y) := latlon2xy rp lat lon in xy2latlon rp x y = (lat, lon).
Proof. exact latlon_roundtrip. Qed.

Theorem C17_xy_round_trip : forall rp x y, 0 < rp -> x ^ 2 + y ^ 2 <= rp ^ 2 ->
  let (lat, lon) := xy2latlon rp x y in latlon2xy rp lat lon = (x, y).
Proof. exact xy_roundtrip. Qed.

(** North of the equator the latitude comes back with the opposite sign. *)
Theorem C17_north_refuted : forall rp lat lon,
  0 < rp -> 0 < lat < 90 -> -180 < lon <= 180 ->
  let (x, y) := latlon2xy rp lat lon in xy2latlon rp x y = (- lat, lon).
Proof. exact latlon_north. Qed.

Example C17_case : 0 < 1737400 /\ -90 < -87 <= 0 /\ -180 < 84 <= 180 /\ 0 < 40 < 90.
Proof. lra. Qed.

(** ** C18 *)
Theorem C18_youngest_cover : forall sort rp timestart ej_thr basin_thr xs ys sites g i j x y,
  sorts_sites sort ->
  get_age_grid sort rp timestart ej_thr basin_thr xs ys sites = Ok g ->
  sites <> [] -> x ^ 2 + y ^ 2 <= rp ^ 2 ->
  nth_error ys i = Some y -> nth_error xs j = Some x ->
  exists row v, nth_error g i = Some row /\ nth_error row j = Some v /\
    let (lat, lon) := xy2latlon rp x y in
    let cov s := gc_dist default_rp (s_lon s) (s_lat s) lon lat
               < s_rad s * (if s_basin s then basin_thr else ej_thr) in
    (v = timestart /\ (forall s, In s sites -> ~ cov s)) \/
    (exists s, In s sites /\ cov s /\ v = s_age s /\
       forall s', In s' sites -> cov s' -> s_age s <= s_age s').
Proof. exact age_grid_spec. Qed.

(** Points of the plane outside the sphere keep the start of the model. *)
Theorem C18_outside : forall sort rp timestart ej_thr basin_thr xs ys sites g i j x y,
  get_age_grid sort rp timestart ej_thr basin_thr xs ys sites = Ok g ->
  sites <> [] -> rp ^ 2 < x ^ 2 + y ^ 2 ->
  nth_error ys i = Some y -> nth_error xs j = Some x ->
  exists row, nth_error g i = Some row /\ nth_error row j = Some timestart.
Proof. exact age_grid_outside. Qed.

(** A grid that is not square is refused as soon as there is a crater. *)
Theorem C18_square_only : forall sort rp timestart ej_thr basin_thr xs ys sites,
  sites <> [] -> length xs <> length ys ->
  get_age_grid sort rp timestart ej_thr basin_thr xs ys sites = Err ValueError.
Proof. exact age_grid_square. Qed.

(** Negative thresholds mean "no limit" for cold trap distances (C16), but here no
    crater covers any cell. *)
Theorem C18_negative_threshold_refuted : forall timestart ej_thr basin_thr l lon lat,
  ej_thr < 0 -> basin_thr < 0 -> Forall (fun s => 0 <= s_rad s) l ->
  age_cell timestart ej_thr basin_thr l lon lat = timestart.
Proof. exact negative_threshold_never_covers. Qed.

(** Distance grid: a number exactly between the crater rim and the threshold
    (both ends included, unlike in the cold trap distances). *)
Theorem C18_dist_grid : forall ej_thr basin_thr s lon lat,
  let d := gc_dist default_rp (s_lon s) (s_lat s) lon lat in
  let thr := if s_basin s then basin_thr else ej_thr in
  dist_cell ej_thr basin_thr s lon lat = Some d /\ s_rad s <= d <= thr * s_rad s \/
  dist_cell ej_thr basin_thr s lon lat = None /\ ~ s_rad s <= d <= thr * s_rad s.
Proof. exact dist_cell_spec. Qed.

Example C18_case_sort : sorts_sites isort_site.
Proof. exact isort_site_ok. Qed.
Example C18_case : exists g,
  get_age_grid isort_site default_rp 4250 4 5 [-1; 1] [1; 0]
    [mk_site "a" 0 (-90) 0 (-90) 10 3000 false; mk_site "b" 0 (-89) 0 (-90) 10 2000 true] = Ok g.
Proof. eexists. reflexivity. Qed.

Print Assumptions C15_square_roots_defined.
Print Assumptions C15_symmetric.
Print Assumptions C15_range.
Print Assumptions C15_cosine.
Print Assumptions C15_unique.
Print Assumptions C15_zero.
Print Assumptions C15_triangle.
Print Assumptions C16_coldtrap_dists.
Print Assumptions C17_latlon_round_trip.
Print Assumptions C17_xy_round_trip.
Print Assumptions C17_north_refuted.
Print Assumptions C18_youngest_cover.
Print Assumptions C18_outside.
Print Assumptions C18_square_only.
Print Assumptions C18_negative_threshold_refuted.
Print Assumptions C18_dist_grid.
