(** Vocabulary of the properties of a whole run. *)
From Coq Require Import String List ZArith Reals Bool Permutation Sorted.
From Verif Require Import Base Model_Time Model_Geo Model_Crater Model_Ice Model_Rng Model_Melt Model_Main
  Spec_Time Spec_Ice Spec_Melt.
Import ListNotations.
Open Scope R_scope.

(** A conversion of numbers keeps the order and 0. *)
Definition keeps_order (rnd : R -> R) : Prop := (forall x y, x <= y -> rnd x <= rnd y) /\ rnd 0 = 0.

(** Meaningful settings for the ice that is delivered. *)
Record ice_sane (c : rcfg) : Prop := {
  i_sane : sane (r_i c);
  i_sun : sun_sane (r_i c) (r_lum c);
  i_volc : volc_sane (r_i c);
  i_hop : hop_moores (r_i c) = true -> forall n, In n (r_names c) -> exists h, r_bhop c n = Some h /\ 0 <= h }.

(** Ballistic sedimentation is off or has a table of fractions that covers every distance
    on the Moon and every temperature. *)
Definition bsed_sane (c : rcfg) : Prop :=
  bsed_on (r_bsed c) = true ->
  let b := r_bsed c in let t := r_melt c in
  good_table t /\ (forall mr temp v, value_at t mr temp v -> 0 <= v <= 1) /\ 0 <= frac_lost b <= 1 /\
  (forall d, 0 < d <= PI * 1737400 -> within (t_mrs t) (mixing_ratio (mr_a b) (mr_b b) (mr_petro b) d)) /\
  within (t_temps t) (temp_init b) /\ within (t_temps t) (if basin_warm b then temp_warm b else temp_cold b).

(** Every cold trap is one of the craters, each name occurs once, and radii and age errors
    make sense. *)
Record data_sane (c : rcfg) (rows : list raw) : Prop := {
  n_nodup : NoDup (r_names c);
  n_rows : NoDup (map w_name rows);
  n_known : forall n, In n (r_names c) -> In n (map w_name rows);
  n_vals : Forall (fun w => 0 <= w_diam w /\ 0 <= w_low w /\ 0 <= w_upp w /\ 0 < w_low w + w_upp w) rows }.

(** The time axis has two steps or more; if tables start at the age of their cold trap, no
    cold trap can be younger than the last step. *)
Record time_sane (c : rcfg) (rows : list raw) : Prop := {
  t_step : (0 < r_step c)%Z;
  t_two : (2 * r_step c <= r_start c - r_end c)%Z;
  t_old : r_after_age c = true ->
    0 < r_tol c /\ r_rnd c (IZR (r_step c)) = IZR (r_step c) /\
    Forall (fun w => In (w_name w) (r_names c) -> IZR (r_step c) <= (w_age w - w_low w) * 1000000000) rows }.

(** The configuration with cfg.ejecta_basins replaced. *)
Definition with_ejecta_basins (c : rcfg) (b : bool) : rcfg :=
  mk_rcfg (r_i c) (r_names c) (r_start c) (r_end c) (r_step c) (r_tol c) (r_min c) (r_ejthr c)
    (r_basinthr c) (r_bsed c) (r_melt c) (r_shield c) (r_after_age c) b (r_lum c) (r_bhop c) (r_rnd c).

(** Thickness of the ejecta of [r] at the cold trap [dst]: the thickness law at the
    distance of the two, nothing inside [r], beyond the reach of [r], or if [r] is the cold
    trap itself. *)
Definition ejecta_at (c : rcfg) (dst r : crater info) : R :=
  let d := gc_dist 1737400 (d_lon (c_rest r)) (d_lat (c_rest r)) (d_plon (c_rest dst)) (d_plat (c_rest dst)) in
  let rad := d_rad (c_rest r) in
  let reach := if d_basin (c_rest r) then r_basinthr c else r_ejthr c in
  if String.eqb (d_name (c_rest r)) (d_name (c_rest dst)) then 0
  else if Rltb rad d && (Rltb reach 0 || Rltb d (reach * rad))
  then get_ejecta_thickness (crat (r_i c)) (Some d) rad else 0.

(** The row [r] of the run's list comes from the line [w] of one of the two files; only the
    age is drawn. *)
Definition line_of (craters basins : list raw) (r : crater info) (w : raw) : Prop :=
  (In w craters /\ d_basin (c_rest r) = false \/ In w basins /\ d_basin (c_rest r) = true) /\
  d_name (c_rest r) = w_name w /\ d_rad (c_rest r) = w_diam w * 1000 / 2 /\
  d_lon (c_rest r) = w_lon w /\ d_lat (c_rest r) = w_lat w /\
  d_plon (c_rest r) = w_psr_lon w /\ d_plat (c_rest r) = w_psr_lat w /\
  c_low r = w_low w * 1000000000 /\ c_upp r = w_upp w * 1000000000.

(** The configuration with cfg.coldtrap_names replaced. *)
Definition with_names (c : rcfg) (names : list string) : rcfg :=
  mk_rcfg (r_i c) names (r_start c) (r_end c) (r_step c) (r_tol c) (r_min c) (r_ejthr c)
    (r_basinthr c) (r_bsed c) (r_melt c) (r_shield c) (r_after_age c) (r_ejecta_basins c)
    (r_lum c) (r_bhop c) (r_rnd c).

(** Two runs give the cold trap [n] the same stratigraphy table and the same columns of ice
    and ejecta over time. *)
Definition same_for (n : string) (out out' : outputs) : Prop :=
  o_time out = o_time out' /\
  (forall t, In (n, t) (o_strat out) <-> In (n, t) (o_strat out')) /\
  (forall x, In (n, x) (o_ice out) <-> In (n, x) (o_ice out')) /\
  (forall x, In (n, x) (o_ej out) <-> In (n, x) (o_ej out')).
