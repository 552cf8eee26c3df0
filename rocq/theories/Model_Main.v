(** A whole run: /repo/moonpies/moonpies.py:24-141, 230-376, 2606-2638. *)
From Coq Require Import String List ZArith Reals Bool.
From Verif Require Import Base Arith Model_Column Model_Time Model_Geo Model_Interp Model_Crater
  Model_Ice Model_Rng Model_Strat Model_Melt.
Import ListNotations.
Open Scope R_scope.

(** A line of cfg.crater_csv_in or cfg.basin_csv_in: degrees, km and Gyr.  A basin line has
    no psr_lat and psr_lon (config.py:174); what stands there for a basin is never used
    unless a basin's name is a cold trap's name. *)
Record raw := mk_raw {
  w_name : string; w_lat : R; w_lon : R; w_psr_lat : R; w_psr_lon : R; w_diam : R;
  w_age : R; w_low : R; w_upp : R }.

(** The columns of a crater row other than its age and age errors. *)
Record info := mk_info {
  d_name : string; d_lon : R; d_lat : R; d_plon : R; d_plat : R; d_rad : R;
  d_basin : bool; d_icy : string }.

(** moonpies.py:329-334 and 369-374, the unit conversions of [read_crater_list] and
    [read_basin_list], with the columns isbasin and icy_impactor of lines 249-254. *)
Definition read_row (isbasin : bool) (icy : string) (w : raw) : crater info :=
  let diam := w_diam w * 1000 in
  mk_crater (w_age w * 1000000000) (w_low w * 1000000000) (w_upp w * 1000000000)
    (mk_info (w_name w) (w_lon w) (w_lat w) (w_psr_lon w) (w_psr_lat w) (diam / 2) isbasin icy).

(** The views of a row that the geometry and the ice code use. *)
Definition site_of (c : crater info) : site :=
  let d := c_rest c in
  mk_site (d_name d) (d_lon d) (d_lat d) (d_plon d) (d_plat d) (d_rad d) (c_age c) (d_basin d).
Definition impact_of (c : crater info) : impact :=
  let d := c_rest c in mk_impact (d_rad d) (c_age c) (d_basin d) (d_icy d).

(** The configuration of a run.  [r_rnd] is the conversion to cfg.dtype. *)
Record rcfg := mk_rcfg {
  r_i : icfg; r_names : list string; r_start : Z; r_end : Z; r_step : Z;
  r_tol : R; r_min : R; r_ejthr : R; r_basinthr : R; r_bsed : bcfg; r_melt : table;
  r_shield : R; r_after_age : bool; r_ejecta_basins : bool;
  r_lum : list (R * R); r_bhop : string -> option R; r_rnd : R -> R }.

(** [truncnorm.rvs(a, b, ...)] on arrays: one standardised draw for each row. *)
Definition draw_ages {D} (ppf : ppf_fun) (cs : list (crater D)) : rand (list R) :=
  do us <- random (length cs);
  ret (map (fun '(c, u) => ppf (trunc_a c) (Some (trunc_b c)) u) (combine cs us)).

(** moonpies.py:230-260 [get_crater_basin_list]. *)
Definition get_crater_basin_list (c : rcfg) (ppf : ppf_fun)
  (sort : list (crater info) -> list (crater info)) (craters basins : list raw)
  : rand (list (crater info)) :=
  let df_craters := map (read_row false "no") craters in
  do icy <- random_icy_basins (r_i c) (length basins);
  let df_basins := map (fun '(w, i) => read_row true i w) (combine basins icy) in
  let df := df_craters ++ df_basins in
  do us <- draw_ages ppf df;
  ret (randomize_crater_ages sort (IZR (r_step c)) df us).

(** [a[:, j]] of a 2D array. *)
Definition column {A} (m : list (list A)) (j : nat) : result (list A) := mapM (fun r => get r j) m.

(** [d[k] = v] of a Python dict: replaced in place, or at the end. *)
Fixpoint dict_set {V} (d : list (string * V)) (k : string) (v : V) : list (string * V) :=
  match d with
  | [] => [(k, v)]
  | (k', v') :: r => if String.eqb k k' then (k', v) :: r else (k', v') :: dict_set r k v
  end.

(** moonpies.py:102-141 [init_strat_columns]. *)
Definition init_strat_columns (c : rcfg) (ppf : ppf_fun) (time : list R)
  (df : list (crater info)) (dists : list (list (option R))) : rand (@dict R) :=
  do (ej, src) <- lift (get_ejecta_thickness_time (crat (r_i c)) (r_min c) (r_tol c)
                          (length (r_names c)) time (map site_of df) dists);
  do ice <- get_ice_cols_time (r_i c) ppf (r_tol c) (r_lum c) (r_bhop c) (r_names c)
              (map impact_of df) time;
  lift (
    let* cols := mapM (fun '(i, n) =>
      let* x := column ice i in let* y := column ej i in let* s := column src i in
      Ok (n, mk_strat x y s)) (combine (seq 0 (length (r_names c))) (r_names c)) in
    Ok (fold_left (fun d nv => dict_set d (fst nv) (snd nv)) cols [])).

(** NaN as a depth makes the loop condition of garden_ice_column (line 1471) false from the
    start, as does 0; NaN as a fraction does not occur with a depth above 0 (see C54_values,
    where neither is NaN). *)
Definition or_zero (o : option R) : R := match o with Some x => x | None => 0 end.

(** Outputs of a run: the ejecta and ice columns over time with the ejecta sources of the
    table ej_sources (not merged), and the stratigraphy tables. *)
Record outputs := mk_outputs {
  o_time : list R; o_ej : list (string * list R); o_ice : list (string * list R);
  o_strat : list (string * list layer) }.

(** moonpies.py:2623 [df.set_index("cname").loc[names, "age"]]: for each name in turn the
    rows of that name; KeyError if there are none. *)
Definition ages_of (df : list (crater info)) (names : list string) : result (list (string * R)) :=
  let* l := mapM (fun n =>
    match filter (fun r => String.eqb (d_name (c_rest r)) n) df with
    | [] => Err KeyError
    | rows => Ok (map (fun r => (n, c_age r)) rows)
    end) names in
  Ok (concat l).

(** The rows of one stratigraphy table before labelling. *)
Definition steps_of (time : list R) (s : strat) : list (R * R * R * string) :=
  combine (combine (combine time (s_ice s)) (s_ej s)) (s_src s).

(** moonpies.py:2606-2638 [format_csv_outputs], without the merged source labels
    (get_all_labels, see Model_Strat). *)
Definition format_csv_outputs (c : rcfg) (d : @dict R) (time : list R) (df : list (crater info))
  : result outputs :=
  let* cdf := ages_of df (r_names c) in
  let* o := mapM (fun '(n, age) =>
    let* s := lookup d n in
    let* strat := make_strat_col (r_rnd c) (r_min c) (r_tol c) (r_after_age c) age (steps_of time s) in
    Ok (n, s, strat)) cdf in
  Ok (mk_outputs time
        (fold_left (fun d '(n, s, _) => dict_set d n (s_ej s)) o [])
        (fold_left (fun d '(n, s, _) => dict_set d n (s_ice s)) o [])
        (fold_left (fun d '(n, _, t) => dict_set d n t) o [])).

(** moonpies.py:24-77 [main], up to the saving of the outputs (see Model_Save).  The column
    loops run in exact arithmetic.  Line 59 computes a list without basins and lines 60-77
    go on with [df]. *)
Definition main (c : rcfg) (ppf : ppf_fun) (sort : list (crater info) -> list (crater info))
  (craters basins : list raw) : rand outputs :=
  do time <- lift (get_time_array (r_rnd c) (r_start c) (r_end c) (r_step c));
  do df <- get_crater_basin_list c ppf sort craters basins;
  let _ := if r_ejecta_basins c then df else filter (fun r => negb (d_basin (c_rest r))) df in
  do dists <- lift (get_coldtrap_dists (r_ejthr c) (r_basinthr c) (r_names c) (map site_of df));
  do strat_cols <- init_strat_columns c ppf time df dists;
  do (bd, bf) <- lift (get_bsed_depth (crat (r_i c)) (r_bsed c) (r_melt c) (r_min c) (r_tol c)
                         (length (r_names c)) time (map site_of df) dists);
  let overturn := overturn_depth_time (r_i c) time in
  do strat_cols <- lift (update_strat_cols exactR (costello (r_i c)) (r_shield c) (r_names c)
                           strat_cols overturn (map (map or_zero) bd) (map (map or_zero) bf));
  lift (format_csv_outputs c strat_cols time df).
