(** Ice by source: /repo/notebooks/figure_scripts/plot_figs.py:838-976, the table behind the
    figures of [plot_by_module] and [plot_by_module_time] and the numbers of the first. *)
From Coq Require Import String List ZArith Reals Bool.
From Verif Require Import Base Model_Time Model_Geo Model_Crater Model_Ice Model_Rng Model_Strat Model_Melt Model_Main.
Import ListNotations.
Open Scope R_scope.

(** ** Tables *)

(** A column of a DataFrame (NaN is [None]), and a DataFrame: columns with their names. *)
Definition col := list (option R).
Definition mtable := list (string * col).
Definition oadd (a b : option R) : option R :=
  match a, b with Some x, Some y => Some (x + y) | _, _ => None end.
(** [a += b] of two tables with the same columns and rows. *)
Definition tadd (a b : mtable) : mtable := map (fun '((n, x), (_, y)) => (n, zipw oadd x y)) (combine a b).
(** [a * 0]. *)
Definition tzero (a : mtable) : mtable := map (fun '(n, x) => (n, map (option_map (fun v => v * 0)) x)) a.
(** [a /= n] of a table of sums of [n] numbers (0 / 0 is NaN). *)
Definition tdiv (n : nat) (a : mtable) : mtable :=
  map (fun '(c, x) => (c, map (fun o => match n with O => None | _ => option_map (fun v => v / INR n) o end) x)) a.
(** [a[n]]. *)
Definition tcol (a : mtable) (n : string) : result col :=
  match find (fun e => String.eqb (fst e) n) a with Some (_, x) => Ok x | None => Err KeyError end.

(** [np.mean]: NaN if a number is NaN or there is none. *)
Definition osum (l : list (option R)) : option R := fold_right oadd (Some 0) l.
Definition omean (l : list (option R)) : option R :=
  match l with [] => None | _ => option_map (fun s => s / INR (length l)) (osum l) end.

(** ** One table *)

(** A function that is given the number [rng=0] makes its own generator; one that is given a
    Generator draws from it. *)
Definition call {A} (own : bool) (m : rand A) : rand A :=
  if own then fun u k => let* (a, _) := m u 0%nat in Ok (a, k) else m.

(** plot_figs.py:971-976 [_get_agg_bsed_depth]. *)
Definition get_agg_bsed_depth (c : rcfg) (df : list (crater info)) (time : list R) : result col :=
  let sites := map site_of df in
  let* dists := get_coldtrap_dists (r_ejthr c) (r_basinthr c) (r_names c) sites in
  let* (bd, bf) := get_bsed_depth (crat (r_i c)) (r_bsed c) (r_melt c) (r_min c) (r_tol c)
                     (length (r_names c)) time sites dists in
  Ok (map (fun '(d, f) => omean (zipw omul d f)) (combine bd bf)).

(** plot_figs.py:955-968 [_get_ice_by_module]. *)
Definition get_ice_by_module (own : bool) (c : rcfg) (ppf : ppf_fun) (df : list (crater info)) (time : list R)
  : rand mtable :=
  let i := r_i c in
  do volc <- lift (get_volcanic_ice i time);
  do sw <- lift (get_solar_wind_ice i (r_lum c) time);
  do mm <- lift (get_micrometeorite_ice i time);
  do si <- lift (get_small_impactor_ice i time);
  do ssc <- lift (get_small_simple_crater_ice i time);
  do lsc <- call own (get_stochastic_thickness i ppf time "d");
  do cc <- call own (get_stochastic_thickness i ppf time "e");
  do b <- call own (get_basin_ice i ppf (r_tol c) (map impact_of df) time);
  do bsed <- lift (get_agg_bsed_depth c df time);
  ret [("time", map Some time); ("Volcanic ice", map Some volc); ("Solar wind ice", map Some sw);
       ("Micrometeorite ice", map Some mm); ("Small impactor ice", map Some si);
       ("Small simple crater ice", map Some ssc); ("Large simple crater ice", map Some lsc);
       ("Large complex crater ice", map Some cc); ("Basin ice", map Some b);
       ("Gardening depth", map Some (overturn_depth_time i time)); ("Ballistic sed depth", bsed)]%string.

(** ** All seeds *)

(** moonpies.py:1591-1614 [get_comet_cfg]; the ice options are the only ones that change. *)
Definition comet_run (c : rcfg) : rcfg :=
  mk_rcfg (get_comet_cfg (r_i c)) (r_names c) (r_start c) (r_end c) (r_step c) (r_tol c) (r_min c) (r_ejthr c)
    (r_basinthr c) (r_bsed c) (r_melt c) (r_shield c) (r_after_age c) (r_ejecta_basins c) (r_lum c) (r_bhop c) (r_rnd c).

Section Seeds.
  Variables (c : rcfg) (ppf : ppf_fun) (sort : list (crater info) -> list (crater info)) (craters basins : list raw).
  (** The random numbers of a seed, and those of a generator without seed (line 925). *)
  Variables (stream : Z -> tape) (unseeded : tape).

  (** plot_figs.py:935-937 and 941-943: the table of a seed, for asteroids or comets.  A
      configuration with another seed is the same but for its random numbers, and caches do
      not show (C43).  A negative seed is a ValueError. *)
  Definition seed_table (c : rcfg) (time : list R) (seed : Z) : result mtable :=
    if (seed <? 0)%Z then Err ValueError else
    let* (df, k) := get_crater_basin_list c ppf sort craters basins (stream seed) 0%nat in
    let* (t, _) := get_ice_by_module false c ppf df time (stream seed) k in
    Ok t.
  (** plot_figs.py:930-943: the loop. *)
  Fixpoint add_seeds (time : list R) (adf cdf : mtable) (seeds : list Z) : result (mtable * mtable) :=
    match seeds with
    | [] => Ok (adf, cdf)
    | s :: r =>
      let* a := seed_table c time s in
      let* b := seed_table (comet_run c) time s in
      add_seeds time (tadd adf a) (tadd cdf b) r
    end.
  Definition loss_keys : list string := ["Gardening depth"; "Ballistic sed depth"]%string.
  (** plot_figs.py:920-953 [_get_ice_ast_comet_seeds].  Exact arithmetic: the times of both
      tables are those of the time array again.  (A row of floats could move.) *)
  Definition get_ice_ast_comet_seeds (seeds : list Z) : result mtable :=
    let* time := get_time_array (r_rnd c) (r_start c) (r_end c) (r_step c) in
    let* (df, _) := get_crater_basin_list c ppf sort craters basins unseeded 0%nat in
    let* (t, _) := get_ice_by_module true c ppf df time (stream 0%Z) 0%nat in
    let* (adf, cdf) := add_seeds time (tzero t) (tzero t) seeds in
    let adf := tdiv (length seeds) adf in
    let cdf := tdiv (length seeds) cdf in
    let* index := tcol adf "time" in
    let both := tadd adf cdf in
    let ice := filter (fun e => negb (existsb (String.eqb (fst e)) ("time"%string :: loss_keys))) both in
    let* loss := mapM (fun k => let* s := tcol both k in Ok (k, map (option_map (fun v => v / 2)) s)) loss_keys in
    Ok (("time"%string, index) :: ice ++ loss).
End Seeds.

(** ** The figure *)

Definition impactor_keys : list string :=
  ["Micrometeorite ice"; "Small impactor ice"; "Small simple crater ice"; "Large simple crater ice";
   "Large complex crater ice"]%string.
Definition other_ice_keys : list string := ["Volcanic ice"; "Solar wind ice"; "Basin ice"]%string.
(** plot_figs.py:863-864 [np.sum(df[keys], axis=1)]: the sum of each row; NaN counts as 0. *)
Definition or0 (o : option R) : R := match o with Some x => x | None => 0 end.
Definition row_sums (t : mtable) (keys : list string) : result col :=
  let* index := tcol t "time" in
  let* cols := mapM (tcol t) keys in
  Ok (map (fun i => Some (Rsum (map (fun x => or0 (nth i x None)) cols))) (seq 0 (length index))).
(** plot_figs.py:861-867. *)
Definition module_order : list string :=
  ["Total ice"; "Impactor ice"; "Basin ice"; "Volcanic ice"; "Solar wind ice"; "Gardening depth"; "Ballistic sed depth"]%string.
Definition module_frame (t : mtable) : result mtable :=
  let* imp := row_sums t impactor_keys in
  let* tot := row_sums t (impactor_keys ++ other_ice_keys) in
  let t := t ++ [("Impactor ice"%string, imp); ("Total ice"%string, tot)] in
  mapM (fun k => let* x := tcol t k in Ok (k, x)) module_order.

(** plot_figs.py:843-844, 870-871: the eras, oldest first, with the ends of their bins. *)
Definition eras : list (string * (R * R)) :=
  [("Pre-Nec.", (3970000000, 4260000000)); ("Nec.", (3830000000, 3970000000)); ("Imb.", (3200000000, 3830000000));
   ("Era.", (1100000000, 3200000000)); ("Cop.", (0, 1100000000))]%string.
(** [pd.cut]: the bins are closed on the right. *)
Definition in_bin (b : R * R) (t : option R) : bool :=
  match t with Some x => Rltb (fst b) x && Rleb x (snd b) | None => false end.
(** [groupby(...).agg('mean')], ['min'] and ['max']: NaN is left out; NaN if nothing is left. *)
Definition numbers (l : list (option R)) : list R := flat_map (fun o => match o with Some x => [x] | None => [] end) l.
Definition agg_mean (l : list R) : option R := match l with [] => None | _ => Some (Rsum l / INR (length l)) end.
Definition agg_min (l : list R) : option R := match l with [] => None | x :: r => Some (list_min x r) end.
Definition agg_max (l : list R) : option R := match l with [] => None | x :: r => Some (list_max x r) end.
Definition in_era (b : R * R) (time x : col) : list R :=
  numbers (map snd (filter (fun p => in_bin b (fst p)) (combine time x))).
(** plot_figs.py:861-875: for each era and column the mean, the least and the largest value. *)
Definition by_era (t : mtable) : result (list (string * list (string * (option R * option R * option R)))) :=
  let* time := tcol t "time" in
  let* f := module_frame t in
  Ok (map (fun '(era, b) => (era, map (fun '(n, x) =>
        let l := in_era b time x in (n, (agg_mean l, agg_min l, agg_max l))) f)) eras).

(** plot_figs.py:895-907: what is drawn in an era: a shaded depth, or a bar with its error
    bar downwards and upwards. *)
Inductive mark := Shade (label : string) (depth : option R) | Bar (label : string) (height down up : option R).
Definition osub (a b : option R) : option R := match a, b with Some x, Some y => Some (x - y) | _, _ => None end.
Definition mark_of (e : string * (option R * option R * option R)) : mark :=
  let '(n, (mean, lo, hi)) := e in
  if existsb (String.eqb n) loss_keys then Shade ("Max " ++ n) mean
  else Bar n mean (option_map (fun x => Rmax x (1 / 1000000000)) (osub mean lo)) (osub hi mean).
Definition plot_by_module (c : rcfg) (ppf : ppf_fun) (sort : list (crater info) -> list (crater info))
  (craters basins : list raw) (stream : Z -> tape) (unseeded : tape) (seeds : list Z) : result (list (string * list mark)) :=
  let* t := get_ice_ast_comet_seeds c ppf sort craters basins stream unseeded seeds in
  let* e := by_era t in
  Ok (map (fun '(era, l) => (era, map mark_of l)) e).
