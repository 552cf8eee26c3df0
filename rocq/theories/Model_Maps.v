(** The maps and the figure of distances: /repo/notebooks/figure_scripts/plot_figs.py:1235-1280
    [grid_plots] and 261-329 [distance_bsed], down to the numbers that are drawn. *)
From Coq Require Import String List ZArith Reals Bool.
From Verif Require Import Base Model_Time Model_Geo Model_Crater Model_Ice Model_Rng Model_Melt Model_Main Model_Strat Model_Basin Model_Grid.
Import ListNotations.
Open Scope R_scope.

(** ** Maps *)

(** What is drawn: the axes, the age of each cell in Ga and the thickness of all ejecta. *)
Record maps := mk_maps { m_x : list R; m_y : list R; m_age : list (list R); m_ej : list (list R) }.

(** [np.nansum(ejthick, axis=0)]; no thickness is NaN. *)
Definition sum_grids (xs ys : list R) (grids : list (list (list R))) : list (list R) :=
  fold_left (zipw (zipw Rplus)) grids (map (fun _ => map (fun _ => 0) xs) ys).

(** plot_figs.py:1249-1253.  [get_grid_outputs] is called without the configuration, so its
    own (config.py:131-161) counts: 4.25 Ga, 4 radii, 5 for basins.  [arrange] is the sort by
    age of get_age_grid; sizes and step of the grid are ints. *)
Definition grid_plots (c : rcfg) (ppf : ppf_fun) (sort : list (crater info) -> list (crater info)) (arrange : list site -> list site)
  (craters basins : list raw) (entropy : nat -> tape) (xsize ysize step : Z) : result maps :=
  let* df := fresh_list c ppf sort craters basins entropy 0 in
  let* (ys, xs) := get_grid_arrays (r_rnd c) xsize ysize step in
  let rows := combine (map Z.of_nat (seq 0 (length df))) (map site_of df) in
  let* (age, ej) := get_grid_outputs CFG0 arrange 4250000000 4 5 xs ys rows in
  Ok (mk_maps xs ys (map (map (fun a => a / 1000000000)) age) (sum_grids xs ys ej)).

(** ** Distances *)

(** A line of the data on Ries: [dist_km], [dist_crad] and [mixing_ratio] (the column [wt_pct]
    is not used). *)
Record ries_line := mk_ries { e_km : R; e_crad : R; e_ratio : R }.

(** What is drawn.  Above: points of Ries, the law at the same distances, up to six cold
    traps.  Below: thickness and depth (negative) of all craters at all cold traps, the two
    lines of the first row, vertical lines and the right end of the axis.  NaN is not drawn. *)
Record distances := mk_distances {
  h_ries : list (R * R); h_law : list (R * R); h_traps : list (string * list (option R * option R)); h_xlabel : string;
  h_thick : list (option R * R); h_depth : list (option R * option R); h_first : list (option R * R) * list (option R * option R);
  h_lines : list (string * option R); h_xmax : R; h_xlabel2 : string }.

(** [df[df.cname == name].index[0]]: rows are numbered from 0. *)
Definition row_of (df : list site) (name : string) : result nat :=
  match find (fun p => String.eqb (s_name (snd p)) name) (combine (seq 0 (length df)) df) with
  | Some (i, _) => Ok i | None => Err IndexError
  end.

(** [np.argmax(coldtraps == name)]: 0 if there is none; ValueError of an empty array. *)
Definition trap_of (names : list string) (name : string) : result nat :=
  match names with
  | [] => Err ValueError
  | _ => Ok match find (fun p => String.eqb (snd p) name) (combine (seq 0 (length names)) names) with Some (i, _) => i | None => O end
  end.

(** [np.nanmax(dists[dfc.index])] over the rows of craters; without any number it is NaN,
    which set_xlim refuses, or it fails itself (both are ValueErrors). *)
Definition largest (rows : list (list (option R))) : result R :=
  match fold_left nanmax (concat rows) None with Some m => Ok m | None => Err ValueError end.

(** Points of two arrays of the same shape, in C order. *)
Definition points {A B} (x : list (list A)) (y : list (list B)) : list (A * B) := combine (concat x) (concat y).

(** plot_figs.py:269-328 from the list on; [ej_threshold] is set to -1 at line 270.  With
    [set_xlim] last, its error comes after the others, which are raised in the order below. *)
Definition distance_rows (c : rcfg) (ries : list ries_line) (df : list site) : result distances :=
  let mr := mixing_ratio (mr_a (r_bsed c)) (mr_b (r_bsed c)) (mr_petro (r_bsed c)) in
  let* dists := get_coldtrap_dists (-1) (r_basinthr c) (r_names c) df in
  let thick := get_ejecta_thickness_matrix (crat (r_i c)) (map s_rad df) dists in
  let mixing := get_mixing_ratio_oberbeck (r_bsed c) dists in
  let depth := zipw (zipw (fun t m => omul (Some (- t)) m)) thick mixing in
  let* traps := mapM (fun n => let* i := row_of df n in let* d := get dists i in let* m := get mixing i in Ok (n, combine d m))
                     (firstn 6 (r_names c)) in
  let* a := row_of df "Amundsen" in
  let* h := trap_of (r_names c) "Haworth" in
  let* s := trap_of (r_names c) "Shoemaker" in
  let* f := trap_of (r_names c) "Faustini" in
  let* xmax := largest (map snd (filter (fun p => negb (s_basin (fst p))) (combine df dists))) in
  let* d0 := get dists 0 in let* t0 := get thick 0 in let* b0 := get depth 0 in
  let* arow := get dists a in
  let* df_ := get arow f in let* ds := get arow s in let* dh := get arow h in
  Ok (mk_distances (map (fun e => (e_km e * 1000, e_ratio e)) ries) (map (fun e => (e_km e * 1000, mr (e_km e * 1000))) ries)
        traps "Distance [Crater Radii]"
        (points dists thick) (points dists depth) (combine d0 t0, combine d0 b0)
        [("Amundsen->Faustini", df_); ("Amundsen->Shoemaker", ds); ("Amundsen->Haworth", dh)]%string xmax "Distance [m]").

(** plot_figs.py:261-329 [distance_bsed]; the list is made without a generator. *)
Definition distance_bsed (c : rcfg) (ppf : ppf_fun) (sort : list (crater info) -> list (crater info))
  (craters basins : list raw) (entropy : nat -> tape) (ries : list ries_line) : result distances :=
  let* df := fresh_list c ppf sort craters basins entropy 0 in
  distance_rows c ries (map site_of df).
