(** The figure of volatilized fractions: /repo/notebooks/figure_scripts/plot_figs.py:598-668
    [volatilized_fraction_bsed], down to the images and lines that are drawn.
    Definitions only. *)
From Coq Require Import String List ZArith Reals Bool.
From Verif Require Import Base Model_Time Model_Geo Model_Crater Model_Ice Model_Rng Model_Melt Model_Main Model_Basin Model_Cfg Model_Run.
Import ListNotations.
Open Scope R_scope.

(** plot_figs.py:607-608 [dm.insert(0, 100, 0)]: a new first column; it may not exist yet. *)
Definition insert_zero (t : table) : result table :=
  if existsb (Reqb 100) (t_temps t) then Err ValueError
  else Ok (mk_table (t_mrs t) (100 :: t_temps t) (map (cons 0) (t_vals t))).

(** [min()] and [max()] of an array; ValueError of an empty one. *)
Definition least (l : list R) : result R :=
  match l with [] => Err ValueError | x :: r => Ok (fold_left Rmin r x) end.
Definition greatest (l : list R) : result R :=
  match l with [] => Err ValueError | x :: r => Ok (fold_left Rmax r x) end.

(** plot_figs.py:615, 626-627: the share of ejecta in per cent.  No ratio is -1. *)
Definition percent (mr : R) : R := 100 * (1 / (1 + mr)).

(** plot_figs.py:626-629: of the rows of an array those that are marked, without NaN. *)
Definition percents (marks : list bool) (rows : list (list (option R))) : list R :=
  flat_map (fun o => match o with Some mr => [percent mr] | None => [] end)
    (concat (map snd (filter fst (combine marks rows)))).

(** An image: [extent] and the rows from the top. *)
Record image := mk_image { im_left : R; im_right : R; im_bottom : R; im_top : R; im_rows : list (list R) }.

(** A line at one temperature, from one share to another. *)
Record marker := mk_marker { k_temp : R; k_low : R; k_high : R }.

(** The images of means and of deviations, and the lines that are drawn on both. *)
Record volatile_fig := mk_volatile {
  f_mean : image; f_std : image; f_crater : marker; f_cold : marker; f_warm : marker }.

(** plot_figs.py:605-637, 640 and 656 from the tables and the list on; both images have the extent of
    the means.  Colours, ticks and labels are left out; [show_avgs] is not used. *)
Definition volatile_rows (c : rcfg) (mean std : table) (df : list site) : result volatile_fig :=
  let* dm := insert_zero mean in
  let* ds := insert_zero std in
  let* tmin := least (t_temps dm) in
  let* tmax := greatest (t_temps dm) in
  let* top := greatest (map percent (t_mrs dm)) in
  let* dists := get_coldtrap_dists (r_ejthr c) (r_basinthr c) (r_names c) df in
  let mr := get_mixing_ratio_oberbeck (r_bsed c) dists in
  let crater_pct := percents (map (fun s => negb (s_basin s)) df) mr in
  let basin_pct := percents (map s_basin df) mr in
  let* clow := least crater_pct in let* chigh := greatest crater_pct in
  let* blow := least basin_pct in let* bhigh := greatest basin_pct in
  let image rows := mk_image tmin tmax 0 top (map (map (fun v => v * 100)) rows) in
  Ok (mk_volatile (image (t_vals dm)) (image (t_vals ds)) (mk_marker (temp_init (r_bsed c)) clow chigh)
        (mk_marker (temp_cold (r_bsed c)) blow bhigh) (mk_marker (temp_warm (r_bsed c)) blow bhigh)).

(** plot_figs.py:598-668 [volatilized_fraction_bsed]; the list is made without a generator.
    The tables are those of read_ballistic_melt_frac (Model_Run) for mean=True and
    mean=False. *)
Definition volatilized_fraction_bsed (c : rcfg) (ppf : ppf_fun) (sort : list (crater info) -> list (crater info))
  (craters basins : list raw) (entropy : nat -> tape) (mean std : table) : result volatile_fig :=
  let* df := fresh_list c ppf sort craters basins entropy 0 in
  volatile_rows c mean std (map site_of df).
