(** All figures of /repo/notebooks/figure_scripts/plot_figs.py: 41-52 [_generate_all] and the
    default arguments of the functions that it calls, 1198-1211 the figures that compare two
    runs, and /repo/moonpies/plotting.py:26-56 [plot_version]. *)
From Coq Require Import ZArith Bool Ascii String List Reals.
From Verif Require Import Base Model_Path Model_Strat Model_Figure Model_Save Model_Collect Model_Shown Model_Columns.
Import ListNotations.
Open Scope R_scope.
Open Scope list_scope.

(** ** The version on a figure *)

(** What is written on the axes: the text, its place in fractions of the axes, and the sides
    of the text that are at this place. *)
Record mark := mk_mark { mk_text : string; mk_x : R; mk_y : R; mk_va : string; mk_ha : string }.

(** plotting.py:26-56 [plot_version]: the version that is returned and the mark.  An unbound
    name is an AttributeError here.  (Further arguments of the text and of its box are left
    out.) *)
Definition plot_version (ver loc : string) (xy xyoff : option (R * R)) : result (string * mark) :=
  let (x, y) := match xy with None => (0, 0) | Some p => p end in
  let (xoff, yoff) := match xyoff with None => (0, 0) | Some p => p end in
  match loc with
  | String a (String b _) =>
    let vert := if Ascii.eqb a "l" then Some (y + (35 / 1000 + yoff), "bottom"%string)
                else if Ascii.eqb a "u" then Some (y + (1 - 35 / 1000 + yoff), "top"%string) else None in
    let hor := if Ascii.eqb b "l" then Some (x + (2 / 100 + xoff), "left"%string)
               else if Ascii.eqb b "r" then Some (x + (1 - 2 / 100 + xoff), "right"%string) else None in
    match vert, hor with
    | Some (y, va), Some (x, ha) =>
      let version := ("v" ++ ver)%string in Ok (version, mk_mark ("MoonPIES " ++ version) x y va ha)
    | _, _ => Err AttributeError
    end
  | _ => Err IndexError
  end.

(** ** All figures *)

(** A function of the script: its name, the default name of its figure (none for a function
    that only shows a table), whether the version is handed to [_save_or_show], and the table
    that it writes (none if empty). *)
Record figure := mk_figure { fg_name : string; fg_fsave : string; fg_version : bool; fg_csv : string }.

(** plot_figs.py:41-46: the public functions in the order of the script, with the arguments
    that the processes are started with (the defaults).  [kde_layers] (475) and
    [ice_retention] (1146) hand on no version. *)
Definition FIGURES : list figure :=
  [mk_figure "compare_violin" "bsed_violin.pdf" true ""; (* 77, 125 *)
   mk_figure "crater_basin_ages" "crater_basin_ages.pdf" true ""; (* 128, 197 *)
   mk_figure "crater_scaling" "crater_scaling.pdf" true ""; (* 200, 258 *)
   mk_figure "distance_bsed" "distance_bsed.pdf" true ""; (* 261, 329 *)
   mk_figure "ejecta_bsed" "ejecta_bsed.pdf" true ""; (* 332, 377 *)
   mk_figure "kde_layers" "kde_layers.pdf" false ""; (* 380, 475 *)
   mk_figure "ejecta_distance" "ejecta_distance.pdf" true ""; (* 477, 595 *)
   mk_figure "volatilized_fraction_bsed" "volatilized_fraction_bsed.pdf" true ""; (* 598, 668 *)
   mk_figure "random_crater_ages" "random_crater_ages.pdf" true ""; (* 671, 735 *)
   mk_figure "strat_cols_bsed" "strat_cols_bsed.pdf" true ""; (* 738, 760 *)
   mk_figure "strat_cols_seeds" "strat_cols_seeds.pdf" true ""; (* 763, 786 *)
   mk_figure "surface_boxplot" "surface_boxplot.pdf" true ""; (* 789, 835 *)
   mk_figure "plot_by_module" "plot_by_module.pdf" true ""; (* 838, 916 *)
   mk_figure "ballistic_hop" "bhop_lat.png" true ""; (* 980, 1046 *)
   mk_figure "ast_comet_vels" "comet_vels.png" true ""; (* 1049, 1108 *)
   mk_figure "ice_retention" "ice_retention.png" false ""; (* 1111, 1146 *)
   mk_figure "basin_ice" "basin_ice.png" true ""; (* 1149, 1195 *)
   mk_figure "bsed_sensitivity_violin" "bsed50_violin.png" true ""; (* 1200, 125 *)
   mk_figure "comet_sensitivity_violin" "comet_violin.png" true ""; (* 1208, 125 *)
   mk_figure "ice_pct_fig7" "" true "./strat_cols_f7.csv"; (* 1215 *)
   mk_figure "ice_pct_fig8" "" true "./strat_cols_f8.csv"; (* 1224 *)
   mk_figure "grid_plots" "grid_plots.png" true ""; (* 1235, 1280 *)
   mk_figure "plot_by_module_time" "plot_by_module_time.png" true ""]%string. (* 1283, 1321 *)

(** plot_figs.py:18-19: the default directory. *)
Definition FIGDIR (figs_path date ver : string) : string := path_join figs_path (date ++ "_v" ++ ver).

(** The files that a function writes if it finishes; [ver] is the version of its
    configuration. *)
Definition writes (figdir ver : string) (f : figure) : result (list ppath) :=
  let* saved := figure_file figdir (fg_fsave f) (if fg_version f then ("v" ++ ver)%string else ""%string) in
  Ok ((if String.eqb (fg_csv f) "" then [] else [to_path (fg_csv f)]) ++
      match saved with Some p => [p] | None => [] end).

(** plot_figs.py:41-52 [_generate_all]: what each of the functions writes; each has a process
    of its own, so that an error of one does not stop the others. *)
Definition generate_all (figdir ver : string) : result (list (string * list ppath)) :=
  mapM (fun f => let* w := writes figdir ver f in Ok (fg_name f, w)) FIGURES.

(** ** Two runs compared *)

(** plot_figs.py:1198-1203 [bsed_sensitivity_violin]. *)
Definition bsed_sensitivity_violin (parse : R -> R) (L : listing) (s : fs) (cwd data_path : string) (known : list string)
  (datedir : string) : result (list (string * list (string * list R)) * nat) :=
  compare_violin parse L s cwd data_path known datedir CORDER ["bsed_50pct"; "no_bsed"]%string ["50% lost"; "0% lost"]%string.
(** plot_figs.py:1206-1211 [comet_sensitivity_violin]. *)
Definition comet_sensitivity_violin (parse : R -> R) (L : listing) (s : fs) (cwd data_path : string) (known : list string)
  (datedir : string) : result (list (string * list (string * list R)) * nat) :=
  compare_violin parse L s cwd data_path known datedir CORDER ["moonpies"; "comet_100pct"]%string ["20%"; "100%"]%string.
