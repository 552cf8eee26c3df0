(** Vocabulary of the properties of single options. *)
From Coq Require Import ZArith QArith Bool String List Reals Qreals.
From Verif Require Import Base Model_Cfg Model_Crater Model_Ice Model_Melt Model_Main.
Import ListNotations.

(** The options that a run does not look at.  First what belongs to the outputs and the
    bookkeeping; the seed is here because it only selects the random stream. *)
Definition bookkeeping : list string := [
  "run_name"; "version"; "seed"; "run_date"; "run_time"; "verbose"; "write"; "write_npy"; "plot"; "pole";
  "data_path"; "out_path"; "figs_path"; "mplstyle_in"; "ej_t_csv_out"; "ice_t_csv_out"; "config_py_out";
  "agegrd_npy_out"; "ejmatrix_npy_out"; "grdxsize"; "grdysize"; "grdstep"]%string.
(** Then the switch for basin ejecta, and numbers and files of heating, melting, observed craters and volcanic species. *)
Definition inert : list string := [
  "ejecta_basins";
  "bulk_density"; "ice_melt_temp"; "ice_latent_heat"; "ballistic_teq"; "ice_frac"; "ke_heat_frac";
  "ke_heat_frac_speed"; "ejecta_temp_dist_params_cold"; "ejecta_temp_dist_params_warm"; "specific_heat_coeffs";
  "kepler_regime"; "kepler_diam"; "kepler_a"; "kepler_b"; "copernicus_regime"; "copernicus_diam"; "copernicus_a";
  "copernicus_b"; "orientale_regime"; "orientale_diam"; "orientale_a"; "orientale_b"; "bsed_frac_std_in";
  "nk_csv_in"; "nk_species"; "nk_cols"]%string.
Definition idle : list string := (bookkeeping ++ inert)%list.

(** The data files of a run, with the switches that turn off the module that needs them. *)
Definition data_files : list (string * list string) := [
  ("crater_csv_in", []); ("basin_csv_in", []); ("bahcall_csv_in", ["solar_wind_ice"; "faint_young_sun"]);
  ("bhop_csv_in", ["ballistic_hop_moores"]); ("bsed_frac_mean_in", ["ballistic_sed"])]%string.
Definition in_use (c : cfg) (switches : list string) : Prop :=
  forall s, In s switches -> getv c s <> VBool false.

(** The two objects give the same values to all options but these. *)
Definition agree_but (ks : list string) (c c2 : cfg) : Prop :=
  forall o, ~ In o ks -> getv c o = getv c2 o.

(** The option has a number as its value. *)
Definition real_value (v : val) (x : R) : Prop :=
  (exists q, v = VFloat (Fin q) /\ x = Q2R q) \/ (exists z, v = VInt z /\ x = IZR z).
Definition tuple_value (v : val) (xs : list R) : Prop := exists vs, v = VTuple vs /\ Forall2 real_value vs xs.
(** A number that is not smaller in the second object. *)
Definition rises (c c2 : cfg) (o : string) : Prop :=
  exists x x2, real_value (getv c o) x /\ real_value (getv c2 o) x2 /\ (x <= x2)%R.

(** ** Settings

    The settings of the ice module, the crater scaling, ballistic sedimentation and the run
    by the names of their options. *)
Definition numbers : list (string * (rcfg -> R)) := [
  ("simple2complex", fun c => simple2complex (crat (r_i c))); ("complex2peakring", fun c => complex2peakring (crat (r_i c)));
  ("ej_thickness_exp", fun c => ej_exp (crat (r_i c))); ("rad_moon", fun c => rad_moon (crat (r_i c)));
  ("grav_moon", fun c => grav_moon (crat (r_i c))); ("impact_angle", fun c => impact_angle (crat (r_i c)));
  ("impactor_density", fun c => impactor_density (crat (r_i c))); ("target_density", fun c => target_density (crat (r_i c)));
  ("coldtrap_area_H2O", fun c => area_H2O (r_i c)); ("coldtrap_area_CO2", fun c => area_CO2 (r_i c));
  ("ballistic_hop_effcy", fun c => hop_effcy (r_i c)); ("ice_density", fun c => ice_density (r_i c));
  ("timestep", fun c => timestep (r_i c)); ("volc_total_vol", fun c => volc_total_vol (r_i c));
  ("volc_magma_density", fun c => volc_magma_density (r_i c)); ("volc_ice_ppm", fun c => volc_ice_ppm (r_i c));
  ("volc_early_pct", fun c => volc_early_pct (r_i c)); ("volc_late_pct", fun c => volc_late_pct (r_i c));
  ("volc_dep_effcy", fun c => volc_dep_effcy (r_i c)); ("mm_mass_rate", fun c => mm_mass_rate (r_i c));
  ("ctype_frac", fun c => ctype_frac (r_i c)); ("ctype_hydrated", fun c => ctype_hydrated (r_i c));
  ("hydrated_wt_pct", fun c => hydrated_wt_pct (r_i c)); ("impact_mass_retained", fun c => impact_mass_retained (r_i c));
  ("comet_ast_frac", fun c => comet_ast_frac (r_i c)); ("comet_density", fun c => comet_density (r_i c));
  ("comet_hydrated_wt_pct", fun c => comet_hydrated_wt_pct (r_i c)); ("comet_mass_retained", fun c => comet_mass_retained (r_i c));
  ("brown_c0", fun c => brown_c0 (r_i c)); ("brown_d0", fun c => brown_d0 (r_i c));
  ("earth_moon_ratio", fun c => earth_moon_ratio (r_i c)); ("sa_moon", fun c => sa_moon (r_i c));
  ("impact_speed_mean", fun c => impact_speed_mean (r_i c)); ("impact_speed_sd", fun c => impact_speed_sd (r_i c));
  ("escape_vel", fun c => escape_vel (r_i c)); ("comet_speed_min", fun c => comet_speed_min (r_i c));
  ("comet_speed_max", fun c => comet_speed_max (r_i c)); ("jfc_speed_mean", fun c => jfc_mean (r_i c));
  ("jfc_speed_sd", fun c => jfc_sd (r_i c)); ("jfc_frac", fun c => jfc_frac (r_i c));
  ("lpc_speed_mean", fun c => lpc_mean (r_i c)); ("lpc_speed_sd", fun c => lpc_sd (r_i c)); ("lpc_frac", fun c => lpc_frac (r_i c));
  ("ice_erosion_rate", fun c => ice_erosion_rate (r_i c)); ("overturn_depth_present", fun c => overturn_present (r_i c));
  ("overturn_ancient_slope", fun c => overturn_slope (r_i c)); ("overturn_ancient_t0", fun c => overturn_t0 (r_i c));
  ("mixing_ratio_a", fun c => mr_a (r_bsed c)); ("mixing_ratio_b", fun c => mr_b (r_bsed c));
  ("polar_ejecta_temp_init", fun c => temp_init (r_bsed c)); ("basin_ejecta_temp_init_warm", fun c => temp_warm (r_bsed c));
  ("basin_ejecta_temp_init_cold", fun c => temp_cold (r_bsed c)); ("ballistic_sed_frac_lost", fun c => frac_lost (r_bsed c));
  ("timestart", fun c => IZR (r_start c)); ("timeend", fun c => IZR (r_end c)); ("timestep", fun c => IZR (r_step c));
  ("thickness_min", r_min); ("ej_threshold", r_ejthr); ("basin_ej_threshold", r_basinthr)]%string.
Definition flags : list (string * (rcfg -> bool)) := [
  ("is_comet", fun c => is_comet (r_i c)); ("impact_ice_comets", fun c => comets_on (r_i c));
  ("impact_ice_basins", fun c => basins_on (r_i c)); ("solar_wind_ice", fun c => solar_wind_on (r_i c));
  ("faint_young_sun", fun c => faint_young_sun (r_i c)); ("use_volc_dep_effcy", fun c => use_volc_dep (r_i c));
  ("ballistic_hop_moores", fun c => hop_moores (r_i c)); ("neukum_pf_new", fun c => neukum_new (r_i c));
  ("impact_gardening_costello", fun c => costello (r_i c)); ("ballistic_sed", fun c => bsed_on (r_bsed c));
  ("mixing_ratio_petro", fun c => mr_petro (r_bsed c)); ("basin_ejecta_temp_warm", fun c => basin_warm (r_bsed c));
  ("strat_after_age", r_after_age); ("ejecta_basins", r_ejecta_basins)]%string.
Definition words : list (string * (rcfg -> string)) := [
  ("mode", fun c => mode (r_i c)); ("solar_wind_mode", fun c => solar_wind_mode (r_i c)); ("volc_mode", fun c => volc_mode (r_i c))]%string.
Definition tuples : list (string * (rcfg -> list R)) := [
  ("volc_early", fun c => [fst (volc_early (r_i c)); snd (volc_early (r_i c))]);
  ("volc_late", fun c => [fst (volc_late (r_i c)); snd (volc_late (r_i c))]);
  ("neukum_pf_a_2001", fun c => neukum_2001 (r_i c)); ("neukum_pf_a_1983", fun c => neukum_1983 (r_i c))]%string.
(** The dictionary has these four numbers for the regime [r]. *)
Definition regime_value (v : val) (r : string) (xs : R * R * R * R) : Prop :=
  let '(a, b, st, sl) := xs in
  exists before t after, v = VDict (before ++ (VStr r, t) :: after) /\ (forall e, In e before -> fst e <> VStr r) /\
    tuple_value t [a; b; st; sl].
