(** Vocabulary of the properties of data files and of runs from a configuration object. *)
From Coq Require Import ZArith QArith Bool Ascii String List Reals.
From Verif Require Import Base Model_Csv Model_Cfg Data_Shipped.
Import ListNotations.
Open Scope string_scope.

(** ** Runs *)

(** The options with numbers, tables and column names that a run reads. *)
Definition physics : list string := [
  "timestart"; "timeend"; "timestep"; "thickness_min"; "ej_threshold"; "basin_ej_threshold";
  "simple2complex"; "complex2peakring"; "ej_thickness_exp"; "rad_moon"; "grav_moon"; "impact_angle";
  "impactor_density"; "target_density"; "ice_density"; "solar_wind_mode";
  "volc_mode"; "volc_total_vol"; "volc_magma_density"; "volc_ice_ppm"; "volc_early"; "volc_early_pct";
  "volc_late"; "volc_late_pct"; "mm_mass_rate"; "ctype_frac"; "ctype_hydrated"; "hydrated_wt_pct";
  "impact_mass_retained"; "comet_ast_frac"; "comet_density"; "comet_hydrated_wt_pct"; "comet_mass_retained";
  "brown_c0"; "brown_d0"; "earth_moon_ratio"; "sa_moon"; "neukum_pf_a_2001"; "neukum_pf_a_1983";
  "impact_speed_mean"; "impact_speed_sd"; "escape_vel"; "comet_speed_min"; "comet_speed_max";
  "jfc_speed_mean"; "jfc_speed_sd"; "jfc_frac"; "lpc_speed_mean"; "lpc_speed_sd"; "lpc_frac";
  "ice_erosion_rate"; "overturn_depth_present"; "overturn_ancient_slope"; "overturn_ancient_t0";
  "impact_regimes"; "mixing_ratio_a"; "mixing_ratio_b"; "polar_ejecta_temp_init";
  "basin_ejecta_temp_init_warm"; "basin_ejecta_temp_init_cold"; "ballistic_sed_frac_lost";
  "crater_cols"; "basin_cols"].
(** The numbers that depend on the pole. *)
Definition polar : list string :=
  ["ballistic_hop_effcy"; "volc_dep_effcy"; "coldtrap_area_H2O"; "coldtrap_area_CO2"].
(** The user gives none of these: only switches, the mode, the pole, the cold traps, the
    seed, names, paths and options that a run does not read. *)
Definition only_switches (kw : cfg) : Prop :=
  forall k, In k physics \/ In k polar -> lookup k kw = None.

(** The files that the configuration names are copies of the shipped ones. *)
Definition installed (fs : string -> option string) (c : cfg) : Prop :=
  Forall (fun kt => exists p, getv c (fst kt) = VStr p /\ fs p = Some (snd kt))
    [("crater_csv_in", crater_list_csv); ("basin_csv_in", basin_list_csv); ("bahcall_csv_in", bahcall_csv);
     ("bhop_csv_in", ballistic_hop_csv); ("bsed_frac_mean_in", melt_mean_csv)].

(** The craters of the shipped list with a position of their shadowed area, and those with a
    ballistic hop efficiency. *)
Definition shadowed : list string := [
  "Haworth"; "Shoemaker"; "Faustini"; "Amundsen"; "Cabeus B"; "de Gerlache"; "Idel'son L"; "Unnamed 1";
  "Cabeus"; "Nobile"; "Scott"; "Scott E"; "Slater"; "Sverdrup"; "Wiechert P"; "Unnamed 2"; "Wiechert";
  "Unnamed 3"; "Wiechert U"; "Wiechert J"; "Shackleton"].
Definition with_hop : list string := [
  "Haworth"; "Shoemaker"; "Faustini"; "Shackleton"; "Slater"; "Amundsen"; "Cabeus"; "Sverdrup";
  "de Gerlache"; "Idel'son L"; "Wiechert J"; "Cabeus B"].

(** All craters and basins of the shipped lists. *)
Definition listed : list string := (shadowed ++ ["Hedervari"; "Idel'son"; "Amundsen C"] ++ [
  "Cruger-Sirsalis"; "Amundsen-Ganswindt"; "Dirichlet-Jackson"; "Serenitatis"; "Poincare"; "Coulomb-Sarton";
  "Lorentz"; "Schiller-Zucchius"; "Birkhoff"; "Ingenii"; "Fitzgerald-Jackson"; "Freundlich-Sharanov"; "Nectaris";
  "Grimaldi"; "Mendel-Rydberg"; "Apollo"; "Planck"; "Moscoviense"; "Korolev"; "Mendeleev"; "Humorum";
  "Hertzsprung"; "Crisium"; "Humboldtianum"; "Imbrium"; "Schrodinger"; "Orientale"])%list.

(** The cold traps of a configuration: different craters with the data they need. *)
Definition known_traps (c : cfg) (names : list string) : Prop :=
  getv c "coldtrap_names" = VTuple (map VStr names) /\ NoDup names /\ incl names shadowed /\
  (getv c "ballistic_hop_moores" = VBool true -> incl names with_hop).
