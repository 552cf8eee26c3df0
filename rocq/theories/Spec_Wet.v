(** Vocabulary of the comparison of runs with drier and wetter impactors. *)
From Coq Require Import String List ZArith Reals Bool.
From Verif Require Import Base Model_Time Model_Crater Model_Ice.
Import ListNotations.
Open Scope R_scope.

(** [c] with hydrated_wt_pct, impact_mass_retained, comet_hydrated_wt_pct and
    comet_mass_retained replaced. *)
Definition with_water (c : icfg) (hw ret chw cret : R) : icfg :=
  {| crat := crat c;
     mode := mode c; is_comet := is_comet c; comets_on := comets_on c; basins_on := basins_on c;
     ice_species := ice_species c; area_H2O := area_H2O c; area_CO2 := area_CO2 c;
     hop_effcy := hop_effcy c; ice_density := ice_density c;
     solar_wind_on := solar_wind_on c; solar_wind_mode := solar_wind_mode c;
     faint_young_sun := faint_young_sun c; timestep := timestep c;
     volc_mode := volc_mode c; volc_total_vol := volc_total_vol c;
     volc_magma_density := volc_magma_density c; volc_ice_ppm := volc_ice_ppm c;
     volc_early := volc_early c; volc_early_pct := volc_early_pct c;
     volc_late := volc_late c; volc_late_pct := volc_late_pct c;
     use_volc_dep := use_volc_dep c; volc_dep_effcy := volc_dep_effcy c; hop_moores := hop_moores c;
     mm_mass_rate := mm_mass_rate c; ctype_frac := ctype_frac c; ctype_hydrated := ctype_hydrated c;
     hydrated_wt_pct := hw; impact_mass_retained := ret;
     comet_ast_frac := comet_ast_frac c; comet_density := comet_density c;
     comet_hydrated_wt_pct := chw; comet_mass_retained := cret;
     brown_c0 := brown_c0 c; brown_d0 := brown_d0 c; earth_moon_ratio := earth_moon_ratio c;
     sa_moon := sa_moon c; neukum_new := neukum_new c; neukum_2001 := neukum_2001 c;
     neukum_1983 := neukum_1983 c; impact_speed_mean := impact_speed_mean c;
     impact_speed_sd := impact_speed_sd c; escape_vel := escape_vel c;
     comet_speed_min := comet_speed_min c; comet_speed_max := comet_speed_max c;
     jfc_mean := jfc_mean c; jfc_sd := jfc_sd c; jfc_frac := jfc_frac c;
     lpc_mean := lpc_mean c; lpc_sd := lpc_sd c; lpc_frac := lpc_frac c;
     costello := costello c; ice_erosion_rate := ice_erosion_rate c;
     overturn_present := overturn_present c; overturn_slope := overturn_slope c;
     overturn_t0 := overturn_t0 c; regimes := regimes c |}.
