(** Vocabulary of the comparison of two columns and of two runs. *)
From Coq Require Import String List ZArith Reals Bool.
From Verif Require Import Base Spec_Column Model_Time Model_Crater Model_Ice Model_Rng Model_Melt
  Model_Strat Model_Main Spec_Time Spec_Ice Spec_Main.
Import ListNotations.
Open Scope R_scope.

(** The second step delivers no less ice and ejecta, and disturbs the column no deeper and
    no harder. *)
Definition event_le (e e2 : @event R) : Prop :=
  0 <= ev_ice e <= ev_ice e2 /\ ev_ej e <= ev_ej e2 /\
  ev_bsed_depth e2 <= Rmax 0 (ev_bsed_depth e) /\ 0 <= ev_bsed_frac e2 <= ev_bsed_frac e /\ ev_bsed_frac e <= 1 /\
  ev_overturn e2 <= ev_overturn e.

(** No cold trap of the second run ends with less ice in any of its layers, or less ice in
    its table. *)
Definition no_less_ice (out out2 : outputs) : Prop :=
  o_time out2 = o_time out /\ map fst (o_ice out2) = map fst (o_ice out) /\
  map fst (o_strat out2) = map fst (o_strat out) /\
  (forall n x x2, In (n, x) (o_ice out) -> In (n, x2) (o_ice out2) -> Forall2 Rle x x2) /\
  (forall n l l2, In (n, l) (o_strat out) -> In (n, l2) (o_strat out2) ->
     Rsum (map l_ice l) <= Rsum (map l_ice l2)).

(** [c] with cfg.solar_wind_ice, volc_total_vol, ice_erosion_rate and overturn_depth_present
    replaced. *)
Definition with_rates (c : icfg) (sun : bool) (volc rate present : R) : icfg :=
  {| crat := crat c;
     mode := mode c; is_comet := is_comet c; comets_on := comets_on c; basins_on := basins_on c;
     ice_species := ice_species c; area_H2O := area_H2O c; area_CO2 := area_CO2 c;
     hop_effcy := hop_effcy c; ice_density := ice_density c;
     solar_wind_on := sun; solar_wind_mode := solar_wind_mode c;
     faint_young_sun := faint_young_sun c; timestep := timestep c;
     volc_mode := volc_mode c; volc_total_vol := volc;
     volc_magma_density := volc_magma_density c; volc_ice_ppm := volc_ice_ppm c;
     volc_early := volc_early c; volc_early_pct := volc_early_pct c;
     volc_late := volc_late c; volc_late_pct := volc_late_pct c;
     use_volc_dep := use_volc_dep c; volc_dep_effcy := volc_dep_effcy c; hop_moores := hop_moores c;
     mm_mass_rate := mm_mass_rate c; ctype_frac := ctype_frac c; ctype_hydrated := ctype_hydrated c;
     hydrated_wt_pct := hydrated_wt_pct c; impact_mass_retained := impact_mass_retained c;
     comet_ast_frac := comet_ast_frac c; comet_density := comet_density c;
     comet_hydrated_wt_pct := comet_hydrated_wt_pct c; comet_mass_retained := comet_mass_retained c;
     brown_c0 := brown_c0 c; brown_d0 := brown_d0 c; earth_moon_ratio := earth_moon_ratio c;
     sa_moon := sa_moon c; neukum_new := neukum_new c; neukum_2001 := neukum_2001 c;
     neukum_1983 := neukum_1983 c; impact_speed_mean := impact_speed_mean c;
     impact_speed_sd := impact_speed_sd c; escape_vel := escape_vel c;
     comet_speed_min := comet_speed_min c; comet_speed_max := comet_speed_max c;
     jfc_mean := jfc_mean c; jfc_sd := jfc_sd c; jfc_frac := jfc_frac c;
     lpc_mean := lpc_mean c; lpc_sd := lpc_sd c; lpc_frac := lpc_frac c;
     costello := costello c; ice_erosion_rate := rate;
     overturn_present := present; overturn_slope := overturn_slope c;
     overturn_t0 := overturn_t0 c; regimes := regimes c |}.

(** [c] with the ice settings, the sedimentation settings and the ballistic hop table
    replaced. *)
Definition with_settings (c : rcfg) (i : icfg) (b : bcfg) (hop : string -> option R) : rcfg :=
  mk_rcfg i (r_names c) (r_start c) (r_end c) (r_step c) (r_tol c) (r_min c) (r_ejthr c)
    (r_basinthr c) b (r_melt c) (r_shield c) (r_after_age c) (r_ejecta_basins c) (r_lum c) hop (r_rnd c).

(** [b] with ballistic sedimentation switched off. *)
Definition no_bsed (b : bcfg) : bcfg :=
  mk_bcfg false (mr_a b) (mr_b b) (mr_petro b) (temp_init b) (basin_warm b) (temp_warm b) (temp_cold b) (frac_lost b).

(** Meaningful settings, different names in the list of cold traps and in the files, and a
    conversion to cfg.dtype that keeps the order. *)
Record run_sane (c : rcfg) (ppf : ppf_fun) (sort : list (crater info) -> list (crater info))
  (rows : list raw) (u : tape) : Prop := {
  rs_ice : ice_sane c; rs_bsed : bsed_sane c; rs_ppf : ppf_support ppf; rs_sort : sorts_by_age sort;
  rs_draws : draws u; rs_names : NoDup (r_names c); rs_rows : NoDup (map w_name rows);
  rs_order : keeps_order (r_rnd c) }.
