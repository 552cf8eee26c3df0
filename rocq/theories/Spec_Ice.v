(** Vocabulary of the theorems about ice delivery. *)
From Coq Require Import String Ascii List ZArith Reals Bool Sorted.
From Verif Require Import Base Model_Time Model_Geo Model_Interp Model_Crater Model_Ice Model_Rng.
Import ListNotations.
Open Scope R_scope.

(** Letters equal up to case: the same character, or [a] upper case and [b] its lower
    case (32 further in ASCII). *)
Definition same_letter (a b : ascii) : Prop :=
  a = b \/ (65 <= nat_of_ascii a <= 90 /\ nat_of_ascii b = nat_of_ascii a + 32)%nat.
(** [s] is [name] (given in lower case) in any letter case. *)
Definition same_name (s name : string) : Prop :=
  Forall2 same_letter (list_ascii_of_string s) (list_ascii_of_string name).

(** The table file lists increasing solar ages. *)
Definition ages_increasing (table : list (R * R)) : Prop :=
  StronglySorted (fun a b => fst a < fst b) table.

(** [c] with the two flags impact_ice_comets and impact_ice_basins replaced. *)
Definition with_flags (c : icfg) (comets basins : bool) : icfg :=
  {| crat := crat c;
     mode := mode c; is_comet := is_comet c; comets_on := comets; basins_on := basins;
     ice_species := ice_species c; area_H2O := area_H2O c; area_CO2 := area_CO2 c;
     hop_effcy := hop_effcy c; ice_density := ice_density c;
     solar_wind_on := solar_wind_on c; solar_wind_mode := solar_wind_mode c;
     faint_young_sun := faint_young_sun c; timestep := timestep c;
     volc_mode := volc_mode c; volc_total_vol := volc_total_vol c;
     volc_magma_density := volc_magma_density c; volc_ice_ppm := volc_ice_ppm c;
     volc_early := volc_early c; volc_early_pct := volc_early_pct c;
     volc_late := volc_late c; volc_late_pct := volc_late_pct c;
     use_volc_dep := use_volc_dep c; volc_dep_effcy := volc_dep_effcy c; hop_moores := hop_moores c;
     mm_mass_rate := mm_mass_rate c; ctype_frac := ctype_frac c; ctype_hydrated := ctype_hydrated c;
     hydrated_wt_pct := hydrated_wt_pct c; impact_mass_retained := impact_mass_retained c;
     comet_ast_frac := comet_ast_frac c; comet_density := comet_density c;
     comet_hydrated_wt_pct := comet_hydrated_wt_pct c; comet_mass_retained := comet_mass_retained c;
     brown_c0 := brown_c0 c; brown_d0 := brown_d0 c; earth_moon_ratio := earth_moon_ratio c;
     sa_moon := sa_moon c; neukum_new := neukum_new c; neukum_2001 := neukum_2001 c;
     neukum_1983 := neukum_1983 c; impact_speed_mean := impact_speed_mean c;
     impact_speed_sd := impact_speed_sd c; escape_vel := escape_vel c;
     comet_speed_min := comet_speed_min c; comet_speed_max := comet_speed_max c;
     jfc_mean := jfc_mean c; jfc_sd := jfc_sd c; jfc_frac := jfc_frac c;
     lpc_mean := lpc_mean c; lpc_sd := lpc_sd c; lpc_frac := lpc_frac c;
     costello := costello c; ice_erosion_rate := ice_erosion_rate c;
     overturn_present := overturn_present c; overturn_slope := overturn_slope c;
     overturn_t0 := overturn_t0 c; regimes := regimes c |}.
Definition without_comets (c : icfg) : icfg := with_flags c false (basins_on c).

(** All values of the random stream are in [0,1). *)
Definition draws (u : tape) : Prop := forall i, 0 <= u i < 1.
(** [ppf] respects the support of the truncated normal. *)
Definition ppf_support (ppf : ppf_fun) : Prop :=
  forall a b u, 0 <= u < 1 ->
    match b with
    | Some b' => a <= b' -> a <= ppf a b u <= b'
    | None => a <= ppf a b u
    end.

(** [ppf] reaches every point inside a bounded support. *)
Definition ppf_onto (ppf : ppf_fun) : Prop :=
  forall a b x, a < x < b -> exists u, 0 <= u < 1 /\ ppf a (Some b) u = x.

(** A [ppf] with both properties, to show that they can be met. *)
Definition lin_ppf : ppf_fun :=
  fun a b u => match b with Some b' => a + u * (b' - a) | None => a + u end.

(** The configured speed distributions make sense: positive widths and fractions, and
    positive speeds only. *)
Definition speeds_sane (c : icfg) : Prop :=
  0 < escape_vel c /\ 0 < impact_speed_sd c /\ 0 < jfc_sd c /\ 0 < lpc_sd c /\
  0 < jfc_frac c /\ 0 < lpc_frac c /\ 0 <= comet_speed_min c + comet_speed_max c /\
  comet_speed_min c < jfc_mean c /\ comet_speed_min c < lpc_mean c.

(** The speeds that can occur. *)
Definition speed_ok (c : icfg) (v : R) : Prop :=
  if is_comet c
  then jfc_mean c - comet_speed_min c <= v <= jfc_mean c + comet_speed_max c \/
       lpc_mean c - comet_speed_min c <= v <= lpc_mean c + comet_speed_max c
  else escape_vel c <= v.

(** An impact regime with at least two diameters. *)
Definition regime_sane (c : icfg) (r : string) : Prop :=
  exists dmin dmax step slope, regimes c r = Some (dmin, dmax, step, slope) /\
    0 < dmin /\ 0 < step /\ step <= dmax - dmin.

(** There are not fewer craters above the smaller diameter. *)
Definition counts_sane (c : icfg) (r : string) : Prop :=
  exists dmin dmax step slope, regimes c r = Some (dmin, dmax, step, slope) /\ neukum c dmax <= neukum c dmin.

(** A physically meaningful configuration. *)
Record sane (c : icfg) : Prop := {
  s_species : ice_species c = "H2O"%string;
  s_area : 0 < area_H2O c; s_dens : 0 < ice_density c; s_hop : 0 < hop_effcy c;
  s_ts : 0 <= timestep c;
  s_mm : 0 <= mm_mass_rate c;
  s_ct : 0 <= ctype_frac c; s_ch : 0 <= ctype_hydrated c;
  s_hw : 0 <= hydrated_wt_pct c; s_ret : 0 <= impact_mass_retained c;
  s_ca : 0 <= comet_ast_frac c <= 1; s_cd : 0 < comet_density c;
  s_cw : 0 <= comet_hydrated_wt_pct c; s_cr : 0 <= comet_mass_retained c;
  s_d0 : 0 <= brown_d0 c; s_em : 0 < earth_moon_ratio c; s_sa : 0 <= sa_moon c;
  s_rho : 0 < impactor_density (crat c); s_rhot : 0 < target_density (crat c);
  s_grav : 0 < grav_moon (crat c); s_v : 0 < impact_speed_mean c;
  s_trans : simple2complex (crat c) <= complex2peakring (crat c);
  s_trans_c : exists dmin dmax step slope, regimes c "c"%string = Some (dmin, dmax, step, slope)
              /\ final2transient (crat c) dmin <= final2transient (crat c) dmax;
  s_speeds : speeds_sane c;
  s_reg : forall r, In r ["b"; "c"; "d"; "e"]%string -> regime_sane c r;
  s_counts : forall r, In r ["c"; "d"; "e"]%string -> counts_sane c r }.

(** One non-negative number per time. *)
Definition good (n : nat) (l : list R) : Prop := length l = n /\ Forall (fun x => 0 <= x) l.

(** Meaningful solar wind settings; the table is only needed for the faint young Sun. *)
Definition sun_sane (c : icfg) (table : list (R * R)) : Prop :=
  solar_wind_on c = true ->
  (same_name (solar_wind_mode c) "benna" \/ same_name (solar_wind_mode c) "lucey-hurley") /\
  (faint_young_sun c = true -> table <> [] /\ ages_increasing table /\ Forall (fun r => 0 <= snd r) table).

(** Meaningful volcanic settings. *)
Definition volc_sane (c : icfg) : Prop :=
  volc_mode c = "Head"%string /\ 0 <= volc_total_vol c /\ 0 <= volc_magma_density c /\
  0 <= volc_ice_ppm c /\ 0 <= volc_early_pct c /\ 0 <= volc_late_pct c /\ 0 <= volc_dep_effcy c.

(** A basin with the icy_impactor mark [t]. *)
Definition is_icy (t : string) (b : impact) : bool := i_basin b && String.eqb (i_icy b) t.

