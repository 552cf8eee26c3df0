(** Ice delivery: /repo/moonpies/moonpies.py:812-1133, 1488-1554, 1642-1920, 2055-2184.

    Exact real arithmetic; decimal constants are the decimals of the source. *)
From Coq Require Import String Ascii List ZArith Reals Bool.
From Verif Require Import Base Model_Time Model_Geo Model_Interp Model_Crater.
Import ListNotations.
Open Scope R_scope.

(** The configuration fields used by the ice code (config.py:66-271).  [regimes] is
    the impact_regimes dict, [None] for a missing key. *)
Record icfg := mk_icfg {
  crat : ccfg;
  mode : string; is_comet : bool; comets_on : bool; basins_on : bool;
  ice_species : string; area_H2O : R; area_CO2 : R; hop_effcy : R; ice_density : R;
  solar_wind_on : bool; solar_wind_mode : string; faint_young_sun : bool; timestep : R;
  volc_mode : string; volc_total_vol : R; volc_magma_density : R; volc_ice_ppm : R;
  volc_early : R * R; volc_early_pct : R; volc_late : R * R; volc_late_pct : R;
  use_volc_dep : bool; volc_dep_effcy : R; hop_moores : bool;
  mm_mass_rate : R; ctype_frac : R; ctype_hydrated : R; hydrated_wt_pct : R;
  impact_mass_retained : R; comet_ast_frac : R; comet_density : R;
  comet_hydrated_wt_pct : R; comet_mass_retained : R;
  brown_c0 : R; brown_d0 : R; earth_moon_ratio : R; sa_moon : R;
  neukum_new : bool; neukum_2001 : list R; neukum_1983 : list R;
  impact_speed_mean : R; impact_speed_sd : R; escape_vel : R;
  comet_speed_min : R; comet_speed_max : R;
  jfc_mean : R; jfc_sd : R; jfc_frac : R; lpc_mean : R; lpc_sd : R; lpc_frac : R;
  costello : bool; ice_erosion_rate : R; overturn_present : R; overturn_slope : R; overturn_t0 : R;
  regimes : string -> option (R * R * R * R) }.

(** ** Thickness *)

(** moonpies.py:898-930 [get_ice_thickness] on one mass; another species leaves
    [coldtrap_area] unbound (an UnboundLocalError, here NameError's stand-in
    AttributeError). *)
Definition get_ice_thickness (c : icfg) (mass : R) : result R :=
  let* area := (if String.eqb (ice_species c) "H2O" then Ok (area_H2O c)
                else if String.eqb (ice_species c) "CO2" then Ok (area_CO2 c)
                else Err AttributeError) in
  let polar := mass * hop_effcy c in
  let vol := polar / ice_density c in
  Ok (vol / area).

(** ** Solar wind *)

(** [str.lower] on ASCII. *)
Definition lower_ascii (a : ascii) : ascii :=
  let n := nat_of_ascii a in
  if Nat.leb 65 n && Nat.leb n 90 then ascii_of_nat (n + 32) else a.
Fixpoint lower (s : string) : string :=
  match s with
  | EmptyString => EmptyString
  | String a r => String (lower_ascii a) (lower r)
  end.

(** moonpies.py:437-438: the luminosity table as read, rows (Gyr since formation,
    luminosity), and its time column converted to years before present. *)
Definition lum_rows (table : list (R * R)) : list (R * R) :=
  map (fun '(g, l) => ((457 / 100 - g) * 1000000000, l)) table.

(** moonpies.py:998-1008: supply per timestep. *)
Definition sw_supply (c : icfg) : result R :=
  let* rate := (if String.eqb (lower (solar_wind_mode c)) "benna" then Ok (2 * (1 / 1000))
                else if String.eqb (lower (solar_wind_mode c)) "lucey-hurley"
                then Ok (30 * (1 / 1000) * (1 / 1000))
                else Err ValueError) in
  Ok (rate * 60 * 60 * 24 * 365 * timestep c).

(** moonpies.py:960-1020 [solar_wind_ice_mass]; [table] is the content of
    bahcall_csv_in. *)
Definition solar_wind_ice_mass (c : icfg) (table : list (R * R)) (time : list R)
  : result (list R) :=
  let* supply := sw_supply c in
  if faint_young_sun c then
    let knots := map (fun '(t, l) => (- t, l)) (lum_rows table) in
    mapM (fun t => let* l := interp knots (- t) in Ok (1 * supply * l)) time
  else Ok (map (fun _ => 1 * supply) time).

(** moonpies.py:934-957 [get_solar_wind_ice]. *)
Definition get_solar_wind_ice (c : icfg) (table : list (R * R)) (time : list R)
  : result (list R) :=
  if solar_wind_on c then
    let* m := solar_wind_ice_mass c table time in
    mapM (get_ice_thickness c) m
  else Ok (map (fun _ => 0) time).

(** ** Volcanic ice *)

(** moonpies.py:1117-1121: ice per timestep in the early and late epoch. *)
Definition volc_ice_total (c : icfg) : R :=
  volc_total_vol c * volc_magma_density c * volc_ice_ppm c * (1 / 1000000).
Definition volc_rate_early (c : icfg) : R := volc_ice_total c * volc_early_pct c * timestep c.
Definition volc_rate_late (c : icfg) : R := volc_ice_total c * volc_late_pct c * timestep c.

(** moonpies.py:1091-1133 [volcanic_ice_head]: zeros, then the two masked
    assignments in order. *)
Definition in_epoch (e : R * R) (t : R) : bool := Rleb t (fst e) && Rltb (snd e) t.
Definition volcanic_ice_head (c : icfg) (time : list R) : list R :=
  map (fun t =>
         let m := 0 in
         let m := if in_epoch (volc_early c) t then volc_rate_early c else m in
         if in_epoch (volc_late c) t then volc_rate_late c else m) time.

(** moonpies.py:1024-1052 [get_volcanic_ice].  The NK mode calls
    read_volcanic_species (379-411), which reads the attribute cfg.species; Cfg has
    no such field (config.py:66-271), so it raises AttributeError once the file has
    been read (reading it is assumed to succeed). *)
Definition get_volcanic_ice (c : icfg) (time : list R) : result (list R) :=
  let* m := (if String.eqb (volc_mode c) "NK" then Err AttributeError
             else if String.eqb (volc_mode c) "Head" then Ok (volcanic_ice_head c time)
             else Err ValueError) in
  mapM (get_ice_thickness c) m.

(** ** Overturn depth *)

(** moonpies.py:1522-1554 [overturn_depth_costello_time]. *)
Definition overturn_depth_costello_time (c : icfg) (time : list R) : list R :=
  map (fun t =>
         let d := 1 * overturn_present c in
         if Rltb (overturn_t0 c) t then d * (overturn_slope c * (t - overturn_t0 c) + 1) else d)
      time.

(** moonpies.py:1488-1519 [overturn_depth_time]. *)
Definition overturn_depth_time (c : icfg) (time : list R) : list R :=
  if costello c then overturn_depth_costello_time c time
  else map (fun _ => ice_erosion_rate c * (timestep c / 10000000) * 1) time.

(** ** Impactor populations *)

(** moonpies.py:2180-2184 [impact_flux] and 2163-2177 [impact_flux_scaling]. *)
Definition impact_flux (time : R) : R :=
  let t := time * (1 / 1000000000) in
  (693 / 100 * (544 / 10000000000000000) * exp (693 / 100 * t) + 838 / 1000000) * (1 / 1000000000).
Definition impact_flux_scaling (time : R) : R := impact_flux time / impact_flux 0.

(** Truncation towards zero, Python's [int] on a float. *)
Definition truncZ (x : R) : Z := if Rltb x 0 then (- Int_part (- x))%Z else Int_part x.

(** moonpies.py:2157-2160 [get_diam_array] in exact arithmetic (with floats the
    quotient may round across an integer); linspace raises ValueError for a negative
    count. *)
Definition get_diam_array (dmin dmax step : R) : result (list R) :=
  if Reqb step 0 then Err ZeroDivisionError
  else
    let n := truncZ ((dmax - dmin) / step) in
    if (n + 1 <? 0)%Z then Err ValueError
    else Ok (linspace dmin dmax (Z.to_nat (n + 1))).

(** moonpies.py:2149-2154 [get_sfd_prob]. *)
Definition get_sfd_prob (diams : list R) (slope : R) : list R :=
  let sfd := map (fun d => Rpower d slope) diams in
  map (fun s => s / Rsum sfd) sfd.

(** moonpies.py:2139-2146 [get_crater_sfd]. *)
Definition get_crater_sfd (dmin dmax step slope : R) : result (list R * list R) :=
  let* diams := get_diam_array dmin dmax step in
  Ok (diams, get_sfd_prob diams slope).

(** [np.log10]. *)
Definition log10 (x : R) : R := ln x / ln 10.

(** moonpies.py:2055-2074 [neukum]: [10 ** sum(a_j log10(diam)^j)]; [start] counts j. *)
Fixpoint poly_from (start : nat) (a : list R) (x : R) : R :=
  match a with
  | [] => 0
  | a0 :: r => a0 * x ^ start + poly_from (S start) r x
  end.
Definition neukum (c : icfg) (diam : R) : R :=
  let a := if neukum_new c then neukum_2001 c else neukum_1983 c in
  let d := diam * (1 / 1000) in
  Rpower 10 (poly_from 0 a (log10 d)) * (1 / 1000000) * (1 / 1000000000).

(** moonpies.py:2109-2120 [num_craters_chronology] at one time. *)
Definition num_craters_chronology (c : icfg) (dmin dmax time : R) : R :=
  (neukum c dmin - neukum c dmax) * sa_moon c * timestep c * impact_flux_scaling time.

(** moonpies.py:2088-2091 and 2102-2105: share of asteroids or comets in a count. *)
Definition share (c : icfg) (n : R) : R :=
  if is_comet c then n * comet_ast_frac c
  else if comets_on c then n * (1 - comet_ast_frac c) else n.

(** moonpies.py:2077-2091 [get_impactors_brown]. *)
Definition get_impactors_brown (c : icfg) (dmin dmax ts : R) : R :=
  let low := Rpower 10 (brown_c0 c - brown_d0 c * log10 dmin) in
  let high := Rpower 10 (brown_c0 c - brown_d0 c * log10 dmax) in
  share c ((low - high) * ts / earth_moon_ratio c).

Definition regime_of (c : icfg) (r : string) : result (R * R * R * R) :=
  match regimes c r with Some x => Ok x | None => Err KeyError end.

(** moonpies.py:2094-2106 [get_crater_pop]: diameters, count at each time, probabilities. *)
Definition get_crater_pop (c : icfg) (time : list R) (regime : string)
  : result (list R * list R * list R) :=
  let* (dmin, dmax, step, slope) := regime_of c regime in
  let* (diams, prob) := get_crater_sfd dmin dmax step slope in
  Ok (diams, map (fun t => share c (num_craters_chronology c dmin dmax t)) time, prob).

(** moonpies.py:2123-2136 [get_small_impactor_pop]: diameters and, per time, the count
    of each diameter. *)
Definition get_small_impactor_pop (c : icfg) (time : list R)
  : result (list R * list (list R)) :=
  let* (dmin, dmax, step, slope) := regime_of c "b" in
  let* (diams, prob) := get_crater_sfd dmin dmax step slope in
  let n := get_impactors_brown c dmin dmax (timestep c) in
  Ok (diams, map (fun t => map (fun p => n * impact_flux_scaling t * p) prob) time).

(** ** Ice masses *)

(** moonpies.py:1784-1808 [ice_micrometeorites] at one time. *)
Definition ice_micrometeorites (c : icfg) (t : R) : R :=
  let mm := mm_mass_rate c * impact_flux_scaling t in
  let ret := if is_comet c then comet_hydrated_wt_pct c * comet_mass_retained c
             else if comets_on c then 0
             else hydrated_wt_pct c * impact_mass_retained c in
  mm * ret * timestep c.

(** moonpies.py:1897-1920 [impactor_mass2water]. *)
Definition impactor_mass2water (c : icfg) (m : R) : R :=
  if is_comet c then comet_hydrated_wt_pct c * m * comet_mass_retained c
  else ctype_frac c * ctype_hydrated c * hydrated_wt_pct c * m * impact_mass_retained c.

(** [np.sum(a * b)] of two vectors. *)
Definition dotsum (a b : list R) : R := Rsum (map (fun '(x, y) => x * y) (combine a b)).

(** moonpies.py:1811-1819 [ice_small_impactors]: one mass per time. *)
Definition ice_small_impactors (c : icfg) (diams : list R) (counts : list (list R)) : list R :=
  let masses := map (fun d => diam2vol d * impactor_density (crat c)) diams in
  map (fun row => impactor_mass2water c (dotsum row masses)) counts.

(** moonpies.py:1822-1835 [ice_small_craters]: one mass per time. *)
Definition ice_small_craters (c : icfg) (diams : list R) (counts : list (list R)) (regime : string)
  : result (list R) :=
  let* lens := diam2len (crat c) diams [impact_speed_mean c] regime in
  let masses := map (fun d => diam2vol d * impactor_density (crat c)) lens in
  Ok (map (fun row => impactor_mass2water c (dotsum masses row)) counts).

(** moonpies.py:1876-1894 [ice_retention_factor] on one speed [m/s]. *)
Definition ice_retention_factor (c : icfg) (speed : R) : R :=
  let s := speed * (1 / 1000) in
  let r := 1 in
  let r := if String.eqb (mode c) "cannon" then
             (if Rleb 10 s then 3626 / 100 * exp (- (3464 / 10000) * s) else r)
           else if String.eqb (mode c) "moonpies" then
             (if Rleb 10 s then 16600 * Rpower s (- (416 / 100)) else r)
           else r in
  let r := if negb (is_comet c) then (if Rltb s 10 then 1 / 2 else r) else r in
  if Rltb r 0 then 0 else r.

(** moonpies.py:1838-1849 [ice_large_craters]. *)
Definition ice_large_craters (c : icfg) (diams speeds : list R) (regime : string) : result R :=
  let* lens := diam2len (crat c) diams speeds regime in
  let masses := map (fun d => diam2vol d * impactor_density (crat c)) lens in
  Ok (Rsum (map (fun '(m, v) => m * hydrated_wt_pct c * ice_retention_factor c v)
                (combine masses speeds))).

(** ** Deterministic sources *)

(** moonpies.py:1642-1652 [get_micrometeorite_ice]. *)
Definition get_micrometeorite_ice (c : icfg) (time : list R) : result (list R) :=
  mapM (get_ice_thickness c) (map (ice_micrometeorites c) time).

(** moonpies.py:1655-1667 [get_small_impactor_ice]. *)
Definition get_small_impactor_ice (c : icfg) (time : list R) : result (list R) :=
  let* (diams, n) := get_small_impactor_pop c time in
  mapM (get_ice_thickness c) (ice_small_impactors c diams n).

(** moonpies.py:1670-1683 [get_small_simple_crater_ice]. *)
Definition get_small_simple_crater_ice (c : icfg) (time : list R) : result (list R) :=
  let* (diams, nt, prob) := get_crater_pop c time "c" in
  let counts := map (fun n => map (fun p => n * p) prob) nt in
  let* m := ice_small_craters c diams counts "c" in
  mapM (get_ice_thickness c) m.

(** ** Distribution over cold traps *)

Definition vadd (a b : list R) : list R := map (fun '(x, y) => x + y) (combine a b).

(** moonpies.py:1767-1781 [get_ballistic_hop_coldtraps]: [.loc] raises KeyError for a
    missing name. *)
Definition get_ballistic_hop_coldtraps (bhop : string -> option R) (names : list string)
  : result (list R) :=
  mapM (fun n => match bhop n with Some x => Ok x | None => Err KeyError end) names.

(** moonpies.py:843-863: from polar and volcanic ice to one row per time. *)
Definition distribute_ice (c : icfg) (bhop : string -> option R) (names : list string)
  (polar volc : list R) : result (list (list R)) :=
  let (polar, volc) :=
    if use_volc_dep c then (polar, map (fun v => v * (volc_dep_effcy c / hop_effcy c)) volc)
    else (vadd polar volc, map (fun v => v * 0) volc) in
  let* rows :=
    if hop_moores c then
      let* bhops := get_ballistic_hop_coldtraps bhop names in
      Ok (map (fun p => map (fun b => b / hop_effcy c * p) bhops) polar)
    else Ok (map (fun p => map (fun _ => p) names) polar) in
  Ok (map (fun '(row, v) => map (fun x => x + v) row) (combine rows volc)).

(** moonpies.py:1591-1614 [get_comet_cfg], the fields used here. *)
Definition get_comet_cfg (c : icfg) : icfg :=
  {| crat := {| simple2complex := simple2complex (crat c); complex2peakring := complex2peakring (crat c);
                ej_exp := ej_exp (crat c); rad_moon := rad_moon (crat c); grav_moon := grav_moon (crat c);
                impact_angle := impact_angle (crat c); impactor_density := comet_density c;
                target_density := target_density (crat c) |};
     mode := mode c; is_comet := true; comets_on := comets_on c; basins_on := basins_on c;
     ice_species := ice_species c; area_H2O := area_H2O c; area_CO2 := area_CO2 c;
     hop_effcy := hop_effcy c; ice_density := ice_density c;
     solar_wind_on := solar_wind_on c; solar_wind_mode := solar_wind_mode c;
     faint_young_sun := faint_young_sun c; timestep := timestep c;
     volc_mode := volc_mode c; volc_total_vol := volc_total_vol c;
     volc_magma_density := volc_magma_density c; volc_ice_ppm := volc_ice_ppm c;
     volc_early := volc_early c; volc_early_pct := volc_early_pct c;
     volc_late := volc_late c; volc_late_pct := volc_late_pct c;
     use_volc_dep := use_volc_dep c; volc_dep_effcy := volc_dep_effcy c; hop_moores := hop_moores c;
     mm_mass_rate := mm_mass_rate c; ctype_frac := ctype_frac c; ctype_hydrated := ctype_hydrated c;
     hydrated_wt_pct := comet_hydrated_wt_pct c; impact_mass_retained := comet_mass_retained c;
     comet_ast_frac := comet_ast_frac c; comet_density := comet_density c;
     comet_hydrated_wt_pct := comet_hydrated_wt_pct c; comet_mass_retained := comet_mass_retained c;
     brown_c0 := brown_c0 c; brown_d0 := brown_d0 c; earth_moon_ratio := earth_moon_ratio c;
     sa_moon := sa_moon c; neukum_new := neukum_new c; neukum_2001 := neukum_2001 c;
     neukum_1983 := neukum_1983 c; impact_speed_mean := impact_speed_mean c;
     impact_speed_sd := impact_speed_sd c; escape_vel := escape_vel c;
     comet_speed_min := comet_speed_min c; comet_speed_max := comet_speed_max c;
     jfc_mean := jfc_mean c; jfc_sd := jfc_sd c; jfc_frac := jfc_frac c;
     lpc_mean := lpc_mean c; lpc_sd := lpc_sd c; lpc_frac := lpc_frac c;
     costello := costello c; ice_erosion_rate := ice_erosion_rate c;
     overturn_present := overturn_present c; overturn_slope := overturn_slope c;
     overturn_t0 := overturn_t0 c; regimes := regimes c |}.

(** config.py:219-226: the default impact_regimes (regime a is never looked up). *)
Definition regimes0 (r : string) : option (R * R * R * R) :=
  if String.eqb r "b" then Some (1 / 100, 3, 1 / 10000, - (37 / 10))
  else if String.eqb r "c" then Some (100, 1500, 1, - (382 / 100))
  else if String.eqb r "d" then Some (1500, 15000, 100, - (18 / 10))
  else if String.eqb r "e" then Some (15000, 300000, 1000, - (18 / 10))
  else None.

(** config.py:66-271 with the moonpies mode and south pole defaults (28-52). *)
Definition ICFG0 : icfg :=
  {| crat := CFG0; mode := "moonpies"; is_comet := false; comets_on := true; basins_on := true;
     ice_species := "H2O"; area_H2O := 13000 * 1000000; area_CO2 := 104 * 1000000;
     hop_effcy := 54 / 1000; ice_density := 934;
     solar_wind_on := true; solar_wind_mode := "Benna"; faint_young_sun := true; timestep := 10000000;
     volc_mode := "Head"; volc_total_vol := 10000000; volc_magma_density := 3000; volc_ice_ppm := 10;
     volc_early := (4000000000, 3000000000); volc_early_pct := 75 / 100;
     volc_late := (3000000000, 2000000000); volc_late_pct := 25 / 100;
     use_volc_dep := true; volc_dep_effcy := 26 / 100; hop_moores := true;
     mm_mass_rate := 1000000; ctype_frac := 36 / 100; ctype_hydrated := 2 / 3;
     hydrated_wt_pct := 1 / 10; impact_mass_retained := 165 / 1000;
     comet_ast_frac := 5 / 100; comet_density := 600;
     comet_hydrated_wt_pct := 2 / 10; comet_mass_retained := 65 / 1000;
     brown_c0 := 1568 / 1000; brown_d0 := 27 / 10; earth_moon_ratio := 225 / 10;
     sa_moon := 4 * PI * 1737400 ^ 2;
     neukum_new := true;
     neukum_2001 := [- (30876 / 10000); - (3557528 / 1000000); 781027 / 1000000; 1021521 / 1000000;
                     - (156012 / 1000000); - (444058 / 1000000); 19977 / 1000000; 86850 / 1000000;
                     - (5874 / 1000000); - (6809 / 1000000); 825 / 1000000; 554 / 10000000];
     neukum_1983 := [- (30768 / 10000); - (36269 / 10000); 4366 / 10000; 7935 / 10000; 865 / 10000;
                     - (2649 / 10000); - (664 / 10000); 379 / 10000; 106 / 10000; - (22 / 10000);
                     - (518 / 1000000); 397 / 10000000];
     impact_speed_mean := 20000; impact_speed_sd := 6000; escape_vel := 2380;
     comet_speed_min := 10200; comet_speed_max := 72000;
     jfc_mean := 20000; jfc_sd := 5000; jfc_frac := 875 / 1000;
     lpc_mean := 54000; lpc_sd := 5000; lpc_frac := 125 / 1000;
     costello := true; ice_erosion_rate := 1 / 10; overturn_present := 9 / 100;
     overturn_slope := 1 / 1000000000; overturn_t0 := 3000000000; regimes := regimes0 |}.
