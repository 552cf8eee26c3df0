(** The figures of laws: /repo/notebooks/figure_scripts/plot_figs.py:200-258 [crater_scaling],
    1111-1146 [ice_retention] and 980-1046 [ballistic_hop], down to the numbers that are drawn. *)
From Coq Require Import String List ZArith Reals Bool.
From Verif Require Import Base Model_Time Model_Crater Model_Ice Model_Curves.
Import ListNotations.
Open Scope R_scope.

(** ** Impactor against crater *)

(** A series: its format, its label if it has one, and (crater, impactor) of each marker. *)
Record line := mk_line { l_fmt : string; l_label : option string; l_marks : list (R * R) }.

(** The figure: the series of the configured regimes, those of the proposed ones, the
    basins, what is written along the axes, and the two vertical lines. *)
Record scaling_fig := mk_scaling_fig {
  z_lines : list line; z_proposed : list line; z_basins : line;
  z_xlabel : string; z_ylabel : string; z_transitions : R * R }.

(** plot_figs.py:211-215. *)
Definition regime_label (regime : string) : result string :=
  if String.eqb regime "c" then Ok "C: Small simple craters (Prieur et al., 2017)"%string
  else if String.eqb regime "d" then Ok "D: Large simple craters (Collins et al., 2005)"%string
  else if String.eqb regime "e" then Ok "E: Complex craters (Johnson et al., 2016)"%string
  else if String.eqb regime "f" then Ok "F: Basins (Johnson et al., 2016)"%string
  else Err KeyError.

(** plot_figs.py:219-226: the proposed regimes that are drawn. *)
Definition proposed : list (string * (R * R)) := [("a", (0, 1 / 100)); ("b", (1 / 100, 3)); ("c", (250, 1500)); ("d", (1500, 15000)); ("e", (19000, 300000))]%string.

(** config.py:219-226: the first two numbers of the shipped impact_regimes. *)
Definition shipped_regimes : list (string * (R * R)) := [("a", (0, 1 / 100)); ("b", (1 / 100, 3)); ("c", (100, 1500)); ("d", (1500, 15000)); ("e", (15000, 300000))]%string.

(** plot_figs.py:234-242: the series of one dictionary of regimes, in its order.  np.geomspace
    does not take 0 as an end; negative ends are not modelled.  The one speed is passed for
    each diameter. *)
Definition marks (c : ccfg) (diams : list R) (regime : string) : result (list (R * R)) :=
  let* ls := diam2len c diams (repeat 20000 (length diams)) regime in
  Ok (combine (map (fun d => d / 1000) diams) ls).
Definition regime_line (c : ccfg) (first : bool) (regime : string) (lo hi : R) : result line :=
  if Reqb lo 0 || Reqb hi 0 then Err ValueError
  else
    let* ms := marks c (geomspace lo hi 2) regime in
    let* label := if first then (let* s := regime_label regime in Ok (Some s)) else Ok None in
    Ok (mk_line (if first then "-" else "rx")%string label ms).
Fixpoint regime_lines (c : ccfg) (first : bool) (rs : list (string * (R * R))) : result (list line) :=
  match rs with
  | [] => Ok []
  | (regime, (lo, hi)) :: rest =>
    if String.eqb regime "a" || String.eqb regime "b" then regime_lines c first rest
    else
      let* l := regime_line c first regime lo hi in
      let* ls := regime_lines c first rest in
      Ok (l :: ls)
  end.

(** plot_figs.py:200-258 [crater_scaling]: the settings of craters, cfg.impact_regimes, and
    the diameters of read_basin_list in metres. *)
Definition crater_scaling (c : ccfg) (regimes : list (string * (R * R))) (basins : list R) : result scaling_fig :=
  let* own := regime_lines c true regimes in
  let* alt := regime_lines c false proposed in
  let* bs := marks c basins "f" in
  let* label := regime_label "f" in
  Ok (mk_scaling_fig own alt (mk_line "k+" (Some label) bs) "Crater Diameter [km]" "Impactor Diameter [km]"
        (simple2complex c / 1000, complex2peakring c / 1000)).

(** ** Retention against speed *)

(** config.Cfg(mode=m, is_comet=comet): of its settings only these two matter to
    [ice_retention_factor]; the others are here as for the default mode. *)
Definition in_mode (m : string) (comet : bool) : icfg :=
  {| crat := crat ICFG0; mode := m; is_comet := comet; comets_on := comets_on ICFG0;
     basins_on := basins_on ICFG0; ice_species := ice_species ICFG0; area_H2O := area_H2O ICFG0;
     area_CO2 := area_CO2 ICFG0; hop_effcy := hop_effcy ICFG0; ice_density := ice_density ICFG0;
     solar_wind_on := solar_wind_on ICFG0; solar_wind_mode := solar_wind_mode ICFG0;
     faint_young_sun := faint_young_sun ICFG0; timestep := timestep ICFG0; volc_mode := volc_mode ICFG0;
     volc_total_vol := volc_total_vol ICFG0; volc_magma_density := volc_magma_density ICFG0;
     volc_ice_ppm := volc_ice_ppm ICFG0; volc_early := volc_early ICFG0;
     volc_early_pct := volc_early_pct ICFG0; volc_late := volc_late ICFG0;
     volc_late_pct := volc_late_pct ICFG0; use_volc_dep := use_volc_dep ICFG0;
     volc_dep_effcy := volc_dep_effcy ICFG0; hop_moores := hop_moores ICFG0;
     mm_mass_rate := mm_mass_rate ICFG0; ctype_frac := ctype_frac ICFG0;
     ctype_hydrated := ctype_hydrated ICFG0; hydrated_wt_pct := hydrated_wt_pct ICFG0;
     impact_mass_retained := impact_mass_retained ICFG0; comet_ast_frac := comet_ast_frac ICFG0;
     comet_density := comet_density ICFG0; comet_hydrated_wt_pct := comet_hydrated_wt_pct ICFG0;
     comet_mass_retained := comet_mass_retained ICFG0; brown_c0 := brown_c0 ICFG0;
     brown_d0 := brown_d0 ICFG0; earth_moon_ratio := earth_moon_ratio ICFG0; sa_moon := sa_moon ICFG0;
     neukum_new := neukum_new ICFG0; neukum_2001 := neukum_2001 ICFG0; neukum_1983 := neukum_1983 ICFG0;
     impact_speed_mean := impact_speed_mean ICFG0; impact_speed_sd := impact_speed_sd ICFG0;
     escape_vel := escape_vel ICFG0; comet_speed_min := comet_speed_min ICFG0;
     comet_speed_max := comet_speed_max ICFG0; jfc_mean := jfc_mean ICFG0; jfc_sd := jfc_sd ICFG0;
     jfc_frac := jfc_frac ICFG0; lpc_mean := lpc_mean ICFG0; lpc_sd := lpc_sd ICFG0;
     lpc_frac := lpc_frac ICFG0; costello := costello ICFG0; ice_erosion_rate := ice_erosion_rate ICFG0;
     overturn_present := overturn_present ICFG0; overturn_slope := overturn_slope ICFG0;
     overturn_t0 := overturn_t0 ICFG0; regimes := regimes ICFG0 |}.

Record retention_fig := mk_retention_fig {
  n_cannon : list (R * R); n_asteroid : list (R * R); n_comet : list (R * R); n_ong : list (R * R); n_ylabel : string }.

(** plot_figs.py:1120-1122: Ong et al. (2010). *)
Definition ong : list (R * R) := [(10, 1); (15, 197 / 1000); (30, 147 / 10000); (45, 193 / 100000); (60, 66 / 10000000)].

(** plot_figs.py:1111-1146 [ice_retention]. *)
Definition retention_curve (c : icfg) : list (R * R) :=
  map (fun v => (v, ice_retention_factor c (v * 1000))) (linspace 0 70 (Z.to_nat 7000)).
Definition ice_retention : retention_fig :=
  mk_retention_fig (retention_curve (in_mode "cannon" false)) (retention_curve (in_mode "moonpies" false))
    (retention_curve (in_mode "moonpies" true)) ong "Ice Retention Fraction [0-1]".

(** ** Hop efficiency against latitude *)

(** plot_figs.py:988-994: the cold traps and their latitudes. *)
Definition hop_traps : list (string * R) :=
  [("Haworth", 875 / 10); ("Shoemaker", 88); ("Faustini", 871 / 10); ("Amundsen", 844 / 10); ("Cabeus", 853 / 10);
   ("Cabeus B", 823 / 10); ("de Gerlache", 883 / 10); ("Idel'son L", 84); ("Sverdrup", 883 / 10);
   ("Shackleton", 896 / 10); ("Wiechert J", 852 / 10); ("Slater", 881 / 10)]%string.

(** plot_figs.py:997-998. *)
Definition moores : list string := ["Haworth"; "Shoemaker"; "Faustini"; "de Gerlache"; "Sverdrup"; "Shackleton"; "Cabeus"]%string.
Definition in_moores (name : string) : bool := existsb (String.eqb name) moores.

(** A marker: its name, latitude and efficiency in percent, whether it is a blue circle,
    and its legend. *)
Record hop := mk_hop { h_name : string; h_lat : R; h_pct : R; h_blue : bool; h_legend : option string }.

(** np.polyfit(x, y, 1) at points with at least two different [x]: slope and intercept,
    by the normal equations. *)
Definition polyfit1 (pts : list (R * R)) : R * R :=
  let n := INR (length pts) in
  let sx := Rsum (map fst pts) in
  let sy := Rsum (map snd pts) in
  let sxx := Rsum (map (fun p => fst p * fst p) pts) in
  let sxy := Rsum (map (fun p => fst p * snd p) pts) in
  let b := (n * sxy - sx * sy) / (n * sxx - sx * sx) in
  (b, (sy - b * sx) / n).

(** The figure: the markers, the horizontal line, the dashed line of the fit and the one
    from Cabeus B to Faustini. *)
Record hop_fig := mk_hop_fig { j_hops : list hop; j_constant : R; j_fit : list (R * R); j_link : list (R * R) }.

(** plot_figs.py:980-1046 [ballistic_hop]: [bhop] is the table of efficiencies by name. *)
Definition loc (bhop : string -> option R) (name : string) : result R :=
  match bhop name with Some x => Ok (100 * x) | None => Err KeyError end.
Definition ballistic_hop (bhop : string -> option R) : result hop_fig :=
  let* hops := mapM (fun '(name, lat) =>
                 let* b := loc bhop name in
                 Ok (mk_hop name lat b (in_moores name)
                       (if String.eqb name "Haworth" then Some "Moores et al. (2016)"%string
                        else if String.eqb name "Cabeus B" then Some "This work"%string else None))) hop_traps in
  let* ys := mapM (loc bhop) (filter in_moores (map fst hop_traps)) in
  let xs := map snd (filter (fun t => in_moores (fst t)) hop_traps) in
  let (b, a) := polyfit1 (combine xs ys) in
  let* p := loc bhop "Cabeus B" in
  let* q := loc bhop "Faustini" in
  Ok (mk_hop_fig hops (54 / 10) (map (fun x => (x, b * x + a)) (linspace (896 / 10) (856 / 10) 10))
        [(823 / 10, p); (871 / 10, q)]).
