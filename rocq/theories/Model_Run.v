(** A run from its configuration object and the files it names:
    /repo/moonpies/moonpies.py:24-77 with 230-462 and 1760-1781. *)
From Coq Require Import ZArith QArith Bool Ascii String List Reals Qreals.
From Verif Require Import Base Model_Csv Model_Cfg Model_Time Model_Geo Model_Interp Model_Crater
  Model_Ice Model_Rng Model_Strat Model_Melt Model_Main.
Import ListNotations.
Open Scope R_scope.

(** What is in the files; [None]: no such file. *)
Definition disk := string -> option string.
Definition read_text (fs : disk) (path : string) : result string :=
  match fs path with Some t => Ok t | None => Err FileNotFoundError end.

(** ** Options

    The types are those that [Cfg] enforces (C41).  Infinities and NaN as options are left
    out: reading them is an OverflowError here. *)
Definition opt_real (v : val) : result R :=
  match v with
  | VFloat (Fin q) => Ok (Q2R q)
  | VFloat _ => Err OverflowError
  | VInt z => Ok (IZR z)
  | VBool b => Ok (if b then 1 else 0)
  | _ => Err TypeError
  end.
Definition opt_int (v : val) : result Z :=
  match v with VInt z => Ok z | VBool b => Ok (if b then 1 else 0)%Z | _ => Err TypeError end.
Definition opt_bool (v : val) : bool := truthy v.
Definition opt_str (v : val) : result string := match v with VStr s => Ok s | _ => Err TypeError end.
Definition opt_strs (v : val) : result (list string) :=
  match v with VTuple l => mapM opt_str l | _ => Err TypeError end.
Definition opt_reals (v : val) : result (list R) :=
  match v with VTuple l => mapM opt_real l | _ => Err TypeError end.
(** [a, b = v]. *)
Definition opt_pair (v : val) : result (R * R) :=
  let* l := opt_reals v in
  match l with [a; b] => Ok (a, b) | _ => Err ValueError end.
(** [a, b, c, d = v[k]]; the entries of impact_regimes that are read. *)
Definition opt_regime (v : val) (k : string) : option (R * R * R * R) :=
  match v with
  | VDict d =>
    match find (fun e => match fst e with VStr s => String.eqb s k | _ => false end) d with
    | Some (_, VTuple l) =>
      match mapM opt_real l with Ok [a; b; c; d] => Some (a, b, c, d) | _ => None end
    | _ => None
    end
  | _ => None
  end.

(** ** Files *)

(** A line of a crater or basin file.  The name NaN is the empty text here. *)
Record line := mk_line {
  ln_name : string; ln_lat : Q; ln_lon : Q; ln_psr_lat : option Q; ln_psr_lon : option Q;
  ln_diam : Q; ln_age : Q; ln_low : Q; ln_upp : Q }.
(** moonpies.py:327-334 and 367-374: the columns that must be there (KeyError) and the ones
    used later as attributes of the table (AttributeError).  [psr]: whether the file has
    columns for the shadowed area's position. *)
Definition read_line (cols : list string) (psr : bool) (row : list string) : result line :=
  let* diam := num_cell cols "diam" KeyError row in let* diam := need diam in
  let* age := num_cell cols "age" KeyError row in let* age := need age in
  let* low := num_cell cols "age_low" KeyError row in let* low := need low in
  let* upp := num_cell cols "age_upp" KeyError row in let* upp := need upp in
  let* name := text_cell cols "cname" AttributeError row in
  let name := if existsb (String.eqb name) na_values then ""%string else name in
  let* lat := num_cell cols "lat" AttributeError row in let* lat := need lat in
  let* lon := num_cell cols "lon" AttributeError row in let* lon := need lon in
  let* plat := if psr then num_cell cols "psr_lat" AttributeError row else Ok None in
  let* plon := if psr then num_cell cols "psr_lon" AttributeError row else Ok None in
  Ok (mk_line name lat lon plat plon diam age low upp).
Definition or0 (o : option Q) : R := match o with Some q => Q2R q | None => 0 end.
(** A cold trap needs its position: with NaN the code would give it no ejecta; here it is a
    ValueError.  The position of another line is never used, here 0 (see Model_Main.raw). *)
Definition raw_of (names : list string) (l : line) : result raw :=
  if existsb (String.eqb (ln_name l)) names &&
     match ln_psr_lat l, ln_psr_lon l with Some _, Some _ => false | _, _ => true end
  then Err ValueError
  else Ok (mk_raw (ln_name l) (Q2R (ln_lat l)) (Q2R (ln_lon l)) (or0 (ln_psr_lat l)) (or0 (ln_psr_lon l))
             (Q2R (ln_diam l)) (Q2R (ln_age l)) (Q2R (ln_low l)) (Q2R (ln_upp l))).
Definition read_lines (text : string) (cols : list string) (psr : bool) : result (list line) :=
  let* rows := read_csv text 0 in mapM (read_line cols psr) rows.

(** moonpies.py:299-341 [read_crater_list] (the column psr_area is never used) and 344-376
    [read_basin_list]; the unit conversions are in [Model_Main.read_row]. *)
Definition read_crater_list (fs : disk) (c : cfg) (names : list string) : result (list raw) :=
  let* p := opt_str (getv c "crater_csv_in") in
  let* cols := opt_strs (getv c "crater_cols") in
  let* text := read_text fs p in
  let* l := read_lines text cols true in mapM (raw_of names) l.
Definition read_basin_list (fs : disk) (c : cfg) (names : list string) : result (list raw) :=
  let* p := opt_str (getv c "basin_csv_in") in
  let* cols := opt_strs (getv c "basin_cols") in
  let* text := read_text fs p in
  let* l := read_lines text cols (existsb (String.eqb "psr_lat") cols && existsb (String.eqb "psr_lon") cols) in
  mapM (raw_of names) l.

(** moonpies.py:436-437 in [read_solar_luminosity]: two columns after two header lines. *)
Definition luminosity_rows (text : string) : result (list (Q * Q)) :=
  let* rows := read_csv text 1 in
  mapM (fun row =>
    let* t := num_cell ["time"; "luminosity"]%string "time" KeyError row in let* t := need t in
    let* l := num_cell ["time"; "luminosity"]%string "luminosity" KeyError row in let* l := need l in
    Ok (t, l)) rows.
Definition to_reals (l : list (Q * Q)) : list (R * R) := map (fun '(a, b) => (Q2R a, Q2R b)) l.
Definition read_solar_luminosity (fs : disk) (c : cfg) : result (list (R * R)) :=
  let* p := opt_str (getv c "bahcall_csv_in") in
  let* text := read_text fs p in
  let* l := luminosity_rows text in Ok (to_reals l).

(** moonpies.py:1760-1764 [read_ballistic_hop_csv]: names and efficiencies; of two lines
    with the same name the first counts here ([.loc] would return both). *)
Definition hop_rows (text : string) : result (list (string * Q)) :=
  let* rows := read_csv text 0 in
  mapM (fun row => let* h := number (nth 1 row ""%string) in let* h := need h in
                   Ok (nth 0 row ""%string, h)) rows.
Definition hop_of (l : list (string * Q)) (n : string) : option R :=
  match find (fun e => String.eqb (fst e) n) l with Some e => Some (Q2R (snd e)) | None => None end.
Definition read_ballistic_hop (fs : disk) (c : cfg) : result (string -> option R) :=
  let* p := opt_str (getv c "bhop_csv_in") in
  let* text := read_text fs p in
  let* l := hop_rows text in Ok (hop_of l).

(** moonpies.py:442-462 [read_ballistic_melt_frac] with mean=True: the first line holds the
    temperatures, the first column the mixing ratios.  The conversion to cfg.dtype is left
    out; a label or value that is no number is a ValueError. *)
Definition plain_number (t : string) : result Q :=
  match number t with Ok (Some q) => Ok q | _ => Err ValueError end.
Record qtable := mk_qtable { q_mrs : list Q; q_temps : list Q; q_vals : list (list Q) }.
Definition melt_table (text : string) : result qtable :=
  let* rows := csv_rows text in
  match rows with
  | [] => Err ValueError
  | head :: rows =>
    let* temps := mapM plain_number (tl head) in
    let* mrs := mapM (fun row => plain_number (nth 0 row ""%string)) rows in
    let* vals := mapM (fun row => mapM plain_number (tl row)) rows in
    Ok (mk_qtable mrs temps vals)
  end.
Definition real_table (t : qtable) : table :=
  mk_table (map Q2R (q_mrs t)) (map Q2R (q_temps t)) (map (map Q2R) (q_vals t)).
Definition read_ballistic_melt_frac (fs : disk) (c : cfg) : result table :=
  let* p := opt_str (getv c "bsed_frac_mean_in") in
  let* text := read_text fs p in
  let* t := melt_table text in Ok (real_table t).

(** ** The run *)

(** The options of the crater scaling. *)
Definition ccfg_of (c : cfg) : result ccfg :=
  let f k := opt_real (getv c k) in
  let* a := f "simple2complex"%string in let* b := f "complex2peakring"%string in
  let* e := f "ej_thickness_exp"%string in let* r := f "rad_moon"%string in
  let* g := f "grav_moon"%string in let* an := f "impact_angle"%string in
  let* di := f "impactor_density"%string in let* dt := f "target_density"%string in
  Ok (mk_ccfg a b e r g an di dt).

(** The options of the ice module.  [ice_species] is no option (config.py:161). *)
Definition icfg_of (c : cfg) : result icfg :=
  let f k := opt_real (getv c k) in let b k := opt_bool (getv c k) in let s k := opt_str (getv c k) in
  let* cr := ccfg_of c in
  let* mode := s "mode"%string in
  let* h2o := f "coldtrap_area_H2O"%string in let* co2 := f "coldtrap_area_CO2"%string in
  let* hop := f "ballistic_hop_effcy"%string in let* dens := f "ice_density"%string in
  let* swm := s "solar_wind_mode"%string in let* ts := f "timestep"%string in
  let* vm := s "volc_mode"%string in let* vv := f "volc_total_vol"%string in
  let* vd := f "volc_magma_density"%string in let* vp := f "volc_ice_ppm"%string in
  let* ve := opt_pair (getv c "volc_early") in let* vep := f "volc_early_pct"%string in
  let* vl := opt_pair (getv c "volc_late") in let* vlp := f "volc_late_pct"%string in
  let* vde := f "volc_dep_effcy"%string in
  let* mm := f "mm_mass_rate"%string in let* cf := f "ctype_frac"%string in
  let* ch := f "ctype_hydrated"%string in let* hw := f "hydrated_wt_pct"%string in
  let* ret := f "impact_mass_retained"%string in let* caf := f "comet_ast_frac"%string in
  let* cd := f "comet_density"%string in let* chw := f "comet_hydrated_wt_pct"%string in
  let* cmr := f "comet_mass_retained"%string in
  let* c0 := f "brown_c0"%string in let* d0 := f "brown_d0"%string in
  let* em := f "earth_moon_ratio"%string in let* sa := f "sa_moon"%string in
  let* n01 := opt_reals (getv c "neukum_pf_a_2001") in let* n83 := opt_reals (getv c "neukum_pf_a_1983") in
  let* im := f "impact_speed_mean"%string in let* isd := f "impact_speed_sd"%string in
  let* esc := f "escape_vel"%string in let* cmin := f "comet_speed_min"%string in
  let* cmax := f "comet_speed_max"%string in
  let* jm := f "jfc_speed_mean"%string in let* jsd := f "jfc_speed_sd"%string in let* jf := f "jfc_frac"%string in
  let* lm := f "lpc_speed_mean"%string in let* lsd := f "lpc_speed_sd"%string in let* lfr := f "lpc_frac"%string in
  let* er := f "ice_erosion_rate"%string in let* ov := f "overturn_depth_present"%string in
  let* os := f "overturn_ancient_slope"%string in let* ot := f "overturn_ancient_t0"%string in
  Ok {| crat := cr; mode := mode; is_comet := b "is_comet"%string; comets_on := b "impact_ice_comets"%string;
        basins_on := b "impact_ice_basins"%string;
        ice_species := "H2O"; area_H2O := h2o; area_CO2 := co2; hop_effcy := hop; ice_density := dens;
        solar_wind_on := b "solar_wind_ice"%string; solar_wind_mode := swm;
        faint_young_sun := b "faint_young_sun"%string; timestep := ts;
        volc_mode := vm; volc_total_vol := vv; volc_magma_density := vd; volc_ice_ppm := vp;
        volc_early := ve; volc_early_pct := vep; volc_late := vl; volc_late_pct := vlp;
        use_volc_dep := b "use_volc_dep_effcy"%string; volc_dep_effcy := vde;
        hop_moores := b "ballistic_hop_moores"%string;
        mm_mass_rate := mm; ctype_frac := cf; ctype_hydrated := ch; hydrated_wt_pct := hw;
        impact_mass_retained := ret; comet_ast_frac := caf; comet_density := cd;
        comet_hydrated_wt_pct := chw; comet_mass_retained := cmr;
        brown_c0 := c0; brown_d0 := d0; earth_moon_ratio := em; sa_moon := sa;
        neukum_new := b "neukum_pf_new"%string; neukum_2001 := n01; neukum_1983 := n83;
        impact_speed_mean := im; impact_speed_sd := isd; escape_vel := esc;
        comet_speed_min := cmin; comet_speed_max := cmax;
        jfc_mean := jm; jfc_sd := jsd; jfc_frac := jf; lpc_mean := lm; lpc_sd := lsd; lpc_frac := lfr;
        costello := b "impact_gardening_costello"%string; ice_erosion_rate := er; overturn_present := ov;
        overturn_slope := os; overturn_t0 := ot; regimes := opt_regime (getv c "impact_regimes") |}.

(** The options of ballistic sedimentation. *)
Definition bcfg_of (c : cfg) : result bcfg :=
  let f k := opt_real (getv c k) in
  let* a := f "mixing_ratio_a"%string in let* b := f "mixing_ratio_b"%string in
  let* ti := f "polar_ejecta_temp_init"%string in let* tw := f "basin_ejecta_temp_init_warm"%string in
  let* tc := f "basin_ejecta_temp_init_cold"%string in let* fl := f "ballistic_sed_frac_lost"%string in
  Ok (mk_bcfg (opt_bool (getv c "ballistic_sed")) a b (opt_bool (getv c "mixing_ratio_petro")) ti
        (opt_bool (getv c "basin_ejecta_temp_warm")) tw tc fl).

(** The shield of erode_ice_cannon is its default 0.4 (moonpies.py:1384). *)
Definition rcfg_of (fs : disk) (rnd : R -> R) (c : cfg) : result rcfg :=
  let f k := opt_real (getv c k) in
  let* i := icfg_of c in let* b := bcfg_of c in
  let* names := opt_strs (getv c "coldtrap_names") in
  let* t0 := opt_int (getv c "timestart") in let* t1 := opt_int (getv c "timeend") in
  let* dt := opt_int (getv c "timestep") in
  let* tmin := f "thickness_min"%string in
  let* et := f "ej_threshold"%string in let* bt := f "basin_ej_threshold"%string in
  (* files of the modules that are on *)
  let* lum := if solar_wind_on i && faint_young_sun i then read_solar_luminosity fs c else Ok [] in
  let* hop := if hop_moores i then read_ballistic_hop fs c else Ok (fun _ => None) in
  let* melt := if bsed_on b then read_ballistic_melt_frac fs c else Ok (mk_table [] [] []) in
  Ok (mk_rcfg i names t0 t1 dt (1 / 1000000) tmin et bt b melt (4 / 10)
        (opt_bool (getv c "strat_after_age")) (opt_bool (getv c "ejecta_basins")) lum hop rnd).

(** moonpies.py:24-77 [main(cfg)] up to the saving of the outputs.  All options and files
    are read first; the code reads them where they are needed. *)
Definition run (fs : disk) (rnd : R -> R) (ppf : ppf_fun)
  (sort : list (crater info) -> list (crater info)) (c : cfg) : rand outputs :=
  do rc <- lift (rcfg_of fs rnd c);
  do craters <- lift (read_crater_list fs c (r_names rc));
  do basins <- lift (read_basin_list fs c (r_names rc));
  main rc ppf sort craters basins.
