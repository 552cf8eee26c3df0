(** The configuration object of /repo/moonpies/config.py.

    A [Cfg] is the list of its fields with their values, in the order of the class.  Python
    values are the ones a configuration file can hold (ast.literal_eval) except sets, bytes
    and complex numbers.  Floats are exact rationals, infinities and NaN: the rounding of a
    decimal literal to a double is left out.  Keys repeated when a dict is built from pairs
    are kept side by side. *)
From Coq Require Import ZArith QArith Bool Ascii String List.
From Verif Require Import Base Model_Path.
Import ListNotations.
Open Scope string_scope.

Inductive fl := Fin (q : Q) | Inf (negative : bool) | NaN.
Coercion Fin : Q >-> fl.
Inductive val :=
| VNone | VBool (b : bool) | VInt (z : Z) | VFloat (x : fl) | VStr (s : string)
| VTuple (l : list val) | VList (l : list val) | VDict (d : list (val * val)).
Arguments VFloat _%Q.
(** The types the fields are annotated with. *)
Inductive ty := TStr | TInt | TFloat | TBool | TTuple | TDict.

(** config.py:63-271: the fields, their types and defaults, in order.  The attributes
    dtype, rtol, ice_species and basin_impact_speed have no annotation, so they are no
    fields.  Decimal literals are the rationals they denote; products such as [104 * 1e6]
    are multiplied out. *)
Definition FIELDS : list (string * ty * val) := [
  ("run_name", TStr, VStr "moonpies");
  ("version", TStr, VStr "1.1.1");
  ("seed", TInt, VInt 0);
  ("run_date", TStr, VStr "");
  ("run_time", TStr, VStr "");
  ("verbose", TBool, VBool false);
  ("write", TBool, VBool true);
  ("write_npy", TBool, VBool false);
  ("strat_after_age", TBool, VBool true);
  ("plot", TBool, VBool false);
  ("mode", TStr, VStr "moonpies");
  ("pole", TStr, VStr "s");
  ("solar_wind_ice", TBool, VNone);
  ("ballistic_hop_moores", TBool, VNone);
  ("ejecta_basins", TBool, VNone);
  ("impact_ice_basins", TBool, VNone);
  ("impact_ice_comets", TBool, VNone);
  ("use_volc_dep_effcy", TBool, VNone);
  ("ballistic_sed", TBool, VNone);
  ("impact_gardening_costello", TBool, VNone);
  ("ballistic_hop_effcy", TFloat, VNone);
  ("volc_dep_effcy", TFloat, VNone);
  ("coldtrap_area_H2O", TFloat, VNone);
  ("coldtrap_area_CO2", TFloat, VNone);
  ("coldtrap_names", TTuple, VNone);
  ("data_path", TStr, VStr "");
  ("out_path", TStr, VStr "");
  ("figs_path", TStr, VStr "");
  ("crater_csv_in", TStr, VStr "crater_list.csv");
  ("basin_csv_in", TStr, VStr "basin_list.csv");
  ("nk_csv_in", TStr, VStr "needham_kring_2017_s3.csv");
  ("bahcall_csv_in", TStr, VStr "bahcall_etal_2001_t2.csv");
  ("bhop_csv_in", TStr, VStr "ballistic_hop_coldtraps.csv");
  ("bsed_frac_mean_in", TStr, VStr "ballistic_sed_frac_melted_mean.csv");
  ("bsed_frac_std_in", TStr, VStr "ballistic_sed_frac_melted_std.csv");
  ("mplstyle_in", TStr, VStr ".moonpies.mplstyle");
  ("ej_t_csv_out", TStr, VStr "ej_columns.csv");
  ("ice_t_csv_out", TStr, VStr "ice_columns.csv");
  ("config_py_out", TStr, VStr "config_moonpies_v1.1.1.py");
  ("agegrd_npy_out", TStr, VStr "age_grid.npy");
  ("ejmatrix_npy_out", TStr, VStr "ejecta_matrix.npy");
  ("grdxsize", TInt, VFloat 400000);
  ("grdysize", TInt, VFloat 400000);
  ("grdstep", TInt, VFloat 1000);
  ("timestart", TInt, VFloat 4250000000);
  ("timeend", TInt, VInt 0);
  ("timestep", TInt, VFloat 10000000);
  ("rad_moon", TFloat, VFloat 1737400);
  ("grav_moon", TFloat, VFloat (81 # 50));
  ("sa_moon", TFloat, VFloat (1896616404969023 # 50));
  ("simple2complex", TFloat, VFloat 18000);
  ("complex2peakring", TFloat, VFloat 140000);
  ("impactor_density", TFloat, VInt 1300);
  ("impact_speed_mean", TFloat, VFloat 20000);
  ("impact_speed_sd", TFloat, VFloat 6000);
  ("escape_vel", TFloat, VFloat 2380);
  ("impact_angle", TFloat, VInt 45);
  ("target_density", TFloat, VInt 1500);
  ("bulk_density", TFloat, VInt 2700);
  ("ice_erosion_rate", TFloat, VFloat (1 # 10));
  ("ej_threshold", TFloat, VInt 4);
  ("basin_ej_threshold", TFloat, VInt 5);
  ("ej_thickness_exp", TFloat, VInt (-3));
  ("thickness_min", TFloat, VFloat (1 # 1000));
  ("neukum_pf_new", TBool, VBool true);
  ("neukum_pf_a_2001", TTuple, VTuple [VFloat (-7719 # 2500); VFloat (-444691 # 125000); VFloat (781027 # 1000000); VFloat (1021521 # 1000000); VFloat (-39003 # 250000); VFloat (-222029 # 500000); VFloat (19977 # 1000000); VFloat (1737 # 20000); VFloat (-2937 # 500000); VFloat (-6809 # 1000000); VFloat (33 # 40000); VFloat (277 # 5000000)]);
  ("neukum_pf_a_1983", TTuple, VTuple [VFloat (-1923 # 625); VFloat (-36269 # 10000); VFloat (2183 # 5000); VFloat (1587 # 2000); VFloat (173 # 2000); VFloat (-2649 # 10000); VFloat (-83 # 1250); VFloat (379 # 10000); VFloat (53 # 5000); VFloat (-11 # 5000); VFloat (-259 # 500000); VFloat (397 # 10000000)]);
  ("ice_density", TFloat, VInt 934);
  ("ice_melt_temp", TFloat, VInt 273);
  ("ice_latent_heat", TFloat, VFloat 334000);
  ("crater_cols", TTuple, VTuple [VStr "cname"; VStr "lat"; VStr "lon"; VStr "psr_lat"; VStr "psr_lon"; VStr "diam"; VStr "age"; VStr "age_low"; VStr "age_upp"; VStr "psr_area"; VStr "age_ref"; VStr "prio"; VStr "notes"]);
  ("basin_cols", TTuple, VTuple [VStr "cname"; VStr "lat"; VStr "lon"; VStr "diam"; VStr "inner_ring_diam"; VStr "bouger_diam"; VStr "age"; VStr "age_low"; VStr "age_upp"; VStr "ref"]);
  ("ballistic_teq", TBool, VBool false);
  ("ballistic_sed_frac_lost", TFloat, VInt 1);
  ("mixing_ratio_petro", TBool, VBool true);
  ("mixing_ratio_a", TFloat, VFloat (183 # 10000));
  ("mixing_ratio_b", TFloat, VFloat (87 # 100));
  ("ice_frac", TFloat, VFloat (7 # 125));
  ("ke_heat_frac", TFloat, VFloat (9 # 20));
  ("ke_heat_frac_speed", TFloat, VFloat 1450);
  ("polar_ejecta_temp_init", TFloat, VInt 140);
  ("basin_ejecta_temp_warm", TBool, VBool false);
  ("basin_ejecta_temp_init_cold", TFloat, VInt 260);
  ("basin_ejecta_temp_init_warm", TFloat, VInt 420);
  ("ejecta_temp_dist_params_cold", TTuple, VTuple [VFloat 2032000; VFloat (-7658); VFloat 252]);
  ("ejecta_temp_dist_params_warm", TTuple, VTuple [VFloat 2449000; VFloat (-23840); VFloat (2381 # 5)]);
  ("specific_heat_coeffs", TTuple, VTuple [VFloat (-289 # 80); VFloat (27431 # 10000); VFloat (369 # 156250); VFloat (-617 # 50000000); VFloat (89093 # 10000000000000)]);
  ("kepler_regime", TTuple, VTuple [VFloat 18000; VFloat 60000]);
  ("kepler_diam", TFloat, VFloat 31000);
  ("kepler_a", TFloat, VFloat (51 # 10));
  ("kepler_b", TFloat, VFloat (-33 # 100));
  ("copernicus_regime", TTuple, VTuple [VFloat 60000; VFloat 300000]);
  ("copernicus_diam", TFloat, VFloat 93000);
  ("copernicus_a", TFloat, VFloat 120);
  ("copernicus_b", TFloat, VFloat (-17 # 25));
  ("orientale_regime", TTuple, VTuple [VFloat 300000; VFloat 2500000]);
  ("orientale_diam", TFloat, VFloat 660000);
  ("orientale_a", TFloat, VFloat 18000);
  ("orientale_b", TFloat, VFloat (-19 # 20));
  ("mm_mass_rate", TFloat, VFloat 1000000);
  ("ctype_frac", TFloat, VFloat (9 # 25));
  ("ctype_hydrated", TFloat, VFloat (3333333333333333 # 5000000000000000));
  ("hydrated_wt_pct", TFloat, VFloat (1 # 10));
  ("impact_mass_retained", TFloat, VFloat (33 # 200));
  ("brown_c0", TFloat, VFloat (196 # 125));
  ("brown_d0", TFloat, VFloat (27 # 10));
  ("earth_moon_ratio", TFloat, VFloat (45 # 2));
  ("impact_regimes", TDict, VDict [(VStr "a", VTuple [VInt 0; VFloat (1 # 100); VNone; VNone]); (VStr "b", VTuple [VFloat (1 # 100); VInt 3; VFloat (1 # 10000); VFloat (-37 # 10)]); (VStr "c", VTuple [VInt 100; VFloat 1500; VInt 1; VFloat (-191 # 50)]); (VStr "d", VTuple [VFloat 1500; VFloat 15000; VFloat 100; VFloat (-9 # 5)]); (VStr "e", VTuple [VFloat 15000; VFloat 300000; VFloat 1000; VFloat (-9 # 5)])]);
  ("is_comet", TBool, VBool false);
  ("comet_ast_frac", TFloat, VFloat (1 # 20));
  ("comet_density", TFloat, VInt 600);
  ("comet_hydrated_wt_pct", TFloat, VFloat (1 # 5));
  ("comet_mass_retained", TFloat, VFloat (13 # 200));
  ("comet_speed_min", TFloat, VFloat 10200);
  ("comet_speed_max", TFloat, VFloat 72000);
  ("jfc_speed_mean", TFloat, VFloat 20000);
  ("jfc_speed_sd", TFloat, VFloat 5000);
  ("jfc_frac", TFloat, VFloat (7 # 8));
  ("lpc_speed_mean", TFloat, VFloat 54000);
  ("lpc_speed_sd", TFloat, VFloat 5000);
  ("lpc_frac", TFloat, VFloat (1 # 8));
  ("volc_mode", TStr, VStr "Head");
  ("volc_early", TTuple, VTuple [VFloat 4000000000; VFloat 3000000000]);
  ("volc_late", TTuple, VTuple [VFloat 3000000000; VFloat 2000000000]);
  ("volc_early_pct", TFloat, VFloat (3 # 4));
  ("volc_late_pct", TFloat, VFloat (1 # 4));
  ("volc_total_vol", TFloat, VFloat 10000000);
  ("volc_ice_ppm", TFloat, VInt 10);
  ("volc_magma_density", TFloat, VInt 3000);
  ("nk_species", TStr, VStr "min_h2o");
  ("nk_cols", TTuple, VTuple [VStr "time"; VStr "tot_vol"; VStr "sphere_mass"; VStr "min_co"; VStr "max_co"; VStr "min_h2o"; VStr "max_h2o"; VStr "min_h"; VStr "max_h"; VStr "min_s"; VStr "max_s"; VStr "min_sum"; VStr "max_sum"; VStr "min_psurf"; VStr "max_psurf"; VStr "min_atm_loss"; VStr "max_atm_loss"]);
  ("solar_wind_mode", TStr, VStr "Benna");
  ("faint_young_sun", TBool, VBool true);
  ("overturn_depth_present", TFloat, VFloat (9 # 100));
  ("overturn_ancient_slope", TFloat, VFloat (1 # 1000000000));
  ("overturn_ancient_t0", TFloat, VFloat 3000000000)
].
(** config.py:16-39. *)
Definition MODE_DEFAULTS : list (string * list (string * val)) := [
  ("cannon", [
    ("solar_wind_ice", VBool false);
    ("ballistic_hop_moores", VBool false);
    ("ejecta_basins", VBool false);
    ("impact_ice_basins", VBool false);
    ("impact_ice_comets", VBool false);
    ("use_volc_dep_effcy", VBool false);
    ("ballistic_sed", VBool false);
    ("impact_gardening_costello", VBool false);
    ("impact_speed_mean", VFloat 20000)]);
  ("moonpies", [
    ("solar_wind_ice", VBool true);
    ("ballistic_hop_moores", VBool true);
    ("ejecta_basins", VBool true);
    ("impact_ice_basins", VBool true);
    ("impact_ice_comets", VBool true);
    ("use_volc_dep_effcy", VBool true);
    ("ballistic_sed", VBool true);
    ("impact_gardening_costello", VBool true);
    ("impact_speed_mean", VFloat 17000)])].

(** config.py:41-62. *)
Definition POLE_DEFAULTS : list (string * list (string * val)) := [
  ("s", [
    ("ballistic_hop_effcy", VFloat (27 # 500));
    ("volc_dep_effcy", VFloat (13 # 50));
    ("coldtrap_area_H2O", VFloat 13000000000);
    ("coldtrap_area_CO2", VFloat 104000000);
    ("coldtrap_names", VTuple [VStr "Haworth"; VStr "Shoemaker"; VStr "Faustini"; VStr "Shackleton"; VStr "Slater"; VStr "Amundsen"; VStr "Cabeus"; VStr "Sverdrup"; VStr "de Gerlache"; VStr "Idel'son L"; VStr "Wiechert J"; VStr "Cabeus B"])]);
  ("n", [
    ("ballistic_hop_effcy", VFloat (27 # 1000));
    ("volc_dep_effcy", VFloat (3 # 20));
    ("coldtrap_area_H2O", VFloat 5300000000);
    ("coldtrap_area_CO2", VInt 0);
    ("coldtrap_names", VTuple [VStr "Fibiger"; VStr "Hermite"; VStr "Hermite A"; VStr "Hevesy"; VStr "Lovelace"; VStr "Nansen A"; VStr "Nansen F"; VStr "Rozhdestvenskiy U"; VStr "Rozhdestvenskiy W"; VStr "Sylvester"])])].

(** What a construction depends on besides its arguments: the working directory, the home
    directory, which paths exist, the installed data directory, the clock, numpy's random
    number, and how Python prints and parses values. *)
Record env := {
  cwd : string; home : string; exists_ : string -> bool; package_data : string;
  date_now : string; time_now : string;
  draw : Z;                         (* np.random.randint(1, 99999) *)
  str_of : val -> string;           (* str(v) of a value that is no text *)
  parse_int : string -> option Z;   (* int(s) *)
  parse_float : string -> option fl (* float(s) *)
}.

(** [isinstance(v, t)]; a bool is an int. *)
Definition isinstance (v : val) (t : ty) : bool :=
  match t, v with
  | TStr, VStr _ | TInt, VInt _ | TInt, VBool _ | TFloat, VFloat _ | TBool, VBool _
  | TTuple, VTuple _ | TDict, VDict _ => true
  | _, _ => false
  end.

(** Truth of a value. *)
Definition truthy (v : val) : bool :=
  match v with
  | VNone => false
  | VBool b => b
  | VInt z => negb (z =? 0)%Z
  | VFloat (Fin q) => negb (Qnum q =? 0)%Z
  | VFloat _ => true
  | VStr s => negb (s =? "")
  | VTuple l | VList l => match l with [] => false | _ => true end
  | VDict d => match d with [] => false | _ => true end
  end.
(** [int(v)]: floats are cut towards zero. *)
Definition to_int (E : env) (v : val) : result Z :=
  match v with
  | VBool b => Ok (if b then 1 else 0)%Z
  | VInt z => Ok z
  | VFloat (Fin q) => Ok (Z.quot (Qnum q) (Zpos (Qden q)))
  | VFloat (Inf _) => Err OverflowError
  | VFloat NaN => Err ValueError
  | VStr s => match parse_int E s with Some z => Ok z | None => Err ValueError end
  | VNone | VTuple _ | VList _ | VDict _ => Err TypeError
  end.
(** [float(v)] (integers beyond the largest double are left out). *)
Definition to_float (E : env) (v : val) : result fl :=
  match v with
  | VBool b => Ok (Fin (if b then 1 else 0))
  | VInt z => Ok (Fin (inject_Z z))
  | VFloat x => Ok x
  | VStr s => match parse_float E s with Some x => Ok x | None => Err ValueError end
  | VNone | VTuple _ | VList _ | VDict _ => Err TypeError
  end.
(** What iterating over a value gives. *)
Definition chars (s : string) : list val :=
  map (fun a => VStr (String a EmptyString)) (list_ascii_of_string s).
Definition to_list (v : val) : result (list val) :=
  match v with
  | VStr s => Ok (chars s)
  | VTuple l | VList l => Ok l
  | VDict d => Ok (map fst d)
  | VNone | VBool _ | VInt _ | VFloat _ => Err TypeError
  end.
Fixpoint hashable (v : val) : bool :=
  match v with
  | VList _ | VDict _ => false
  | VTuple l => forallb hashable l
  | _ => true
  end.
(** One element of the argument of [dict(v)]. *)
Definition to_pair (v : val) : result (val * val) :=
  let* l := to_list v in
  match l with
  | [a; b] => if hashable a then Ok (a, b) else Err TypeError
  | _ => Err ValueError
  end.
Definition to_dict (v : val) : result (list (val * val)) :=
  match v with
  | VDict d => Ok d
  | _ => let* l := to_list v in mapM to_pair l
  end.
(** [t(v)]. *)
Definition convert (E : env) (t : ty) (v : val) : result val :=
  match t with
  | TStr => Ok (VStr (match v with VStr s => s | _ => str_of E v end))
  | TInt => let* z := to_int E v in Ok (VInt z)
  | TFloat => let* x := to_float E v in Ok (VFloat x)
  | TBool => Ok (VBool (truthy v))
  | TTuple => let* l := to_list v in Ok (VTuple l)
  | TDict => let* d := to_dict v in Ok (VDict d)
  end.

Definition cfg := list (string * val).
Definition lookup {A} (k : string) (l : list (string * A)) : option A :=
  match find (fun e => fst e =? k) l with Some e => Some (snd e) | None => None end.
(** [getattr(self, k)]; every use below is of a field. *)
Definition getv (c : cfg) (k : string) : val :=
  match lookup k c with Some v => v | None => VNone end.
(** [_sudo_setattr(self, k, v)]. *)
Definition setv (c : cfg) (k : string) (v : val) : cfg :=
  map (fun e => if fst e =? k then (k, v) else e) c.

(** config.py:369-377: [_get_random_seed]. *)
Definition get_random_seed (E : env) (seed : val) : result Z :=
  let* z := match to_int E seed with
            | Ok z => Ok z
            | Err TypeError | Err ValueError => Ok 0%Z
            | Err e => Err e
            end in
  Ok (if (z =? 0)%Z then draw E else z).
(** config.py:274-278: [_set_seed_time]. *)
Definition set_seed_time (E : env) (c : cfg) : result cfg :=
  let* s := get_random_seed E (getv c "seed") in
  Ok (setv (setv (setv c "seed" (VInt s)) "run_date" (VStr (date_now E)))
           "run_time" (VStr (time_now E))).

(** config.py:281-292: [_set_mode_defaults] and [_set_pole_defaults]: fill the options of
    the table's row that are None.  An unknown row is a KeyError, an unhashable one a
    TypeError. *)
Definition fill_none (c : cfg) (row : list (string * val)) : cfg :=
  fold_left (fun c kv => match getv c (fst kv) with
                         | VNone => setv c (fst kv) (snd kv)
                         | _ => c
                         end) row c.
Definition set_defaults (table : list (string * list (string * val))) (row : val) (c : cfg) : result cfg :=
  match row with
  | VStr r => match lookup r table with Some kvs => Ok (fill_none c kvs) | None => Err KeyError end
  | v => if hashable v then Err KeyError else Err TypeError
  end.

(** [path.join(a, b)] with a value that may be no text. *)
Definition as_str (v : val) : result string :=
  match v with VStr s => Ok s | _ => Err TypeError end.
(** config.py:388-394: [_get_data_path]. *)
Definition get_data_path (E : env) (v : val) : val :=
  match v with VStr "" => VStr (package_data E ++ "/") | _ => v end.
(** config.py:405-417: [_get_out_path].  A given out_path that is no text fails in every
    branch with a TypeError; so does a run_name that is no text in the default. *)
Definition get_out_path (E : env) (v : val) (seed : Z) (run_date : string) (run_name : val) : result string :=
  let run_seed := format_05d seed in
  let* p := as_str v in
  if p =? "" then
    let* name := as_str run_name in
    Ok (path_join (path_join (path_join (path_join (cwd E) "out") run_date) name) run_seed ++ "/")
  else if negb (contains run_seed p) then
    let p := if isnumeric (basename (normpath p)) then dirname (normpath p) else p in
    Ok (path_join p run_seed ++ "/")
  else Ok (p ++ "/").
(** config.py:397-402: [_get_figs_path]. *)
Definition get_figs_path (E : env) (v : val) (out_path : string) : val :=
  match v with
  | VStr "" => VStr (abspath (cwd E) (path_join (path_join (path_join out_path "..") "..") "figures") ++ "/")
  | _ => v
  end.
(** config.py:294-298: [_set_path_defaults]. *)
Definition set_path_defaults (E : env) (c : cfg) : result cfg :=
  let c := setv c "data_path" (get_data_path E (getv c "data_path")) in
  let* seed := match getv c "seed" with VInt z => Ok z | _ => Err ValueError end in
  let* date := as_str (getv c "run_date") in
  let* out := get_out_path E (getv c "out_path") seed date (getv c "run_name") in
  let c := setv c "out_path" (VStr out) in
  Ok (setv c "figs_path" (get_figs_path E (getv c "figs_path") out)).

(** [key.endswith(suffix)]. *)
Definition endswith (suffix s : string) : bool :=
  let n := String.length suffix in let m := String.length s in
  (n <=? m)%nat && (substring (m - n) n s =? suffix).
(** config.py:301-324: [_make_paths_absolute], one field.  [path.exists] is [exists_]. *)
Definition new_path (data_path out_path : val) (key value : string) : result (option string) :=
  if endswith "_in" key then let* d := as_str data_path in Ok (Some (path_join d (basename value)))
  else if endswith "_out" key then let* o := as_str out_path in Ok (Some (path_join o (basename value)))
  else if endswith "_path" key then Ok (Some value)
  else Ok None.
Definition make_field_absolute (E : env) (data_path out_path : val) (kv : string * val) : result (string * val) :=
  match snd kv with
  | VStr value =>
    let* n := new_path data_path out_path (fst kv) value in
    Ok (fst kv, match n with
                | Some p => if exists_ E value then VStr value
                            else VStr (abspath (cwd E) (expanduser (home E) p))
                | None => VStr value
                end)
  | _ => Ok kv
  end.
Definition make_paths_absolute (E : env) (c : cfg) : result cfg :=
  mapM (make_field_absolute E (getv c "data_path") (getv c "out_path")) c.

(** config.py:326-341: [_enforce_dataclass_types].  The ValueError it re-raises with a
    message is a ValueError here. *)
Definition type_of (k : string) : ty :=
  match lookup k (map (fun f => (fst (fst f), snd (fst f))) FIELDS) with Some t => t | None => TStr end.
Definition enforce_field (E : env) (kv : string * val) : result (string * val) :=
  if isinstance (snd kv) (type_of (fst kv)) then Ok kv
  else let* v := convert E (type_of (fst kv)) (snd kv) in Ok (fst kv, v).
Definition enforce_types (E : env) (c : cfg) : result cfg := mapM (enforce_field E) c.

(** [Cfg( **kw)]: an argument that is no field is a TypeError; then config.py:343-350,
    [__post_init__]. *)
Definition is_field (k : string) : bool := existsb (fun f => fst (fst f) =? k) FIELDS.
Definition init (kw : cfg) : cfg :=
  map (fun f => (fst (fst f), match lookup (fst (fst f)) kw with Some v => v | None => snd f end)) FIELDS.
Definition Cfg (E : env) (kw : cfg) : result cfg :=
  if negb (forallb (fun kv => is_field (fst kv)) kw) then Err TypeError else
  let* c := set_seed_time E (init kw) in
  let* c := set_defaults MODE_DEFAULTS (getv c "mode") c in
  let* c := set_defaults POLE_DEFAULTS (getv c "pole") c in
  let* c := set_path_defaults E c in
  let* c := make_paths_absolute E c in
  enforce_types E c.

(** config.py:446-448: [from_dict]; the dict is what [to_dict] (353-355) returned, the list
    of the fields. *)
Definition from_dict (E : env) (d : cfg) : result cfg := Cfg E d.
(** [d[k] = v] of a dict. *)
Definition put (d : cfg) (k : string) (v : val) : cfg :=
  if existsb (fun e => fst e =? k) d then setv d k v else (d ++ [(k, v)])%list.
(** config.py:432-443: [read_custom_cfg], given the dict the file holds ([None]: no file). *)
Definition read_custom_cfg (E : env) (file : option cfg) (seed : option val) : result cfg :=
  let d := match file with Some d => d | None => [] end in
  from_dict E (match seed with Some s => put d "seed" s | None => d end).
(** /repo/moonpies/moonpies.py:1591-1614: [get_comet_cfg]. *)
Definition get_comet_cfg (E : env) (c : cfg) : result cfg :=
  let d := put c "is_comet" (VBool true) in
  let d := put d "hydrated_wt_pct" (getv c "comet_hydrated_wt_pct") in
  let d := put d "impactor_density" (getv c "comet_density") in
  let d := put d "impact_mass_retained" (getv c "comet_mass_retained") in
  from_dict E d.
(** config.py:451-466: [make_default_cfg]: the dict it writes. *)
Definition default_file (E : env) : result cfg :=
  let* c := Cfg E [] in
  let mode_keys := match lookup "moonpies" MODE_DEFAULTS with Some r => map fst r | None => [] end in
  let dropped := (["seed"; "run_time"; "run_date"] ++ mode_keys)%list in
  let c := filter (fun e => negb (existsb (String.eqb (fst e)) dropped)) c in
  Ok (map (fun e => (fst e,
       if contains "path" (fst e) then VStr ""
       else if endswith "_in" (fst e) || endswith "_out" (fst e)
       then match snd e with VStr s => VStr (basename s) | v => v end
       else snd e)) c).
