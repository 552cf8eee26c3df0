(** Crater scaling laws, ejecta thickness and ballistics: /repo/moonpies/moonpies.py.

    Formulas are in exact real arithmetic; [x ** e] is [Rpower x e], which agrees
    with Python for [x > 0].  [None] is NaN (or an infinity from a zero divisor). *)
From Coq Require Import List String Reals Bool.
From Verif Require Import Base Model_Time Model_Geo Model_Interp.
Import ListNotations.
Open Scope R_scope.

Definition obind {A B} (o : option A) (f : A -> option B) : option B :=
  match o with Some a => f a | None => None end.
Notation "'let+' x := r 'in' k" := (obind r (fun x => k))
  (at level 200, x pattern, r at level 100, k at level 200, right associativity).

(** numpy operations that can leave the reals. *)
Definition osqrt (x : R) : option R := if Rltb x 0 then None else Some (sqrt x).
Definition odiv (x y : R) : option R := if Reqb y 0 then None else Some (x / y).
Definition otan (x : R) : option R := if Reqb (cos x) 0 then None else Some (tan x).
Definition opow (x e : R) : option R := if Rltb 0 x then Some (Rpower x e) else None.

(** The configuration fields used here (config.py:131-160). *)
Record ccfg := mk_ccfg {
  simple2complex : R; complex2peakring : R; ej_exp : R; rad_moon : R;
  grav_moon : R; impact_angle : R; impactor_density : R; target_density : R }.

(** config.py:131-146: the module-level default CFG. *)
Definition CFG0 : ccfg := mk_ccfg 18000 140000 (-3) 1737400 (162 / 100) 45 1300 1500.

(** moonpies.py:2834-2836 [diam2vol]. *)
Definition diam2vol (d : R) : R := 4 / 3 * PI * (d / 2) ^ 3.

(** ** Final to transient diameter *)

(** moonpies.py:2281-2294 [f2t_melosh] with its default ds2c, gamma, eta. *)
Definition f2t_melosh (diam : R) (simple : bool) : R :=
  if simple then diam / (125 / 100)
  else 1 / (125 / 100) * Rpower (diam * Rpower 18000 (13 / 100)) (1 / (1 + 13 / 100)).

(** moonpies.py:2297-2301 [f2t_croft]. *)
Definition f2t_croft (diam : R) : R :=
  Rpower (diam * Rpower 18700 (18 / 100)) (1 / (1 + 18 / 100)).

(** moonpies.py:2247-2278 [final2transient] on one diameter (a float; the three
    masked assignments in order). *)
Definition final2transient (c : ccfg) (diam : R) : R :=
  let t := 0 in
  let t := if Rleb diam (simple2complex c) then f2t_melosh diam true else t in
  let t := if Rltb (simple2complex c) diam && Rleb diam (complex2peakring c)
           then f2t_melosh diam false else t in
  let t := if Rltb (complex2peakring c) diam then f2t_croft diam else t in
  t.

(** ** Impactor sizes *)

(** moonpies.py:2326-2334: transient diameter of an impactor of length [len]. *)
Definition prieur_diam (v rho_i rho_t g len : R) : R :=
  let mass := rho_i * diam2vol len in
  let numer := 16 / 10 * Rpower (161 / 100 * g * len / v ^ 2) (- (22 / 100)) in
  let denom := Rpower (rho_t / mass) (1 / 3) in
  numer / denom.

(** moonpies.py:2326, 2304-2340 [diam2len_prieur]: [t_diam[0]] and [t_diam[-1]] of
    the diameter tuple give the table of 1000 lengths; IndexError if empty. *)
Definition prieur_table (v rho_i rho_t g lo hi : R) : list (R * R) :=
  map (fun len => (prieur_diam v rho_i rho_t g len, len)) (linspace (lo / 100) hi 1000).

Definition diam2len_prieur (t_diams : list R) (v rho_i rho_t g : R) : result (list R) :=
  match t_diams with
  | [] => Err IndexError
  | lo :: _ =>
    mapM (interp (prieur_table v rho_i rho_t g lo (last t_diams lo))) t_diams
  end.

(** moonpies.py:2343-2376 [diam2len_collins]. *)
Definition collins_denom (v rho_i rho_t g theta : R) : R :=
  1161 / 1000 * Rpower (rho_i / rho_t) (1 / 3) * Rpower v (44 / 100)
  * Rpower g (- (22 / 100)) * Rpower (sin (deg2rad theta)) (1 / 3).
Definition diam2len_collins (t_diam v rho_i rho_t g theta : R) : R :=
  Rpower (t_diam / collins_denom v rho_i rho_t g theta) (1 / (78 / 100)).

(** moonpies.py:2379-2414 [diam2len_johnson]. *)
Definition johnson_denom (v rho_i rho_t g theta ds2c : R) : R :=
  152 / 100 * Rpower (rho_i / rho_t) (38 / 100) * Rpower v (1 / 2)
  * Rpower g (- (1 / 4)) * Rpower ds2c (- (13 / 100))
  * Rpower (sin (deg2rad theta)) (38 / 100).
Definition diam2len_johnson (diam v rho_i rho_t g theta ds2c : R) : R :=
  Rpower (diam / johnson_denom v rho_i rho_t g theta ds2c) (1 / (88 / 100)).

(** moonpies.py:2188-2244 [diam2len]: diameters and one speed per diameter (in
    regime c the only caller, line 1829, passes one number, cfg.impact_speed_mean,
    for all the diameters; it is modelled as the head of the list). *)
Definition diam2len (c : ccfg) (diams speeds : list R) (regime : string)
  : result (list R) :=
  let t_diams := map (final2transient c) diams in
  if String.eqb regime "c" then
    match speeds with
    | [] => Err ValueError
    | v :: _ => diam2len_prieur t_diams v (impactor_density c) (target_density c) (grav_moon c)
    end
  else if String.eqb regime "d" then
    Ok (map (fun '(d, v) => diam2len_collins d v (impactor_density c) (target_density c)
                              (grav_moon c) (impact_angle c)) (combine t_diams speeds))
  else if String.eqb regime "e" || String.eqb regime "f" then
    Ok (map (fun '(d, v) => diam2len_johnson d v (impactor_density c) (target_density c)
                              (grav_moon c) (impact_angle c) (simple2complex c))
            (combine t_diams speeds))
  else Err ValueError.

(** ** Ballistics *)

(** moonpies.py:1221-1253 [ballistic_velocity]. *)
Definition ballistic_velocity (c : ccfg) (dist : R) : option R :=
  let theta := deg2rad (impact_angle c) in
  let+ tan_phi := otan (dist / (2 * rad_moon c)) in
  let num := grav_moon c * rad_moon c * tan_phi in
  let denom := sin theta * cos theta + cos theta ^ 2 * tan_phi in
  let+ q := odiv num denom in
  osqrt q.

(** ** Ejecta thickness *)

(** moonpies.py:563-588 [get_ej_thick_simple]. *)
Definition ej_thick_simple (c : ccfg) (d r : R) : option R :=
  let+ x := odiv d r in
  let+ p := opow x (ej_exp c) in
  Some (4 / 100 * r * p).

(** moonpies.py:591-615 [get_ej_thick_complex]. *)
Definition ej_thick_complex (c : ccfg) (d r : R) : option R :=
  let+ x := odiv d r in
  let+ p := opow x (ej_exp c) in
  let+ q := opow r (74 / 100) in
  Some (14 / 100 * q * p).

(** moonpies.py:646-650 [r_flat]; the velocity uses the default CFG. *)
Definition r_flat (r_t R_ g theta : R) : option R :=
  let+ v := ballistic_velocity CFG0 (r_t * 1000) in
  let v := v / 1000 in
  let+ q := odiv (v ^ 2 * sin (2 * deg2rad theta)) g in
  Some (R_ + q).

(** moonpies.py:651-654 [r_soi]. *)
Definition r_soi (r R_ R0 : R) : option R :=
  let+ tanr := otan ((r - R_) / (2 * R0)) in
  let+ q := odiv (2 * R0 * tanr) (tanr + 1) in
  Some (R_ + q).

(** moonpies.py:656-664 [s_flat], [s_spherical]. *)
Definition s_flat (ri ro : R) : R := PI * (ro ^ 2 - ri ^ 2).
Definition s_spherical (ri ro R0 : R) : R := 2 * PI * R0 ^ 2 * (cos (ri / R0) - cos (ro / R0)).

(** moonpies.py:666-675 [area_corr]. *)
Definition area_corr (distance radius R0 : R) : option R :=
  let r_inner := distance - radius / 8 in
  let r_outer := distance + radius / 8 in
  let+ ri := r_soi r_inner radius R0 in
  let+ ro := r_soi r_outer radius R0 in
  odiv (s_flat ri ro) (s_spherical r_inner r_outer R0).

(** moonpies.py:618-693 [get_ej_thick_basin]. *)
Definition ej_thick_basin (c : ccfg) (d t_radius : R) : option R :=
  let radius := t_radius / 1000 in
  let distance := d / 1000 in
  let R0 := rad_moon c / 1000 in
  let grav := grav_moon c / 1000 in
  let r_t := distance - radius in
  let+ rflat := r_flat r_t radius grav (impact_angle c) in
  let+ acorr := area_corr distance radius R0 in
  let+ x := odiv rflat radius in
  let+ p := opow x (ej_exp c) in
  Some (33 / 1000 * radius * p * acorr * 1000).

(** moonpies.py:515-560 [get_ejecta_thickness] on one distance and radius; the
    masked assignments in order, then NaN set to 0.  Meant for positive distances:
    at distance 0 numpy gives an infinity where this gives 0 (get_coldtrap_dists
    returns no such distance, lines 508-511 leave NaN inside the rim). *)
Definition get_ejecta_thickness (c : ccfg) (dist : option R) (rad : R) : R :=
  let t := Some 0 in
  let t := if Rltb rad (simple2complex c / 2)
           then (let+ d := dist in ej_thick_simple c d rad) else t in
  let t := if Rltb (simple2complex c / 2) rad && Rltb rad (complex2peakring c / 2)
           then (let+ d := dist in ej_thick_complex c d rad) else t in
  let t := if Rleb (complex2peakring c / 2) rad
           then (let+ d := dist in ej_thick_basin c d (final2transient c (rad * 2) / 2)) else t in
  match t with Some x => x | None => 0 end.

(** moonpies.py:736-759 [get_ejecta_thickness_matrix]: one row per crater. *)
Definition get_ejecta_thickness_matrix (c : ccfg) (rads : list R)
  (dists : list (list (option R))) : list (list R) :=
  map (fun '(r, row) => map (fun d => get_ejecta_thickness c d r) row) (combine rads dists).

(** ** Mixing ratio *)

(** moonpies.py:1310-1347 [get_mixing_ratio_oberbeck] on one distance. *)
Definition mixing_ratio (a b : R) (petro : bool) (dist : R) : R :=
  let mr := a * Rpower (dist / 1000) b in
  if petro then (if Rltb 5 mr then 1 / 2 * mr + 25 / 10 else mr) else mr.
