(** The figures of ejecta against distance and radius: /repo/notebooks/figure_scripts/plot_figs.py:477-595
    [ejecta_distance] and 332-377 [ejecta_bsed], down to the numbers that are drawn. *)
From Coq Require Import String List ZArith Reals Bool.
From Verif Require Import Base Model_Time Model_Crater.
Import ListNotations.
Open Scope R_scope.

(** moonpies.py:1180-1182 [kinetic_energy]. *)
Definition kinetic_energy (mass velocity : R) : R := 1 / 2 * mass * velocity ^ 2.

(** ** Ejecta against distance *)

(** plot_figs.py:486-498: the craters and their diameters. *)
Definition shown_craters : list (string * R) :=
  [("Orientale", 940000); ("Harpalus", 41600); ("Ries Basin", 24000); ("Shackleton", 20900); ("Mosting C", 4200); ("Meteor Crater", 1000)]%string.

(** plot_figs.py:520-522: the craters on Earth. *)
Definition on_earth (name : string) : bool := String.eqb name "Ries Basin" || String.eqb name "Meteor Crater".

(** plot_figs.py:503-507: gravity and radius of Earth; all else is as it was.  The density
    is a number of its own here. *)
Definition earth (c : ccfg) : ccfg :=
  mk_ccfg (simple2complex c) (complex2peakring c) (ej_exp c) 6371000 (981 / 100) (impact_angle c) (impactor_density c) (target_density c).

(** A point of one crater on all four panels: speed, thickness, energy and depth at [p_x]
    crater radii. *)
Record point := mk_point { p_x : R; p_vel : option R; p_thick : R; p_ke : option R; p_depth : R }.

(** A curve with the name and the diameter (in km) of its label. *)
Record curve := mk_curve { v_name : string; v_diam : R; v_points : list (R * option R) }.

(** The four panels and the dashed line on the third. *)
Record distance_fig := mk_distance_fig {
  f_vel : list curve; f_thick : list curve; f_ke : list curve; f_depth : list curve; f_bunte : option R }.

Section Distance.
  (** The configuration: mixing ratio factor, exponent, adjustment, and cfg.bulk_density. *)
  Variables (c : ccfg) (a b : R) (petro : bool) (rho : R).

  (** plot_figs.py:513 and 524-533: note [get_mixing_ratio_oberbeck(diam, ccfg)]. *)
  Definition crater_points (name : string) (diam : R) : list point :=
    let cc := if on_earth name then earth c else c in
    let bulk := if on_earth name then 2700 else rho in
    let rad := diam / 2 in
    let mr := mixing_ratio a b petro diam in
    map (fun x =>
      let dist := rad * x in
      let thick := get_ejecta_thickness cc (Some dist) rad in
      let vel := ballistic_velocity cc dist in
      let mass := thick * bulk in
      let ke := option_map (fun v => kinetic_energy mass v / 1000000) vel in
      mk_point x vel thick ke (thick * mr)) (linspace 1 5 100).

  Definition panel (f : point -> option R) (l : list (string * R)) : list curve :=
    map (fun '(name, diam) => mk_curve name (diam / 1000) (map (fun p => (p_x p, f p)) (crater_points name diam))) l.

  (** plot_figs.py:500 and 542-552: the energy of Ries at the point nearest to two diameters,
      rounded to hundreds. *)
  Definition bunte : option R :=
    let pts := crater_points "Ries Basin" 24000 in
    let i := nearest_idx (map (fun p => 24000 / 2 * p_x p) pts) (24000 * 2) in
    match nth_error pts i with
    | Some p => option_map (fun k => IZR (rint (k / 100)) * 100) (p_ke p)
    | None => None
    end.

  (** plot_figs.py:477-595: lines that are not drawn (NaN) have no number.  The shaded areas
      and the legend are left out. *)
  Definition ejecta_distance : distance_fig :=
    mk_distance_fig (panel p_vel shown_craters) (panel (fun p => Some (p_thick p)) shown_craters) (panel p_ke shown_craters)
      (panel (fun p => Some (p_depth p)) (filter (fun '(name, _) => negb (on_earth name)) shown_craters)) bunte.
End Distance.

(** ** Ejecta against radius *)

(** [np.geomspace(start, stop, n)] for positive ends and [n >= 2]. *)
Definition geomspace (start stop : R) (n : nat) : list R :=
  map (fun i => start * Rpower (stop / start) (INR i / INR (n - 1))) (seq 0 n).

(** A series of the figure: its kind, the label if it has one (kind and two diameters in km),
    the distance, and (radius, thickness, depth) of each marker. *)
Record series := mk_series {
  s_kind : string; s_label : option (string * (R * R)); s_dist : R; s_marks : list (R * R * R) }.

(** The figure: series and what is written along the axes. *)
Record radius_fig := mk_radius_fig { g_series : list series; g_xlabel : string; g_thick_label : string; g_depth_label : string }.

Section Radius.
  Variables (c : ccfg) (a b : R) (petro : bool).

  (** plot_figs.py:337-342.  Meant for transitions further apart than 20 m and above 110 m,
      as [np.geomspace] wants positive ends. *)
  Definition shown_radii : list (string * list R) :=
    let s2c := simple2complex c / 2 in
    let c2p := complex2peakring c / 2 in
    [("Simple crater", geomspace 100 (s2c - 10) 10); ("Complex crater", geomspace (s2c + 10) (c2p - 10) 10);
     ("Basin", geomspace (c2p + 10) 660000 10)]%string.

  (** plot_figs.py:352-367: one kind at one distance; [first] for the first distance. *)
  Definition marks (dist : R) (rads : list R) : list (R * R * R) :=
    map (fun rad =>
      let thick := if Rltb dist rad then 0 else get_ejecta_thickness c (Some dist) rad in
      (rad, thick, thick * mixing_ratio a b petro dist)) rads.
  Definition radius_series (first : bool) (dist : R) (kind : string) (rads : list R) : series :=
    mk_series kind (if first then Some (kind, (2 * hd 0 rads / 1000, 2 * last rads 0 / 1000)) else None) dist (marks dist rads).

  (** plot_figs.py:332-377. *)
  Definition ejecta_bsed : radius_fig :=
    mk_radius_fig
      (concat (map (fun '(first, dist) => map (fun '(kind, rads) => radius_series first dist kind rads) shown_radii)
                   [(true, 1000); (false, 10000); (false, 100000); (false, 1000000)]))
      "Radius [km]" "Ejecta Thickness [km]" "Ballistic Mixing Depth [km]".
End Radius.
