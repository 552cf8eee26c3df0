(** Vocabulary of the properties of the figures of laws. *)
From Coq Require Import String List ZArith Reals Bool.
From Verif Require Import Base Model_Geo Model_Crater Model_Laws.
Import ListNotations.
Open Scope R_scope.

(** ** Impactor against crater *)

(** The settings make sense. *)
Definition scaling_sane (c : ccfg) : Prop :=
  simple2complex c <= complex2peakring c /\ 0 < impactor_density c /\ 0 < target_density c /\ 0 < grav_moon c.

(** An impactor of [l] metres at 20 km/s makes a crater of [d] metres: by the laws of
    Collins (d) and Johnson (e, f) for the transient crater, exactly; by that of Prieur (c)
    to within a 999th of the largest transient crater [t]. *)
Definition makes (c : ccfg) (regime : string) (t d l : R) : Prop :=
  0 < l /\
  (regime = "c"%string -> forall L, final2transient c d / 100 <= L <= t -> prieur_diam 20000 (impactor_density c) (target_density c) (grav_moon c) L = final2transient c d ->
     Rabs (l - L) <= t / 999) /\
  (regime = "d"%string ->
     1161 / 1000 * Rpower (impactor_density c / target_density c) (1 / 3) * Rpower l (78 / 100)
      * Rpower 20000 (44 / 100) * Rpower (grav_moon c) (- (22 / 100)) * Rpower (sin (deg2rad (impact_angle c))) (1 / 3)
     = final2transient c d) /\
  (regime = "e"%string \/ regime = "f"%string ->
     152 / 100 * Rpower (impactor_density c / target_density c) (38 / 100) * Rpower l (88 / 100)
      * Rpower 20000 (1 / 2) * Rpower (grav_moon c) (- (1 / 4)) * Rpower (simple2complex c) (- (13 / 100))
      * Rpower (sin (deg2rad (impact_angle c))) (38 / 100)
     = final2transient c d).

(** The regimes that are drawn. *)
Definition drawn_regimes (rs : list (string * (R * R))) : list (string * (R * R)) :=
  filter (fun r => negb (String.eqb (fst r) "a" || String.eqb (fst r) "b")) rs.
Definition regimes_sane (c : ccfg) (rs : list (string * (R * R))) : Prop :=
  forall r lo hi, In (r, (lo, hi)) (drawn_regimes rs) ->
    In r ["c"; "d"; "e"; "f"]%string /\ 0 < lo < hi /\ (r = "c"%string -> hi <= simple2complex c).

(** The label of a regime: its letter, its craters, and whose law it is. *)
Definition says (regime label : string) : Prop :=
  In (regime, label)
    [("c", "C: Small simple craters (Prieur et al., 2017)"); ("d", "D: Large simple craters (Collins et al., 2005)");
     ("e", "E: Complex craters (Johnson et al., 2016)"); ("f", "F: Basins (Johnson et al., 2016)")]%string.

(** The line of a regime: both ends of its crater diameters, in km, with the impactors that
    make them. *)
Definition line_of (c : ccfg) (fmt : string) (labelled : bool) (r : string * (R * R)) (l : line) : Prop :=
  let '(regime, (lo, hi)) := r in
  l_fmt l = fmt /\ (if labelled then exists s, l_label l = Some s /\ says regime s else l_label l = None) /\
  exists y z, l_marks l = [(lo / 1000, y); (hi / 1000, z)] /\
    makes c regime (final2transient c hi) lo y /\ makes c regime (final2transient c hi) hi z.

(** ** Hop efficiency against latitude *)

(** Sum of the squares of the distances of the points from the line [a + b x]. *)
Definition misfit (pts : list (R * R)) (a b : R) : R := Rsum (map (fun p => (snd p - (a + b * fst p)) ^ 2) pts).
