(** Vocabulary of the properties of ice from basins. *)
From Coq Require Import String List ZArith Reals Bool.
From Verif Require Import Base Model_Time Model_Crater Model_Ice Model_Rng Model_Strat Model_Main Model_Module Model_Basin Spec_Time Spec_Ice Spec_Module Spec_Shown.
Import ListNotations.
Open Scope R_scope.

(** The basins of a list that bring ice: those of comets or those of hydrated asteroids. *)
Definition icy_basins (c : icfg) (df : list impact) : list impact :=
  filter (fun b => i_basin b && String.eqb (i_icy b) (if is_comet c then "comet" else "hyd_ctype")) df.

(** The ice of a basin of which the impactor has the speed [v]: a ball of the length that
    the diameter of the basin asks for, the part of its mass that is water, and the part of
    the water that is kept at this speed. *)
Definition basin_height (c : icfg) (b : impact) (v h : R) : Prop :=
  exists len, diam2len (crat c) [2 * i_rad b] [v] "f" = Ok [len] /\
    get_ice_thickness c (4 / 3 * PI * (len / 2) ^ 3 * impactor_density (crat c) * hydrated_wt_pct c * ice_retention_factor c v) = Ok h.

(** An age from the least to the largest time, or outside by the tolerance. *)
Definition on_axis (lo hi tol age : R) : bool := Rleb (lo - Rabs lo * tol) age && Rleb age (hi + Rabs hi * tol).

(** The mean of the runs at a step, and the mean of three steps if the steps before the
    first and after the last count as 0. *)
Definition mean_at (points : list (list R)) (j : nat) : R := mean (map (fun b => nth j b 0) points).
Definition three (f : nat -> R) (len j : nat) : R :=
  ((match j with O => 0 | S i => f i end) + f j + (if Nat.ltb (S j) len then f (S j) else 0)) / 3.

(** Settings and data for ice from basins. *)
Record basin_sane (c : rcfg) (ppf : ppf_fun) (entropy : nat -> tape) : Prop := {
  bs_ice : sane (r_i c); bs_ppf : ppf_support ppf; bs_draws : forall k, draws (entropy k) }.

(** The settings of asteroids and of comets, and the ice of basins in a run on its own:
    of the list of craters and basins and of speeds for some draws. *)
Definition kind_cfg (c : rcfg) (comet : bool) : icfg := if comet then get_comet_cfg (r_i c) else r_i c.
Definition basin_run (c : rcfg) (ppf : ppf_fun) (sort : list (crater info) -> list (crater info)) (craters basins : list raw)
  (comet : bool) (time b : list R) : Prop :=
  exists u df k v k', draws u /\ draws v /\ get_crater_basin_list c ppf sort craters basins u 0%nat = Ok (df, k) /\
    get_basin_ice (kind_cfg c comet) ppf (r_tol c) (map impact_of df) time v 0%nat = Ok (b, k').

(** What a drawing holds: [n] runs on their own, and lines that take means of three steps,
    one of the means of all runs and one of numbers that 99.7 percent of the runs keep below. *)
Record drawn_basins (c : rcfg) (ppf : ppf_fun) (sort : list (crater info) -> list (crater info)) (craters basins : list raw)
  (n : nat) (time : list R) (comet : bool) (g : drawing) : Prop := {
  db_kind : dr_kind g = (if comet then "Comet" else "Asteroid")%string;
  db_x : dr_x g = map (fun t => t / 1000000000) time;
  db_runs : length (dr_points g) = n /\ Forall (basin_run c ppf sort craters basins comet time) (dr_points g);
  db_points : Forall (good (length time)) (dr_points g);
  db_mean : dr_mean g = map (three (mean_at (dr_points g)) (length time)) (seq 0 (length time));
  db_pct : exists q, dr_pct g = map (three q (length time)) (seq 0 (length time)) /\
    forall j, (j < length time)%nat -> let at_j := map (fun b => nth j b 0) (dr_points g) in
      (exists a b, In a at_j /\ In b at_j /\ a <= q j <= b) /\ 997 / 1000 * (INR n - 1) < at_most (q j) at_j /\ 3 / 1000 * (INR n - 1) <= at_least (q j) at_j }.
