(** Vocabulary of the properties of the figures of ice by source. *)
From Coq Require Import String List ZArith Reals Bool.
From Verif Require Import Base Model_Time Model_Ice Model_Rng Model_Melt Model_Main Model_Module Spec_Time Spec_Ice Spec_Main.
Import ListNotations.
Open Scope R_scope.

(** The number in a column and a row of a table. *)
Definition entry (t : mtable) (n : string) (i : nat) (x : R) : Prop :=
  exists l, tcol t n = Ok l /\ nth_error l i = Some (Some x).
Definition mean (l : list R) : R := Rsum l / INR (length l).

(** The columns with ice that comes from impacts of craters, from basins, and from elsewhere;
    those with depths. *)
Definition crater_ice : list string :=
  ["Micrometeorite ice"; "Small impactor ice"; "Small simple crater ice"; "Large simple crater ice";
   "Large complex crater ice"]%string.
Definition all_ice : list string := (crater_ice ++ ["Volcanic ice"; "Solar wind ice"; "Basin ice"]%string).
Definition depths : list string := ["Gardening depth"; "Ballistic sed depth"]%string.

(** Settings and data with which a run finishes (C60), with a cold trap at least; random
    numbers for each seed. *)
Record module_sane (c : rcfg) (ppf : ppf_fun) (sort : list (crater info) -> list (crater info))
  (craters basins : list raw) (stream : Z -> tape) (unseeded : tape) : Prop := {
  ms_ice : ice_sane c; ms_bsed : bsed_sane c; ms_traps : r_names c <> [];
  ms_names : NoDup (map w_name (craters ++ basins));
  ms_step : (0 < r_step c)%Z; ms_two : (2 * r_step c <= r_start c - r_end c)%Z;
  ms_ppf : ppf_support ppf; ms_sort : sorts_by_age sort;
  ms_draws : draws unseeded /\ forall s, draws (stream s) }.

(** The bars and shades of the figure, from left to right, and the number behind one at a
    step of the time axis. *)
Definition shown_names : list string :=
  ["Total ice"; "Impactor ice"; "Basin ice"; "Volcanic ice"; "Solar wind ice"; "Gardening depth"; "Ballistic sed depth"]%string.
Definition shown (t : mtable) (n : string) (i : nat) (x : R) : Prop :=
  (n = "Total ice"%string /\ exists xs, Forall2 (fun m => entry t m i) all_ice xs /\ x = Rsum xs) \/
  (n = "Impactor ice"%string /\ exists xs, Forall2 (fun m => entry t m i) crater_ice xs /\ x = Rsum xs) \/
  (In n (["Basin ice"; "Volcanic ice"; "Solar wind ice"]%string ++ depths) /\ entry t n i x).

(** The periods of the Moon, with their ends in Gyr. *)
Definition periods : list (string * (R * R)) :=
  [("Pre-Nec.", (397 / 100, 426 / 100)); ("Nec.", (383 / 100, 397 / 100)); ("Imb.", (32 / 10, 383 / 100));
   ("Era.", (11 / 10, 32 / 10)); ("Cop.", (0, 11 / 10))]%string.
(** The steps of the time axis that are older than [lo] and not older than [hi] Gyr. *)
Definition steps_within (time : list R) (lo hi : R) : list nat :=
  filter (fun i => match nth_error time i with
                   | Some x => Rltb (lo * 1000000000) x && Rleb x (hi * 1000000000)
                   | None => false end) (seq 0 (length time)).
Definition steps_of (time : list R) (p : string * (R * R)) : list nat := steps_within time (fst (snd p)) (snd (snd p)).

(** How the numbers [xs] are drawn under the name [n]: a depth as their mean, ice as a bar
    of that height with an error bar from the least to the largest. *)
Definition drawn (n : string) (xs : list R) (m : mark) : Prop :=
  (In n depths /\ m = Shade (append "Max " n) (match xs with [] => None | _ => Some (mean xs) end)) \/
  (~ In n depths /\ xs = [] /\ m = Bar n None None None) \/
  (~ In n depths /\ xs <> [] /\ exists lo hi, is_min xs lo /\ is_max xs hi /\
     m = Bar n (Some (mean xs)) (Some (Rmax (mean xs - lo) (1 / 1000000000))) (Some (hi - mean xs))).

(** The ice of impacts in the step [i] of a run with the seed [s]: after the draws of the
    list of craters and basins. *)
Definition impact_at (c : rcfg) (ppf : ppf_fun) (sort : list (crater info) -> list (crater info)) (craters basins : list raw)
  (stream : Z -> tape) (time : list R) (i : nat) (s : Z) (x : R) : Prop :=
  exists df k imp k', get_crater_basin_list c ppf sort craters basins (stream s) 0%nat = Ok (df, k) /\
    get_impact_ice (r_i c) ppf (r_tol c) (map impact_of df) time (stream s) k = Ok (imp, k') /\ nth_error imp i = Some x.

(** The height of a bar. *)
Definition height (m : mark) : option R := match m with Bar _ h _ _ => h | Shade _ d => d end.
