(** The script that makes the melt fraction tables (moonpies/thermal_eq.py:229-239). *)
From Coq Require Import List ZArith Reals.
From Verif Require Import Base Model_Thermal Model_Melt.
Import ListNotations.
Open Scope R_scope.

(** thermal_eq.py:233 [FRACS]: 40 target fractions from 0 up to, not including, 1.  Here and
    below arithmetic is exact. *)
Definition script_fracs : list R := map (fun i => INR i * ((1 - 0) / INR 40)) (seq 0 40).

(** thermal_eq.py:234 [MRS]. *)
Definition script_mrs : list R := map (fun f => f / (1 - f)) script_fracs.

(** thermal_eq.py:235 [TEMPS]: 81 temperatures, both ends included. *)
Definition script_temps : list R := map (fun i => 110 + INR i * ((510 - 110) / INR (81 - 1))) (seq 0 81).

(** thermal_eq.py:236 [NSEED]. *)
Definition script_nseed : nat := 20.

(** A number of the file.  An entry that is not a number is an empty field; the error stands
    for it and no theorem depends on which one it is. *)
Definition entry (v : option R) : result R :=
  match v with Some x => Ok x | None => Err ValueError end.

(** thermal_eq.py:239 and 38-44: the two tables as written to the files and read back; [fmt]
    is the number printed by "%g", for the labels of rows and columns too. *)
Definition script_tables (fmt : R -> R) (f : R -> R -> Z -> result R) (order : list nat) (ncpu : Z)
  : result (table * table) :=
  let* (means, devs) := make_melt_frac_dfs fmt f order ncpu script_mrs script_temps script_nseed true in
  let* m := mapM (mapM entry) means in
  let* d := mapM (mapM entry) devs in
  Ok (mk_table (map fmt script_mrs) (map fmt script_temps) m,
      mk_table (map fmt script_mrs) (map fmt script_temps) d).
