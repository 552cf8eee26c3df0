(** Vocabulary of the theorems about all figures. *)
From Coq Require Import Bool Ascii String List Reals.
From Verif Require Import Base Model_Path Model_Ice Model_Strat Model_Save Model_Shown Model_All Spec_Shown.
Import ListNotations.
Open Scope R_scope.

(** The name of a file, without its directory. *)
Definition file_name (p : ppath) : string := last (parts p) ""%string.

(** The corner of the axes that a location names, and the sides of a text that face it. *)
Definition corner (loc : string) (x y : R) (va ha : string) : Prop :=
  exists a b rest, loc = String a (String b rest) /\
    ((a = "l"%char /\ y = 0 /\ va = "bottom"%string) \/ (a = "u"%char /\ y = 1 /\ va = "top"%string)) /\
    ((b = "l"%char /\ x = 0 /\ ha = "left"%string) \/ (b = "r"%char /\ x = 1 /\ ha = "right"%string)).

(** The logarithms of the ice of the runs named [run] with 1 m or more in the cold trap [c]. *)
Definition log_ices (back : R -> R) (found : list ((string * string * path) * list layer)) (c run : string) : list R :=
  map (fun e => log10 (ice_in back e)) (filter (fun e => of_run c run e && Rleb 1 (ice_in back e)) found).
