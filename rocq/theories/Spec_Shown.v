(** Vocabulary of the properties of the figures of collected runs. *)
From Coq Require Import ZArith Bool Ascii String List Reals.
From Verif Require Import Base Model_Path Model_Strat Model_Figure Model_Save Model_Collect Model_Shown Spec_Files Spec_Collect.
Import ListNotations.
Open Scope R_scope.
Open Scope list_scope.

(** A part of a text. *)
Definition occurs (a b : string) : Prop := exists x y, b = (x ++ a ++ y)%string.

(** The name [x] ends in [e]: its last dot and what follows, if there is something before and
    after the dot. *)
Definition ends_in (x b e : string) : Prop :=
  x = (b ++ e)%string /\
  ((b <> ""%string /\ exists r, e = ("." ++ r)%string /\ r <> ""%string /\ ~ occurs "." r) \/
   (e = ""%string /\ forall b' r, x = (b' ++ "." ++ r)%string -> b' = ""%string \/ r = ""%string \/ occurs "." r)).
(** The directory in which a figure is asked for, and the name that is asked for. *)
Definition asked (figdir fsave : string) (root : bool) (dir : list string) (x : string) : Prop :=
  (starts_slash fsave = true /\ root = true /\ path_parts fsave = dir ++ [x]) \/
  (starts_slash fsave = false /\ root = starts_slash figdir /\ exists sub, path_parts fsave = sub ++ [x] /\ dir = path_parts figdir ++ sub).

(** [s'] is the disk after the tables [found] in the directory [day] have been aggregated. *)
Definition collected (parse back : R -> R) (coldtraps : list string) (day tmp : path) (s s' : fs)
  (found : list ((string * string * path) * list layer)) : Prop :=
  exists show dump load L L1, (forall x, read_as parse show back x) /\ pickles_back parse dump load L coldtraps tmp day s /\
    aggregable parse s day tmp coldtraps /\ lists L s day /\ lists L1 (pickled_disk parse dump L coldtraps tmp day s) tmp /\
    aggregate parse show dump load L L1 coldtraps tmp day s = Ok s' /\ are_tables parse s day tmp coldtraps found.
(** A table of the cold trap [c] and the run [x]. *)
Definition of_run (c x : string) (e : (string * string * path) * list layer) : bool :=
  String.eqb (fst (fst (fst e))) c && String.eqb (snd (fst (fst e))) x.
(** All ice of a table, as it is read from the collected files. *)
Definition ice_in (back : R -> R) (e : (string * string * path) * list layer) : R := back (Rsum (map l_ice (snd e))).

(** New names of runs, one for each; a new name is not the old name of another run. *)
Definition renames (run_names rename : list string) : Prop :=
  length run_names = length rename /\ NoDup run_names /\ NoDup rename /\
  forall x n, In (x, n) (combine run_names rename) -> n = x \/ ~ In n run_names.

(** [y] is [x] in tenths. *)
Definition tenths (x y : R) : Prop := (exists z, y = IZR z / 10) /\ Rabs (y - x) <= 1 / 20.
(** The row [k] shows a layer of the cold trap [c] and a run that is named [name]. *)
Definition shows (back : R -> R) (c name : string) (l : layer) (k : kde_row) : Prop :=
  kd_trap k = c /\ kd_run k = name /\ tenths (back (l_ice l)) (kd_ice k) /\ tenths (back (l_depth l)) (kd_depth k) /\
  1 / 10 <= kd_ice k /\ 1 / 10 <= kd_depth k /\ kd_top k = Rmax (1 / 10) (kd_depth k - kd_ice k).
(** The layers of the cold trap [c], with more than 5 cm of ice and deeper than 5 cm, in the
    runs [run_names], with the new names of these. *)
Definition thick_enough (back : R -> R) (l : layer) : bool := Rltb (1 / 20) (back (l_ice l)) && Rltb (1 / 20) (back (l_depth l)).
Definition layers_of (back : R -> R) (found : list ((string * string * path) * list layer)) (c : string)
  (run_names rename : list string) : list (string * layer) :=
  flat_map (fun e => flat_map (fun '(x, name) =>
    if of_run c x e then map (fun l => (name, l)) (filter (thick_enough back) (snd e)) else []) (combine run_names rename)) found.

(** The depths of the totals, and the ice above one in a table (C86_totals). *)
Definition depth_at (k : nat) : N := nth k [1; 3; 6; 10; 100]%N 0%N.
Definition ice_above (k : nat) (table : list layer) : R := nth k (snd (totals_of table)) 0.
(** The ice above a depth in each table of a cold trap and the run "moonpies". *)
Definition surface_ice (back : R -> R) (found : list ((string * string * path) * list layer)) (k : nat) (c : string) : list R :=
  map (fun e => back (ice_above k (snd e))) (filter (of_run c "moonpies") found).

(** How many numbers are not more, and not less, than [v]. *)
Definition at_most (v : R) (l : list R) : R := INR (length (filter (fun x => Rleb x v) l)).
Definition at_least (v : R) (l : list R) : R := INR (length (filter (fun x => Rleb v x) l)).
Definition more_than (v : R) (l : list R) : R := INR (length (filter (fun x => Rltb v x) l)).
