(** Vocabulary of the properties of the command. *)
From Coq Require Import ZArith Bool String List Reals.
From Verif Require Import Base Model_Path Model_Cfg Model_Time Model_Rng Model_Figure Model_Save Model_Cmd Data_Shipped
  Spec_Figure Spec_Save Spec_Time Spec_Ice Spec_Main Spec_Run Spec_Files.
Import ListNotations.
Open Scope string_scope.
Open Scope list_scope.

(** The libraries do what their documentation says. *)
Definition lawful (P : libraries) : Prop :=
  keeps_order (p_rnd P) /\ p_rnd P 10000000%R = 10000000%R /\ ppf_support (p_ppf P) /\ sorts_by_age (p_sort P) /\
  forall z, draws (p_stream P z).

(** The arguments are a seed or nothing, with or without --resume.  Without a seed, and with
    the seed 0, the run draws one. *)
Definition asks (E : env) (argv : list string) (resume : bool) (z : Z) : Prop :=
  (0 < z)%Z /\ parse_int E "--resume" = None /\ (resume = true <-> In "--resume" argv) /\
  exists rest, rest = filter (fun a => negb (a =? "--resume")) argv /\
    ((rest = [] /\ z = draw E) \/
     exists t n, rest = [t] /\ parse_int E t = Some n /\ ((n = z) \/ (n = 0%Z /\ z = draw E))).

(** The directory of the run with this seed, from a command given in the working directory
    that day. *)
Definition run_dir (E : env) (z : Z) : path :=
  path_parts (cwd E) ++ ["out"; date_now E; "moonpies"; format_05d z].
(** The data files of a run. *)
Definition data : list (string * string) := [
  ("crater_list.csv", crater_list_csv); ("basin_list.csv", basin_list_csv); ("bahcall_etal_2001_t2.csv", bahcall_csv);
  ("ballistic_hop_coldtraps.csv", ballistic_hop_csv); ("ballistic_sed_frac_melted_mean.csv", melt_mean_csv)].
(** The names of the stratigraphy tables, of all files that depend on nothing but the seed,
    and of all files of a run. *)
Definition table_name (n : string) : string := ("strat_" ++ n ++ ".csv")%string.
Definition tables : list string := map table_name with_hop ++ ["ice_columns.csv"].
Definition written : list string := ["config_moonpies_v1.1.1.py"; "ej_columns.csv"] ++ tables.

(** MoonPIES is installed on this disk; there is no file of the same name as one of its data
    or output files in the working directory; and there is room for the directories of its
    runs. *)
Definition ready (E : env) (s : fs) : Prop :=
  (starts_slash (cwd E) = true /\ normpath (cwd E) = cwd E) /\ plain_name (date_now E) /\
  (starts_slash (package_data E) = true /\ normpath (package_data E) = package_data E) /\
  Forall (fun f => files s (path_parts (package_data E) ++ [fst f]) = Some (snd f)) data /\
  Forall (fun n => Model_Save.exists_ s (path_parts (cwd E) ++ [n]) = false) (map fst data ++ map snd output_files) /\
  tree s /\
  forall z, (forall p, is_prefix p (run_dir E z) = true -> files s p = None) /\ forall x, dirs s (run_dir E z ++ [x]) = false.

(** Two commands are given in the same working directory with the same installation; the
    clock, the home directory and the drawn seed may differ. *)
Definition same_place (E E2 : env) : Prop := cwd E2 = cwd E /\ package_data E2 = package_data E.
