(** Vocabulary of the properties of output files. *)
From Coq Require Import ZArith Ascii String List Reals.
From Verif Require Import Base Model_Path Model_Cfg Model_Strat Model_Save Spec_Csv Spec_Cfg Spec_Figure Spec_Save.
Import ListNotations.
Open Scope R_scope.
Open Scope list_scope.

(** What is written for the number [x] is a decimal number, which is read as [back x].  For
    64-bit numbers [back x] is [x] up to the accuracy of pandas' reader; for the 32-bit
    numbers of a run (config.py:125) it is the 64-bit number nearest to their shortest
    decimal text, [x] to 32 bits. *)
Definition read_as (parse : R -> R) (show : R -> string) (back : R -> R) (x : R) : Prop :=
  exists y, decimal_text (show x) y /\ parse y = back x.
(** A layer with its numbers replaced. *)
Definition renumbered (back : R -> R) (l : layer) : layer :=
  mk_layer (back (l_ice l)) (back (l_ej l)) (l_label l) (back (l_time l)) (back (l_depth l))
           (option_map back (l_icepct l)).
(** All numbers of a table. *)
Definition numbers_of (table : list layer) : list R :=
  flat_map (fun l => [l_ice l; l_ej l; l_time l; l_depth l] ++
                     match l_icepct l with Some x => [x] | None => [] end) table.
(** A label that pandas does not take for a missing value, without carriage returns. *)
Definition one_line (s : string) : Prop := ~ In CR (chars s).
Definition readable (l : string) : Prop := ~ In l missing /\ one_line l.

(** ** Runs *)

(** The output files other than tables: the options with their names, and the names that
    the defaults give them. *)
Definition output_files : list (string * string) :=
  [("config_py_out", "config_moonpies_v1.1.1.py"); ("ej_t_csv_out", "ej_columns.csv"); ("ice_t_csv_out", "ice_columns.csv");
   ("agegrd_npy_out", "age_grid.npy"); ("ejmatrix_npy_out", "ejecta_matrix.npy")]%string.
(** The run writes into the directory of its day, name and seed: neither that nor the names
    of its files are given, and no file of these names is in the working directory (such a
    file would be taken, [C69_captured_refuted]). *)
Definition default_outputs (E : env) (kw : cfg) (run : string) : Prop :=
  starts_slash (cwd E) = true /\ normpath (cwd E) = cwd E /\ plain_name (date_now E) /\
  text_paths kw /\ start kw "out_path" = VStr "" /\ start kw "run_name" = VStr run /\ plain_name run /\
  Forall (fun kv => lookup (fst kv) kw = None /\ Model_Cfg.exists_ E (snd kv) = false) output_files.
(** There is room for files in the directory: it is no file and has no directories in it. *)
Definition room (s : fs) (dir : path) : Prop :=
  tree s /\ files s dir = None /\ forall x, dirs s (dir ++ [x]) = false.
(** The cell is a decimal number that is read as [x]. *)
Definition cell_back (parse : R -> R) (cell : string) (x : R) : Prop :=
  exists y, decimal_text cell y /\ parse y = x.
(** The columns of a run have one number for each time, and names in one line. *)
Definition columns_of (times : list R) (cols : list (string * list R)) : Prop :=
  Forall (fun c => one_line (fst c) /\ length (snd c) = length times) cols.
