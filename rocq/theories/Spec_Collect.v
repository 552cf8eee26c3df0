(** Vocabulary of the properties of collected runs. *)
From Coq Require Import ZArith Bool Ascii String List Arith Reals.
From Verif Require Import Base Model_Path Model_Cfg Model_Strat Model_Plot Model_Figure Model_Save Model_Collect Spec_Csv Spec_Save Spec_Files.
Import ListNotations.
Open Scope string_scope.
Open Scope list_scope.

(** The listing shows what is on the disk in the directory [d] and in those below it, each
    entry once, in any order. *)
Definition lists (L : listing) (s : fs) (d : path) : Prop :=
  (NoDup (children L d) /\ forall x, In x (children L d) <-> Model_Save.exists_ s (d ++ [x]) = true) /\
  forall p pat, is_prefix d p = true -> NoDup (rglob L p pat) /\
    forall q, In q (rglob L p pat) <->
      Model_Save.exists_ s q = true /\ exists mid x, q = p ++ mid ++ [x] /\ matches pat x = true.

(** [p] is a table of the cold trap [c] somewhere in the directory [x] of [datedir], which is
    not the directory of the pickles. *)
Definition table_at (s : fs) (datedir tmpdir : path) (c x : string) (p : path) : Prop :=
  dirs s (datedir ++ [x]) = true /\ datedir ++ [x] <> tmpdir /\
  Model_Save.exists_ s p = true /\ exists mid, p = datedir ++ x :: mid ++ [("strat_" ++ c ++ ".csv")%string].
(** The table can be aggregated: it has one row with the age of the cold trap, and no row is
    older. *)
Definition formed (table : list layer) : Prop :=
  exists f, filter (fun l => String.eqb (l_label l) "Formation age") table = [f] /\
            Forall (fun l => (l_time l <= l_time f)%R) table.
(** A text that can head a column: in one line, and starting with an ASCII character. *)
Definition heads_column (n : string) : Prop :=
  one_line n /\ exists a r, n = String a r /\ (nat_of_ascii a < 128)%nat.
(** Pickles of these cold traps, and no others, can be in the directory before. *)
Definition no_other_pickles (s : fs) (tmpdir : path) (coldtraps : list string) : Prop :=
  (forall mid x, Model_Save.exists_ s (tmpdir ++ mid ++ [x]) = true -> ends_with ".pickle" x = true ->
     mid = [] /\ In x (map (fun c => c ++ ".pickle")%string coldtraps)) /\
  forall c, In c coldtraps -> dirs s (tmpdir ++ [(c ++ ".pickle")%string]) = false.

(** The tables of these cold traps in the directory of a day can be aggregated: there is
    one run at least, each table can be read and has its row of age, and there is room for the
    files. *)
Definition aggregable (parse : R -> R) (s : fs) (datedir tmpdir : path) (coldtraps : list string) : Prop :=
  (coldtraps <> [] /\ NoDup coldtraps /\ Forall heads_column coldtraps) /\ no_other_pickles s tmpdir coldtraps /\
  (exists x, dirs s (datedir ++ [x]) = true /\ datedir ++ [x] <> tmpdir) /\
  (forall x, dirs s (datedir ++ [x]) = true -> one_line x) /\
  (forall c x p, In c coldtraps -> table_at s datedir tmpdir c x p ->
     exists table, read_at parse s p = Ok table /\ formed table) /\
  (forall p, is_prefix p tmpdir = true -> files s p = None) /\
  dirs s (datedir ++ ["layers.csv"]) = false /\ dirs s (datedir ++ ["runs.csv"]) = false.
(** What is dumped for these cold traps is what is loaded. *)
Definition pickles_back (parse : R -> R) (dump : pickled -> string) (load : string -> result pickled) (L : listing)
  (coldtraps : list string) (tmpdir datedir : path) (s : fs) : Prop :=
  forall c d, In c coldtraps -> agg_coldtrap parse L s c datedir tmpdir = Ok d -> load (dump d) = Ok d.
(** The tables that are found: cold trap, run, place and table, each once. *)
Definition are_tables (parse : R -> R) (s : fs) (datedir tmpdir : path) (coldtraps : list string)
  (found : list ((string * string * path) * list layer)) : Prop :=
  NoDup (map fst found) /\
  (forall c x p, In (c, x, p) (map fst found) <-> In c coldtraps /\ table_at s datedir tmpdir c x p) /\
  Forall (fun e => read_at parse s (snd (fst e)) = Ok (snd e)) found.

(** The totals of a table (C59): all ice, the largest depth, and the ice above 1, 3, 6, 10
    and 100 m. *)
Definition totals_of (table : list layer) : R * R * list R :=
  match agg_csv [1; 3; 6; 10; 100]%R table with Ok (Some (_, st)) => st | _ => (0%R, 0%R, []) end.
(** The row of the totals of one table, and that of one layer. *)
Definition total_row (back : R -> R) (c x : string) (st : R * R * list R) : flat :=
  let '(total, maxdepth, amounts) := st in
  mk_flat c x (combine ["total ice 1m"; "total ice 3m"; "total ice 6m"; "total ice 10m"; "total ice 100m"]
                       (map (fun a => Some (back a)) amounts) ++
               [("total ice", Some (back total)); ("maxdepth", Some (back maxdepth))]).
Definition layer_row (back : R -> R) (c x : string) (l : layer) : flat :=
  mk_flat c x [("ice", Some (back (l_ice l))); ("depth", Some (back (l_depth l))); ("time", Some (back (l_time l)))].

(** The directory of the runs of a day, in the working directory. *)
Definition day_dir (E : env) : path := path_parts (cwd E) ++ ["out"; date_now E].
