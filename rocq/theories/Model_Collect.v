(** Collecting many runs: /repo/notebooks/figure_scripts/aggregate.py on a disk. *)
From Coq Require Import ZArith QArith Qreals Bool Ascii String List Arith Reals.
From Verif Require Import Base Model_Csv Model_Strat Model_Plot Model_Save Model_Files.
Import ListNotations.
Open Scope string_scope.
Open Scope list_scope.

(** ** Looking into directories *)

(** The patterns of [Path.rglob] that are used: one name, and all names with an ending.
    (Names with [*], [?] or [[] in them are left out.) *)
Inductive pattern := Named (n : string) | Ending (e : string).
Definition matches (pat : pattern) (x : string) : bool :=
  match pat with Named n => n =? x | Ending e => ends_with e x end.
(** What is in a directory ([Path.glob('*')]), and what below it matches a pattern
    ([Path.rglob]), in the order in which the operating system lists it. *)
Record listing := mk_listing { children : path -> list string; rglob : path -> pattern -> list path }.

(** Cold trap, run and statistic: the three headings of a column of the aggregated files. *)
Notation heading := (string * string * string)%type.

(** ** Totals of all runs *)

Section Collect.
  (** [parse]: see [Model_Files].  [show]: the text of the 32-bit number nearest to a number
      (line 94, dtype='float32').  [dump] and [load] are those of pickle. *)
  Variables (parse : R -> R) (show : R -> string).
  Definition totals := (R * R * list R)%type.
  Definition layers := (list R * list R * list R)%type.
  Definition pickled : Type := list (string * (layers * list totals)).
  Variables (dump : pickled -> string) (load : string -> result pickled).

  (** aggregate.py:39: the depths of the totals, with their text. *)
  Definition agg_depths : list (string * R) := [("1", 1%R); ("3", 3%R); ("6", 6%R); ("10", 10%R); ("100", 100%R)].

  (** aggregate.py:56 [pd.read_csv(csv)].  (Reading a directory is an IsADirectoryError.) *)
  Definition read_at (s : fs) (p : path) : result (list layer) :=
    match files s p with Some t => read_strat parse t | None => Err FileNotFoundError end.
  (** aggregate.py:39-91 [agg_coldtrap], what is dumped: for each directory in [datedir] but
      [outdir], the layers and the totals of its tables of the cold trap.  All tables of a
      directory are read before the first is used; the code reads them one by one. *)
  Definition agg_coldtrap (L : listing) (s : fs) (coldtrap : string) (datedir outdir : path) : result pickled :=
    let runs := filter (fun x => dirs s (datedir ++ [x]) && negb (path_eqb (datedir ++ [x]) outdir)) (children L datedir) in
    mapM (fun x =>
      let* csvs := mapM (read_at s) (rglob L (datedir ++ [x]) (Named ("strat_" ++ coldtrap ++ ".csv")%string)) in
      let* data := agg_run (map snd agg_depths) csvs in
      Ok (x, data)) runs.
  (** aggregate.py:86-91: where it is dumped. *)
  Definition pickle_of (outdir : path) (coldtrap : string) : path := outdir ++ [(coldtrap ++ ".pickle")%string].
  Definition dump_ops (L : listing) (s : fs) (datedir tmpdir : path) (coldtrap : string) : list op :=
    match agg_coldtrap L s coldtrap datedir tmpdir with
    | Ok d => [Mkdir tmpdir; Create (pickle_of tmpdir coldtrap); Append (pickle_of tmpdir coldtrap) (dump d)]
    | Err _ => []
    end.

  (** ** The aggregated files *)

  Definition pair_eqb (a b : string * string) : bool := (fst a =? fst b) && (snd a =? snd b).
  Definition heading_eqb (a b : heading) : bool := pair_eqb (fst a) (fst b) && (snd a =? snd b).
  (** A dict: a key that is there already keeps its place. *)
  Fixpoint set_key (d : list (heading * list R)) (k : heading) (v : list R) : list (heading * list R) :=
    match d with
    | [] => [(k, v)]
    | (k', v') :: r => if heading_eqb k' k then (k', v) :: r else (k', v') :: set_key r k v
    end.
  Definition dict_of (l : list (heading * list R)) : list (heading * list R) :=
    fold_left (fun d kv => set_key d (fst kv) (snd kv)) l [].
  (** [Path.stem] of the files that [rglob('*.pickle')] finds.  (For a file ".pickle" it is
      its name.) *)
  Definition stem (p : path) : string :=
    let x := last p "" in String.substring 0 (String.length x - 7) x.

  (** aggregate.py:46-52, 83-84, 103-111: the columns of one pickle. *)
  Definition layer_columns (coldtrap : string) (d : pickled) : list (heading * list R) :=
    flat_map (fun '(run, ((ice, depth, time), _)) =>
      [((coldtrap, run, "ice"), ice); ((coldtrap, run, "depth"), depth); ((coldtrap, run, "time"), time)]) d.
  Definition run_columns (coldtrap : string) (d : pickled) : list (heading * list R) :=
    flat_map (fun '(run, (_, stats)) =>
      map (fun k => ((coldtrap, run, ("total ice " ++ fst (nth k agg_depths ("", 0%R)) ++ "m")%string),
                     map (fun st : totals => nth k (snd st) 0%R) stats)) (seq 0 (length agg_depths)) ++
      [((coldtrap, run, "total ice"), map (fun st => fst (fst st)) stats);
       ((coldtrap, run, "maxdepth"), map (fun st => snd (fst st)) stats)]) d.

  (** aggregate.py:112-115 [pd.DataFrame(...).to_csv(..., index=False)]: three lines of
      headings; shorter columns are filled with NaN.  (An empty frame is written as an empty
      line.) *)
  Definition frame_rows (f : list (heading * list R)) : nat := fold_right max 0%nat (map (fun c => length (snd c)) f).
  Definition frame_text (f : list (heading * list R)) : string :=
    to_csv (map (fun c => fst (fst (fst c))) f :: map (fun c => snd (fst (fst c))) f :: map (fun c => snd (fst c)) f ::
            map (fun i => map (fun c => match nth_error (snd c) i with Some x => show x | None => "" end) f) (seq 0 (frame_rows f))).
  Definition write_text (p : path) (t : string) : list op := [Create p; Append p t].
  (** aggregate.py:94-115 [pickles_to_csv].  Failing system calls are left out, here and in
      [dump_ops]. *)
  Definition pickles_to_csv (L : listing) (s : fs) (tmpdir outdir : path) : result fs :=
    let* data := mapM (fun p => match files s p with
                                | Some t => let* d := load t in Ok (stem p, d)
                                | None => Err FileNotFoundError
                                end) (rglob L tmpdir (Ending ".pickle")) in
    let lay := dict_of (flat_map (fun '(c, d) => layer_columns c d) data) in
    let run := dict_of (flat_map (fun '(c, d) => run_columns c d) data) in
    Ok (exec (write_text (outdir ++ ["layers.csv"]) (frame_text lay) ++ write_text (outdir ++ ["runs.csv"]) (frame_text run)) s).

  (** aggregate.py:118-130 [aggregate]: a process for each cold trap, which dumps its data;
      one that fails prints its error and ends, and the others are not stopped.  Each sees the
      disk as it was at the start: the directory that the others write to is left out (line
      44).  [L1] is the listing after that. *)
  Definition pickled_disk (L : listing) (coldtraps : list string) (tmpdir datedir : path) (s : fs) : fs :=
    exec (flat_map (dump_ops L s datedir tmpdir) coldtraps) s.
  Definition aggregate (L L1 : listing) (coldtraps : list string) (tmpdir datedir : path) (s : fs) : result fs :=
    pickles_to_csv L1 (pickled_disk L coldtraps tmpdir datedir s) tmpdir datedir.

  (** ** Reading them *)

  (** A table with three headings over each column; NaN is [None]. *)
  Record frame := mk_frame { fr_heads : list heading; fr_rows : list (list (option R)) }.
  (** aggregate.py:14-15 [pd.read_csv(..., header=[0, 1, 2])].  (An empty heading gets another
      name.) *)
  Definition read_cell (t : string) : result (option R) :=
    let* o := number t in Ok (option_map (fun q => parse (Q2R q)) o).
  Definition read_frame (text : string) : result frame :=
    let* rows := csv_rows text in
    match rows with
    | a :: b :: c :: body =>
      let* cells := mapM (mapM read_cell) body in
      Ok (mk_frame (combine (combine a b) c) cells)
    | _ => Err ValueError
    end.
  Definition read_file (s : fs) (p : path) : result frame :=
    match files s p with Some t => read_frame t | None => Err FileNotFoundError end.

  (** The first of each. *)
  Fixpoint distinct (l : list (string * string)) : list (string * string) :=
    match l with [] => [] | p :: r => p :: filter (fun q => negb (pair_eqb q p)) (distinct r) end.
  (** A row of a flattened table.  A statistic that is not listed is NaN. *)
  Record flat := mk_flat { fl_trap : string; fl_run : string; fl_stats : list (string * option R) }.
  (** aggregate.py:25-29 [flatten_agg_df]: a row for each line of the table, cold trap and
      run, unless all is NaN ([stack] drops these).  The order of cold traps and runs within a
      line is left open by the properties. *)
  Definition flatten (f : frame) : list flat :=
    let pairs := distinct (map fst (fr_heads f)) in
    flat_map (fun row => flat_map (fun p =>
      let st := flat_map (fun hc : heading * option R =>
                  if pair_eqb (fst (fst hc)) p then [(snd (fst hc), snd hc)] else [])
                (combine (fr_heads f) row) in
      if forallb (fun kv => match snd kv with Some _ => false | None => true end) st then []
      else [mk_flat (fst p) (snd p) st]) pairs) (fr_rows f).
  (** aggregate.py:31-36 [rename_runs]: one name after the other. *)
  Definition rename_runs (df : list flat) (run_names new_names : list string) : list flat :=
    fold_left (fun df nn => map (fun r => if fl_run r =? fst nn then mk_flat (fl_trap r) (snd nn) (fl_stats r) else r) df)
      (combine run_names new_names)
      (filter (fun r => existsb (String.eqb (fl_run r)) run_names) df).
  (** aggregate.py:12-23 [read_agg_dfs(datedir, flatten=True, count_runs=True)]. *)
  Definition read_agg_dfs (s : fs) (datedir : path) : result (list flat * list flat * nat) :=
    let* lay := read_file s (datedir ++ ["layers.csv"]) in
    let* run := read_file s (datedir ++ ["runs.csv"]) in
    Ok (flatten lay, flatten run, length (fr_rows run)).
End Collect.
