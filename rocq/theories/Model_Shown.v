(** Figures of collected runs: /repo/notebooks/figure_scripts/plot_figs.py:27-74 (helpers),
    77-125 [compare_violin], 380-427 [kde_layers] and 789-835 [surface_boxplot].  Modelled are
    the numbers that are handed to the plotting library and the place where a figure is saved. *)
From Coq Require Import ZArith Bool Ascii String List Reals.
From Verif Require Import Base Model_Time Model_Ice Model_Path Model_Strat Model_Figure Model_Save Model_Collect Model_Module.
Import ListNotations.
Open Scope R_scope.
Open Scope list_scope.

(** ** Where a figure is saved *)

(** A [PurePosixPath]: whether it is absolute, and its parts.  (Two slashes at the start are
    taken for one.) *)
Record ppath := mk_ppath { rooted : bool; parts : list string }.
Definition to_path (t : string) : ppath := mk_ppath (starts_slash t) (path_parts t).
(** [a / b]. *)
Definition under (a b : ppath) : ppath := if rooted b then b else mk_ppath (rooted a) (parts a ++ parts b).
Definition as_posix (p : ppath) : string :=
  if rooted p then ("/" ++ join_path (parts p))%string
  else match parts p with [] => "."%string | l => join_path l end.
(** [stem] and [suffix]: a name is split before its last dot, unless this is its first or its
    last character. *)
Fixpoint last_dot (x : string) : option (string * string) :=
  match x with
  | EmptyString => None
  | String a r =>
    match last_dot r with
    | Some (b, e) => Some (String a b, e)
    | None => if Ascii.eqb a "." then Some (EmptyString, x) else None
    end
  end.
Definition split_name (x : string) : string * string :=
  match last_dot x with
  | Some (b, e) => if String.eqb b "" || String.eqb e "." then (x, ""%string) else (b, e)
  | None => (x, ""%string)
  end.
(** plot_figs.py:27-38 [_save_or_show]: the file that is written, if any.  (A version with a
    slash is left out.) *)
Definition figure_file (figdir fsave version : string) : result (option ppath) :=
  if String.eqb fsave "" then Ok None else
  let p := under (to_path figdir) (to_path fsave) in
  if contains version (as_posix p) then Ok (Some p)
  else match rev (parts p) with
       | [] => Err ValueError
       | x :: r => let (b, e) := split_name x in
                   Ok (Some (mk_ppath (rooted p) (rev r ++ [(b ++ "_" ++ version ++ e)%string])))
       end.

(** ** Which day is shown *)

(** plot_figs.py:57: [Path(cfg.data_path).parents[1] / 'out'], for an absolute path. *)
Definition out_of (data_path : string) : result path :=
  let p := path_parts data_path in
  if Nat.ltb (length p) 2 then Err IndexError else Ok (firstn (length p - 2) p ++ ["out"%string]).
(** plot_figs.py:55-65 [_get_datedir]: the last directory, in the order in which the operating
    system lists them, in which there is a "layers.csv". *)
Definition get_datedir (L : listing) (s : fs) (data_path : string) : result path :=
  let* outdir := out_of data_path in
  if dirs s outdir then
    let subdirs := filter (fun x => dirs s (outdir ++ [x])) (children L outdir) in
    match find (fun x => exists_ s (outdir ++ [x; "layers.csv"%string])) (rev subdirs) with
    | Some x => Ok (outdir ++ [x])
    | None => Err FileNotFoundError
    end
  else Err FileNotFoundError.
(** The argument [datedir]: a text, or a Path made from one.  A Path is never false. *)
Inductive place := Text (t : string) | Posix (t : string).
(** plot_figs.py:68-74 [_load_aggregated].  [cwd] is the working directory.  (Symbolic links
    are left out.) *)
Definition load_aggregated (parse : R -> R) (L : listing) (s : fs) (cwd data_path : string) (d : place)
  : result (list flat * list flat * nat) :=
  let* dir := match d with
              | Text EmptyString => get_datedir L s data_path
              | Text t | Posix t => Ok (path_parts (abspath cwd t))
              end in
  read_agg_dfs parse s dir.

(** ** Violins *)

(** A number of a row; NaN if it has no such column.  (A column that no row has is a
    KeyError.) *)
Definition stat (r : flat) (n : string) : option R :=
  match find (fun e => String.eqb (fst e) n) (fl_stats r) with Some (_, v) => v | None => None end.
(** plot_figs.py:88-89. *)
Definition log_ice (r : flat) : option R :=
  match stat r "total ice" with
  | Some x => if Rltb x 1 then None else Some (log10 x)
  | None => None
  end.
(** The numbers of the rows of a cold trap and a run; the plotting library leaves NaN out. *)
Definition group (value : flat -> option R) (rows : list flat) (coldtrap run : string) : list R :=
  numbers (map value (filter (fun r => String.eqb (fl_trap r) coldtrap && String.eqb (fl_run r) run) rows)).
(** plot_figs.py:77-125 [compare_violin]: for each cold trap the numbers of each half of its
    violin, and the number of runs in the title.  [known] are the names in the list of craters
    and basins.  ([split=True] needs two new names; other numbers are an error of the plotting
    library and left out.) *)
Definition compare_violin (parse : R -> R) (L : listing) (s : fs) (cwd data_path : string) (known : list string)
  (datedir : string) (corder run_names rename : list string)
  : result (list (string * list (string * list R)) * nat) :=
  if forallb (fun c => existsb (String.eqb c) known) corder then
    let* (_, runs, nruns) := load_aggregated parse L s cwd data_path (Posix datedir) in
    let runs := rename_runs runs run_names rename in
    Ok (map (fun c => (c, map (fun h => (h, group log_ice runs c h)) (rev rename))) corder, nruns)
  else Err KeyError.

(** ** Layers *)

(** [DataFrame.round] to one decimal. *)
Definition round1 (x : R) : R := IZR (rint (x * 10)) / 10.
(** A layer that is drawn: its cold trap and run, and ice, depth and depth of its top. *)
Record kde_row := mk_kde { kd_trap : string; kd_run : string; kd_ice : R; kd_depth : R; kd_top : R }.
(** plot_figs.py:402-408. *)
Definition clean_layer (r : flat) : list kde_row :=
  match stat r "ice", stat r "depth", stat r "time" with
  | Some i, Some d, Some _ =>
    let i := round1 i in
    let d := round1 d in
    if Rltb i (1 / 10) || Rltb d (1 / 10) then []
    else [mk_kde (fl_trap r) (fl_run r) i d (Rmax (d - i) (1 / 10))]
  | _, _, _ => []
  end.
(** [l.iloc[::skip]]; [left] rows are skipped first. *)
Fixpoint every {A} (skip left : nat) (l : list A) : list A :=
  match l with
  | [] => []
  | x :: r => match left with O => x :: every skip (skip - 1) r | S n => every skip n r end
  end.
(** plot_figs.py:380-427 [kde_layers]: the layers of each panel. *)
Definition kde_layers (parse : R -> R) (L : listing) (s : fs) (cwd data_path datedir : string)
  (coldtraps run_names rename : list string) : result (list (string * list kde_row)) :=
  let* (layers, _, _) := load_aggregated parse L s cwd data_path (Text datedir) in
  let layers := flat_map clean_layer (rename_runs layers run_names rename) in
  Ok (map (fun c =>
        let df := filter (fun r => String.eqb (kd_trap r) c) layers in
        (c, if (1000 <? N.of_nat (length df))%N then every 300 0 df else df)) coldtraps).

(** ** Boxes *)

(** [Series.quantile(q)] of numbers: between the two nearest of the sorted numbers, linearly. *)
Fixpoint insert_num (x : R) (l : list R) : list R :=
  match l with [] => [x] | y :: r => if Rleb x y then x :: l else y :: insert_num x r end.
Definition sort_num (l : list R) : list R := fold_right insert_num [] l.
Definition quantile (q : R) (l : list R) : option R :=
  match sort_num l with
  | [] => None
  | x :: r =>
    let h := INR (length r) * q in
    let k := Int_part h in
    let a := nth (Z.to_nat k) (x :: r) x in
    let b := nth (S (Z.to_nat k)) (x :: r) a in
    Some (a + (b - a) * (h - IZR k))
  end.
Fixpoint unique (l : list string) : list string :=
  match l with [] => [] | x :: r => x :: filter (fun y => negb (String.eqb y x)) (unique r) end.
(** A panel: the boxes, the marks with their labels, and the part of the runs with more ice
    than a threshold. *)
Record panel := mk_panel { pa_boxes : list (string * list R); pa_marks : list (string * option R); pa_over : list (string * R) }.
(** plot_figs.py:789-835 [surface_boxplot]: the panels, and the number of runs on their axes.
    No panel is a ValueError of the plotting library. *)
Definition surface_boxplot (parse : R -> R) (L : listing) (s : fs) (cwd data_path datedir : string)
  (corder : list string) (sdepths : list N) : result (list panel * nat) :=
  let* (_, runs, nruns) := load_aggregated parse L s cwd data_path (Text datedir) in
  let kept := filter (fun r => String.eqb (fl_run r) "moonpies") runs in
  match sdepths with
  | [] => Err ValueError
  | _ =>
    let* panels := mapM (fun sdepth =>
      let key := ("total ice " ++ digits 1 sdepth ++ "m")%string in
      if existsb (fun r => existsb (fun e => String.eqb (fst e) key) (fl_stats r)) runs then
        let of c := filter (fun r => String.eqb (fl_trap r) c) kept in
        let vals c := numbers (map (fun r => stat r key) (of c)) in
        let marks := if (sdepth =? 6)%N
                     then [("p75"%string, quantile (75 / 100) (vals "Faustini"%string));
                           ("p99"%string, quantile (95 / 100) (vals "Faustini"%string))]
                     else [] in
        let thresh := if (sdepth =? 6)%N then 3 / 10 else 5 in
        Ok (mk_panel (map (fun c => (c, vals c)) corder) marks
              (map (fun c => (c, INR (length (filter (fun x => Rltb thresh x) (vals c))) / INR (length (of c))))
                   (unique (map fl_trap kept))))
      else Err KeyError) sdepths in
    Ok (panels, nruns)
  end.
