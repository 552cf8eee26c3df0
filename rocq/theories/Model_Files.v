(** The text of the output files of a run, and the reading of the stratigraphy tables. *)
From Coq Require Import ZArith QArith Qreals Bool Ascii String List Reals.
From Verif Require Import Base Model_Csv Model_Cfg Model_Strat Model_Main Model_Run Model_Figure Model_Save.
Import ListNotations.
Open Scope string_scope.

(** ** Writing

    moonpies.py:2696 [out.to_csv(fout, index=False)]: the default format of pandas and of
    Python's csv module (QUOTE_MINIMAL) with the line end of Unix. *)

(** A field is quoted if it has a comma, a quote or a line feed.  A carriage return alone is
    not quoted (Python before 3.13). *)
Definition quoted (f : string) : bool :=
  existsb (fun a => Ascii.eqb a comma || Ascii.eqb a quote || Ascii.eqb a lf) (list_ascii_of_string f).
Definition csv_field (f : string) : list ascii :=
  if quoted f
  then (quote :: flat_map (fun a => if Ascii.eqb a quote then [quote; quote] else [a]) (list_ascii_of_string f) ++ [quote])%list
  else list_ascii_of_string f.
(** A line.  (A line of one empty field would be written as two quotes; no table here has
    only one column.) *)
Fixpoint csv_fields (row : list string) : list ascii :=
  match row with
  | [] => []
  | [f] => csv_field f
  | f :: r => (csv_field f ++ comma :: csv_fields r)%list
  end.
Definition to_csv (rows : list (list string)) : string :=
  string_of_list_ascii (flat_map (fun row => csv_fields row ++ [lf])%list rows).

Section Text.
  (** [show] is [repr] of a float; NaN is written as an empty field. *)
  Variable show : R -> string.

  (** The table of moonpies.py:2546-2595: the columns of the aggregation (line 2602), then
      depth and icepct. *)
  Definition strat_header : list string := ["ice"; "ejecta"; "label"; "time"; "depth"; "icepct"].
  Definition strat_line (l : layer) : list string :=
    [show (l_ice l); show (l_ej l); l_label l; show (l_time l); show (l_depth l);
     match l_icepct l with Some x => show x | None => "" end].
  Definition strat_text (table : list layer) : string :=
    to_csv (strat_header :: map strat_line table).

  (** moonpies.py:2616-2636: times, possibly sources, and a column for each cold trap. *)
  Definition column_lines (cols : list (list string)) (n : nat) : list (list string) :=
    map (fun i => map (fun col => nth i col "") cols) (seq 0 n).
  Definition ice_text (out : outputs) : string :=
    to_csv (("time" :: map fst (o_ice out)) ::
            column_lines (map show (o_time out) :: map (fun c => map show (snd c)) (o_ice out)) (length (o_time out))).
  (** [sources]: the column ej_sources ([Model_Strat.get_all_labels]). *)
  Definition ej_text (sources : list string) (out : outputs) : string :=
    to_csv (("time" :: "ej_sources" :: map fst (o_ej out)) ::
            column_lines (map show (o_time out) :: sources :: map (fun c => map show (snd c)) (o_ej out)) (length (o_time out))).

  (** moonpies.py:2651-2683: the files of a run from its configuration object and outputs.
      [cfg_text] is the text of the configuration (config.py:358-366), [grids] are the bytes
      of the arrays.  Paths are their parts. *)
  Definition results_of (c : cfg) (cfg_text : string) (grids : string * string) (sources : list string)
    (out : outputs) : result results :=
    let* dir := opt_str (getv c "out_path") in
    let* pc := opt_str (getv c "config_py_out") in
    let* pe := opt_str (getv c "ej_t_csv_out") in
    let* pi := opt_str (getv c "ice_t_csv_out") in
    let* pa := opt_str (getv c "agegrd_npy_out") in
    let* pm := opt_str (getv c "ejmatrix_npy_out") in
    Ok (mk_results (opt_bool (getv c "write")) (opt_bool (getv c "write_npy")) (path_parts dir)
          (path_parts pc) [cfg_text]
          (map (fun nt => (fst nt, [strat_text (snd nt)])) (o_strat out))
          (path_parts pe) [ej_text sources out] (path_parts pi) [ice_text out]
          (path_parts pa) [fst grids] (path_parts pm) [snd grids]).
End Text.

(** ** Reading *)

Section Read.
  (** [parse]: the float that pandas makes of a decimal number. *)
  Variable parse : R -> R.

  Definition num_at (head : list string) (k : string) (row : list string) : result R :=
    let* o := num_cell head k KeyError row in
    let* q := need o in
    Ok (parse (Q2R q)).
  (** plotting.py:107 and aggregate.py:56 [pd.read_csv(file)] with the columns that are used
      later.  A missing number or label is a ValueError here; the code goes on with NaN. *)
  Definition read_layer (head row : list string) : result layer :=
    let* i := num_at head "ice" row in
    let* e := num_at head "ejecta" row in
    let* l := text_cell head "label" KeyError row in
    let* t := num_at head "time" row in
    let* d := num_at head "depth" row in
    let* p := num_cell head "icepct" KeyError row in
    if existsb (String.eqb l) na_values then Err ValueError
    else Ok (mk_layer i e l t d (match p with Some q => Some (parse (Q2R q)) | None => None end)).
  Definition read_strat (text : string) : result (list layer) :=
    let* rows := csv_rows text in
    match rows with
    | [] => Err ValueError
    | head :: body => mapM (read_layer head) body
    end.

  (** plotting.py:98-111: the table of one column of a figure; [None] if there is no file. *)
  Definition read_from (s : fs) (out_path run : string) (seed : Z) (coldtrap : string)
    : result (option (list layer)) :=
    let* p := strat_file out_path run seed coldtrap in
    match files s p with
    | None => Ok None
    | Some text => let* table := read_strat text in Ok (Some table)
    end.
End Read.
