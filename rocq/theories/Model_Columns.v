(** The figures of columns that compare runs and seeds:
    /repo/notebooks/figure_scripts/plot_figs.py.  Definitions only. *)
From Coq Require Import String List ZArith Reals Bool.
From Verif Require Import Base Model_Time Model_Path Model_Strat Model_Plot Model_Figure.
Import ListNotations.
Open Scope R_scope.
Open Scope list_scope.

(** The axes of the figure: the colour bar; an axis of a run; the axis that plot_strat
    lays over one on which it draws a column (plotting.py:191 [ax.twinx()]). *)
Inductive axis := Bar | Column (run i : nat) | Twin (run i : nat).

(** plotting.py:93, 99, 191: [fig.axes] is in the order of creation.  Columns are drawn
    from left to right. *)
Definition twins (axs : list (option (list grow))) : list nat :=
  map fst (filter (fun '(_, c) => match c with Some _ => true | None => false end) (enum axs)).
Definition run_axes (row : nat * (list (option (list grow)) * R)) : list axis :=
  let '(r, (axs, _)) := row in map (Column r) (seq 0 (length axs)) ++ map (Twin r) (twins axs).
Definition fig_axes (rows : list (list (option (list grow)) * R)) : list axis :=
  Bar :: flat_map run_axes (enum rows).

(** The row of the grid: axes have their lower edge at the same height exactly if they are
    in the same row.  The colour bar is in the last row. *)
Definition grid_row (nruns : nat) (a : axis) : nat :=
  match a with Bar => nruns | Column r _ => r | Twin r _ => r end.

(** What is modelled of the figures: which axes bear the letters and the version, and the
    saved percentages. *)
Record columns_fig := mk_columns {
  letters : list (string * axis); version_on : axis; percents_of : list (key * list (option R)) }.

Section Columns.
  (** The parameters of plot_figure. *)
  Variable read : string -> Z -> string -> option (list layer).
  Variable by_depth : list layer -> list layer.
  Variable by_diam : list (string * R) -> list (string * R).
  Variable hash : string -> Z.
  Variable cdf : list (string * R).

  (** plot_figs.py:763-786 [strat_cols_seeds].  The file of a run's configuration exists;
      texts other than the letters, sizes and the saved picture are left out. *)
  Definition strat_cols_seeds (min_thick : R) (runs : list string) (seeds : list Z) (corder : list string)
    : result columns_fig :=
    let* (rows, pct) := plot_figure read by_depth by_diam hash cdf min_thick runs seeds corder in
    let axes := fig_axes rows in
    let* a := get axes 1 in
    let* b := get axes 5 in
    let* c := get axes 9 in
    Ok (mk_columns [("A", a); ("B", b); ("C", c)]%string (last axes Bar) pct).

  (** plot_figs.py:738-760 [strat_cols_bsed]: [None] is the StopIteration of [next] if no
      axis is in another row than the first.  Left out as in strat_cols_seeds. *)
  Definition strat_cols_bsed (min_thick : R) (runs : list string) (seed : Z) (corder : list string)
    : result (option columns_fig) :=
    let* (rows, pct) := plot_figure read by_depth by_diam hash cdf min_thick runs [seed] corder in
    let axes := fig_axes rows in
    let row := grid_row (length runs) in
    let* a := get axes 1 in
    Ok (match find (fun x => negb (Nat.eqb (row x) (row a))) (skipn 2 axes) with
        | None => None
        | Some b => Some (mk_columns [("A", a); ("B", b)]%string (last axes Bar) pct)
        end).

  (** plotting.py:165-167 with [pd.read_csv(…, header=[0, 1, 2])]: the columns of the file
      as they are read, in the order of the dict, with a cell for each row of the longest;
      missing cells are NaN.  Seeds become texts.  A file without columns is a ValueError.
      Runs and cold traps are names that are not empty; the text of a float is read back. *)
  Definition str_int (z : Z) : string :=
    if (z <? 0)%Z then ("-" ++ digits 0 (Z.to_N (- z)))%string else digits 0 (Z.to_N z).
  Definition head := (string * string * string)%type.
  Definition longest (pct : list (key * list (option R))) : nat := List.list_max (map (fun kv => length (snd kv)) pct).
  Definition fill (n : nat) (v : list (option R)) : list (option R) := v ++ repeat None (n - length v).
  Definition read_icepct (pct : list (key * list (option R))) : result (list (head * list (option R))) :=
    match pct with
    | [] => Err ValueError
    | _ => Ok (map (fun '((run, seed, ct), v) => ((run, str_int seed, ct), fill (longest pct) v)) pct)
    end.

  (** [DataFrame.round(2)]. *)
  Definition round2 (x : R) : R := IZR (rint (x * 100)) / 100.

  (** plot_figs.py:1213-1220 [ice_pct_fig7]; the number of digits that are printed and the
      shades are left out. *)
  Definition ice_pct_fig7 : result (list (head * list (option R))) :=
    let* f := strat_cols_seeds 5 ["moonpies"]%string [13; 8; 1]%Z ["Faustini"; "Haworth"; "Cabeus"]%string in
    let* df := read_icepct (percents_of f) in
    Ok (map (fun '(k, v) => (k, map (option_map round2) v)) df).

  (** [df[run][seed]] of columns with three levels: KeyError if there is none. *)
  Definition part (run seed : string) (df : list (head * list (option R))) : result (list (string * list (option R))) :=
    match filter (fun '((r, s, _), _) => String.eqb r run && String.eqb s seed) df with
    | [] => Err KeyError
    | cols => Ok (map (fun '((_, _, ct), v) => (ct, v)) cols)
    end.

  (** plot_figs.py:21-23. *)
  Definition CORDER : list string :=
    ["Faustini"; "Haworth"; "Shoemaker"; "Cabeus B"; "Idel'son L"; "Amundsen"; "Cabeus"; "de Gerlache";
     "Slater"; "Sverdrup"; "Wiechert J"; "Shackleton"]%string.

  (** plot_figs.py:1222-1232 [ice_pct_fig8]; left out as in ice_pct_fig7.  There is no
      StopIteration with two runs. *)
  Definition ice_pct_fig8 : result (option (list (string * list (option R)) * list (string * list (option R)))) :=
    let* f := strat_cols_bsed 5 ["moonpies"; "no_bsed"]%string 7 CORDER in
    match f with
    | None => Ok None
    | Some f =>
      let* df := read_icepct (percents_of f) in
      let shown := map (fun '(ct, v) => (ct, map (option_map round2) v)) in
      let* top := part "moonpies" "7" df in
      let* bot := part "no_bsed" "7" df in
      Ok (Some (shown top, shown bot))
    end.
End Columns.
