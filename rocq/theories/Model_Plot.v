(** What is done with the stratigraphy tables after a run: the columns that are plotted
    (/repo/moonpies/plotting.py) and the Monte Carlo totals
    (/repo/notebooks/figure_scripts/aggregate.py). *)
From Coq Require Import String Ascii List ZArith Reals Bool.
From Verif Require Import Base Model_Time Model_Strat.
Import ListNotations.
Open Scope R_scope.

(** A stratigraphy table is a list of [layer]s, oldest and deepest first, as
    make_strat_col builds it and save_outputs writes it; reading the csv file gives the
    numbers and labels that were written. *)

(** ** plotting.py: the cleaned-up column *)

(** A row while the labels are changed; a missing label is [None]. *)
Record prow := mk_prow {
  p_ice : R; p_ej : R; p_label : option string; p_time : R; p_depth : R }.

(** moonpies.py:2600 [(label != label.shift()).cumsum()]; a missing label differs from
    every label, also from a missing one. *)
Fixpoint prun_ids (prev : option string) (k : nat) (labels : list (option string)) : list nat :=
  match labels with
  | [] => []
  | l :: r =>
    let same := match prev, l with Some p, Some l => String.eqb p l | _, _ => false end in
    let k' := if same then k else S k in
    k' :: prun_ids l k' r
  end.

(** moonpies.py:2598-2603 [merge_adjacent_strata] with the aggregation of
    plotting.py:257-258: sums of ice and ejecta, the last label, time and depth.
    [groupby] leaves out the rows whose label is missing. *)
Definition merge_strata (rows : list prow) : list prow :=
  let ids := prun_ids None 0 (map p_label rows) in
  let keyed := flat_map (fun '(k, r) => match p_label r with
                                        | Some l => [((l, k), r)]
                                        | None => []
                                        end) (combine ids rows) in
  map (fun '(_, g) => mk_prow (Rsum (map p_ice g)) (Rsum (map p_ej g)) (last (map p_label g) None)
                              (last (map p_time g) 0) (last (map p_depth g) 0))
      (groupby keyed).

(** plotting.py:259 [-np.diff(np.r_[strat.depth, 0])]. *)
Definition thicknesses (depth : list R) : list R :=
  map (fun '(a, b) => - (b - a)) (combine depth (skipn 1 (depth ++ [0]))).

Definition is_other (r : prow) : bool :=
  match p_label r with Some l => String.eqb l "Other" | None => false end.

(** [l.extend(m)] changes [l] and returns None. *)
Definition list_extend (l m : list (option string)) : option (list (option string)) := None.

(** plotting.py:272 [strat.loc[strat.label == 'Other', 'label'] = newlabel]: None makes
    the labels missing, a list is assigned entry by entry (pandas wants the lengths to
    agree: ValueError). *)
Fixpoint set_labels (newlabel : list (option string)) (rows : list prow) : result (list prow) :=
  match rows, newlabel with
  | [], [] => Ok []
  | [], _ :: _ => Err ValueError
  | r :: rest, _ =>
    if is_other r then
      match newlabel with
      | [] => Err ValueError
      | l :: ls => let* rest := set_labels ls rest in
                   Ok (mk_prow (p_ice r) (p_ej r) l (p_time r) (p_depth r) :: rest)
      end
    else let* rest := set_labels newlabel rest in Ok (r :: rest)
  end.
Definition assign_labels (newlabel : option (list (option string))) (rows : list prow)
  : result (list prow) :=
  match newlabel with
  | None => Ok (map (fun r => if is_other r then mk_prow (p_ice r) (p_ej r) None (p_time r) (p_depth r)
                              else r) rows)
  | Some l => set_labels l rows
  end.

(** plotting.py:276; [0 / 0] is NaN. *)
Definition pct (ice ej : R) : option R :=
  if Reqb (ice + ej) 0 then None else Some (100 * ice / (ice + ej)).

(** plotting.py:250-277 [clean_up_strat_col].  The merged table has the index 0, 1, ...;
    [strat.loc[1]] is a KeyError when it has one row only.  The label column of the last
    table has no missing entry, as [merge_strata] has left such rows out; [""] is not
    used. *)
Definition clean_up_strat_col (min_thick : R) (strat : list layer) : result (list layer) :=
  match strat with
  | [] => Ok []
  | _ =>
    let thick := thicknesses (map l_depth strat) in
    let rows := map (fun '(l, t) =>
                       mk_prow (l_ice l) (l_ej l)
                               (Some (if Rltb t min_thick then "Other"%string else l_label l))
                               (l_time l) (l_depth l)) (combine strat thick) in
    let rows := merge_strata rows in
    let others := filter (fun '(_, r) => is_other r) (combine (seq 0 (length rows)) rows) in
    let* first := get rows 0 in
    let* (others, newlabel) :=
      if is_other first then
        match get rows 1 with
        | Ok r => Ok (filter (fun '(i, _) => negb (Nat.eqb i 0)) others, [p_label r])
        | Err _ => Err KeyError
        end
      else Ok (others, []) in
    let* below := mapM (fun '(i, _) => let* r := get rows (i - 1) in Ok (p_label r)) others in
    let newlabel := list_extend newlabel below in
    let* rows := assign_labels newlabel rows in
    let rows := merge_strata rows in
    Ok (map (fun r => mk_layer (p_ice r) (p_ej r)
                               (match p_label r with Some l => l | None => EmptyString end)
                               (p_time r) (p_depth r) (pct (p_ice r) (p_ej r))) rows)
  end.

(** plotting.py:108-114: the table that is cleaned up is the file's without the rows
    labelled "Formation age"; [formation_row.iloc[0]] is an IndexError if there is none.
    The result is the formation age and the column. *)
Definition plot_column (min_thick : R) (table : list layer) : result (R * list layer) :=
  let formation := filter (fun l => String.eqb (l_label l) "Formation age") table in
  let* f := get formation 0 in
  let* sdf := clean_up_strat_col min_thick
                (filter (fun l => negb (String.eqb (l_label l) "Formation age")) table) in
  Ok (l_time f, sdf).

(** ** plotting.py: depth ranges and hatches *)

(** plotting.py:14-15: [h * i] for the seven signs and 1 to 5. *)
Definition HATCHES : list string :=
  flat_map (fun h => map (fun i => String.concat "" (repeat h i)) (seq 1 5))
           ["/"; "\"; "|"; "-"; "+"; "x"; "o"]%string.

(** [d[k]] of a dict that is the list of its assignments, the last one valid. *)
Definition dict_get {A} (d : list (string * A)) (k : string) : result A :=
  match find (fun '(k', _) => String.eqb k k') (rev d) with
  | Some (_, v) => Ok v
  | None => Err KeyError
  end.

(** plotting.py:240-247 [get_lith_key]; [hash] is the interpreter's hash of a text, which
    differs from process to process; [%] of a positive number is not negative. *)
Definition get_lith_key (hash : string -> Z) (liths : list string) : list (string * string) :=
  map (fun lith => (lith, nth (Z.to_nat (hash lith mod Z.of_nat (length HATCHES))) HATCHES EmptyString))
      liths ++ [("Ice", ".."); ("Other", "")]%string.

(** [cdf.set_index('cname').loc[liths]]: the rows of each name, in order; KeyError for a
    name without a row.  [cdf] is the list of names and diameters. *)
Definition loc_names (cdf : list (string * R)) (liths : list string) : result (list (string * R)) :=
  let* found := mapM (fun l => match filter (fun '(n, _) => String.eqb n l) cdf with
                               | [] => Err KeyError
                               | rows => Ok rows
                               end) liths in
  Ok (concat found).

(** plotting.py:299-302: the source that stands for a label; [by_diam] is
    [sort_values('diam')]. *)
Definition hatch_label (by_diam : list (string * R) -> list (string * R)) (cdf : list (string * R))
  (label : string) : result string :=
  let liths := split label in
  if Nat.ltb 1 (length liths) then
    let* rows := loc_names cdf liths in
    match rev (by_diam rows) with
    | (n, _) :: _ => Ok n
    | [] => Err IndexError
    end
  else Ok label.

(** A row of the table that is plotted. *)
Record grow := mk_grow { g_layer : layer; g_hatch : string; g_hatchlabel : string }.

Definition with_label (r : layer) (label : string) : layer :=
  mk_layer (l_ice r) (l_ej r) label (l_time r) (l_depth r) (l_icepct r).

(** plotting.py:280-307 [get_strat_col_ranges]; [by_depth] is [sort_values('depth')],
    [by_diam] is [sort_values('diam')].  The label of the row of zeros at the top is
    replaced before it is used.  [savefile] is left out. *)
Definition get_strat_col_ranges (by_depth : list layer -> list layer)
  (by_diam : list (string * R) -> list (string * R)) (hash : string -> Z) (cdf : list (string * R))
  (strat_col : list layer) : result (list grow) :=
  match strat_col with
  | [] => Ok []
  | _ =>
    let strat := by_depth (strat_col ++ strat_col) in
    let strat := mk_layer 0 0 EmptyString 0 0 (Some 0) :: strat in
    let labels := skipn 1 (map l_label strat) ++ [last (map l_label strat) EmptyString] in
    let strat := map (fun '(r, l) => with_label r l) (combine strat labels) in
    let lith_key := get_lith_key hash (flat_map split labels) in
    mapM (fun r =>
            let* label := hatch_label by_diam cdf (l_label r) in
            let* h := dict_get lith_key label in
            Ok (mk_grow r h label)) strat
  end.

(** plotting.py:172-182 [plot_strat]: the colours.  For each row of the table, in order,
    the stretches of the depth axis between neighbouring rows that both have the row's
    hatch are filled with the colour of the row's ice percentage (matplotlib's
    [fill_betweenx] with [where]); a later fill covers an earlier one.  Axes, lines, ticks
    and titles are left out. *)
Definition fills (rows : list grow) : list (R * R * option R) :=
  flat_map (fun r =>
    flat_map (fun '(a, b) =>
      if String.eqb (g_hatch a) (g_hatch r) && String.eqb (g_hatch b) (g_hatch r)
      then [(l_depth (g_layer a), l_depth (g_layer b), l_icepct (g_layer r))] else [])
      (combine rows (skipn 1 rows))) rows.

(** The ice percentage whose colour is visible at depth [y]. *)
Definition visible_at (fs : list (R * R * option R)) (y : R) : option (option R) :=
  match rev (filter (fun '(a, b, _) => Rltb a y && Rltb y b) fs) with
  | (_, _, c) :: _ => Some c
  | [] => None
  end.

(** ** aggregate.py *)

(** [np.searchsorted(a, v, side='right')] of an ascending array: the number of entries up
    to the first that is larger than [v]. *)
Fixpoint searchsorted_right (a : list R) (v : R) : nat :=
  match a with
  | [] => 0
  | x :: r => if Rleb x v then S (searchsorted_right r v) else 0
  end.

(** [a[-i]] *)
Definition from_end {A} (a : list A) (i : nat) : result A := get (rev a) (i - 1).

(** aggregate.py:74-79, one depth. *)
Definition ice_above (ice depth : list R) (dmax : R) : result R :=
  let total := Rsum (map fst (filter (fun '(_, d) => Rleb d dmax) (combine ice depth))) in
  let ind := (searchsorted_right (rev depth) dmax + 1)%nat in
  if Nat.leb ind (length depth) then
    let* d := from_end depth ind in
    let* i := from_end ice ind in
    let doverlap := dmax - (d - i) in
    Ok (total + Rmax 0 doverlap)
  else Ok total.

(** aggregate.py:56-79, one csv file: the ice, depths and times that are added to the
    run's layers, and the column's total ice, largest depth and ice to each depth;
    [None] for a file that is skipped.  [float] of a selection that is not one row is a
    TypeError. *)
Definition agg_csv (depths : list R) (df : list layer)
  : result (option ((list R * list R * list R) * (R * R * list R))) :=
  let* age := match filter (fun l => String.eqb (l_label l) "Formation age") df with
              | [f] => Ok (l_time f)
              | _ => Err TypeError
              end in
  let kept := filter (fun l => Rleb (l_time l) age) df in
  if Nat.eqb (length kept) 0 then Ok None
  else
    let ice := map l_ice kept in
    let depth := map l_depth kept in
    let* tot := mapM (ice_above ice depth) depths in
    Ok (Some ((ice, depth, map l_time df),
              (Rsum ice, fold_right Rmax (hd 0 depth) depth, tot))).

(** aggregate.py:48-84, the files of one run, in the order of [rglob]; the statistics of
    a skipped file stay zero. *)
Definition agg_run (depths : list R) (csvs : list (list layer))
  : result ((list R * list R * list R) * list (R * R * list R)) :=
  let* parts := mapM (agg_csv depths) csvs in
  let layers := flat_map (fun p => match p with Some (l, _) => [l] | None => [] end) parts in
  Ok ((concat (map (fun '(i, _, _) => i) layers),
       concat (map (fun '(_, d, _) => d) layers),
       concat (map (fun '(_, _, t) => t) layers)),
      map (fun p => match p with
                    | Some (_, s) => s
                    | None => (0, 0, repeat 0 (length depths))
                    end) parts).
