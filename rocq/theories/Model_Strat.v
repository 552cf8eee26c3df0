(** Ejecta over time, source labels, stratigraphy tables: /repo/moonpies/moonpies.py. *)
From Coq Require Import String Ascii List ZArith Reals Bool.
From Verif Require Import Base Model_Time Model_Geo Model_Crater Model_Ice Model_Rng.
Import ListNotations.
Open Scope R_scope.

(** ** Text *)

Definition comma : ascii := ",".

(** [s.rstrip(",")]: without the commas at the end. *)
Fixpoint rstrip (s : string) : string :=
  match s with
  | EmptyString => EmptyString
  | String a r =>
    match rstrip r with
    | EmptyString => if Ascii.eqb a comma then EmptyString else String a EmptyString
    | r' => String a r'
    end
  end.

(** [s.strip(",")]: also without the commas at the start. *)
Fixpoint lstrip (s : string) : string :=
  match s with
  | EmptyString => EmptyString
  | String a r => if Ascii.eqb a comma then lstrip r else s
  end.
Definition strip (s : string) : string := lstrip (rstrip s).

(** [s.split(",")]: at least one part. *)
Fixpoint split (s : string) : list string :=
  match s with
  | EmptyString => [EmptyString]
  | String a r =>
    if Ascii.eqb a comma then EmptyString :: split r
    else match split r with
         | [] => [String a EmptyString]
         | p :: ps => String a p :: ps
         end
  end.

(** [",".join(parts)]. *)
Definition join (parts : list string) : string := String.concat "," parts.

(** ** Ejecta thickness and sources over time *)

(** Elementwise operation on two rows of a 2D array. *)
Definition zipw {A B C} (f : A -> B -> C) (a : list A) (b : list B) : list C :=
  map (fun '(x, y) => f x y) (combine a b).

(** moonpies.py:729-730: the text a crater contributes to one cold trap;
    [(cname + ",") * has_ej] is the text once or not at all. *)
Definition src_text (thick_min : R) (cname : string) (thick : R) : string :=
  if Rltb thick_min thick then (cname ++ ",")%string else EmptyString.

(** moonpies.py:696-733 [get_ejecta_thickness_time]: thickness and sources, one row per
    time and one entry per cold trap ([ncol] of them).  [np.nansum] is the sum, as
    get_ejecta_thickness returns no NaN (lines 555-559); [np.sum] of strings is
    concatenation.  The float rounding of the sums is left out. *)
Definition get_ejecta_thickness_time (c : ccfg) (thick_min tol : R) (ncol : nat) (time : list R)
  (df : list site) (dists : list (list (option R)))
  : result (list (list R) * list (list string)) :=
  let thick := get_ejecta_thickness_matrix c (map s_rad df) dists in
  let ages := map s_age df in
  let* ej := ages2time (zipw Rplus) (repeat 0 ncol) tol time (combine ages thick) in
  let srcs := map (fun '(s, row) => map (src_text thick_min (s_name s)) row) (combine df thick) in
  let* src := ages2time (zipw String.append) (repeat EmptyString ncol) tol time
                        (combine ages srcs) in
  Ok (ej, map (map rstrip) src).

(** ** Stratigraphy tables *)

(** A row of the DataFrame of make_strat_col; a missing label is [None]. *)
Record row := mk_row { r_time : R; r_ice : R; r_ej : R; r_label : option string }.

(** moonpies.py:2565-2568, the label of one time step. *)
Definition row_label (thick_min ice ej : R) (src : string) : option string :=
  let label := None in
  let label := if Rltb thick_min ice then Some "Ice"%string else label in
  let label := if Rltb thick_min ej then Some src else label in
  match label with
  | Some EmptyString => Some "Minor source(s)"%string
  | l => l
  end.

(** A layer of the final table; [l_icepct] is [None] for NaN. *)
Record layer := mk_layer {
  l_ice : R; l_ej : R; l_label : string; l_time : R; l_depth : R; l_icepct : option R }.

(** moonpies.py:2600 [(label != label.shift()).cumsum()]: the number of the run of
    equal labels each row belongs to; [prev] is the label of the row before. *)
Fixpoint run_ids (prev : option string) (k : nat) (labels : list string) : list nat :=
  match labels with
  | [] => []
  | l :: r =>
    let same := match prev with Some p => String.eqb p l | None => false end in
    let k' := if same then k else S k in
    k' :: run_ids (Some l) k' r
  end.

(** [groupby([label, id], sort=False)]: the rows of each (label, id), groups in order
    of first appearance and rows in table order. *)
Definition key_eqb (a b : string * nat) : bool :=
  String.eqb (fst a) (fst b) && Nat.eqb (snd a) (snd b).
Fixpoint add_to_group {A} (k : string * nat) (x : A) (gs : list ((string * nat) * list A))
  : list ((string * nat) * list A) :=
  match gs with
  | [] => [(k, [x])]
  | (k', l) :: r => if key_eqb k k' then (k', l ++ [x]) :: r else (k', l) :: add_to_group k x r
  end.
Definition groupby {A} (keyed : list ((string * nat) * A)) : list ((string * nat) * list A) :=
  fold_left (fun gs kx => add_to_group (fst kx) (snd kx) gs) keyed [].

(** moonpies.py:2598-2603 [merge_adjacent_strata] with the default aggregation: sum of
    ice and ejecta, last label and time; a row is (ice, ejecta, label, time).  The rows
    have a label (line 2585 has dropped the others).  Sums are exact. *)
Definition merge_adjacent_strata (rows : list (R * R * string * R)) : list (R * R * string * R) :=
  let labels := map (fun '(_, _, l, _) => l) rows in
  let keyed := combine (combine labels (run_ids None 0 labels)) rows in
  map (fun '(k, g) =>
         (Rsum (map (fun '(i, _, _, _) => i) g), Rsum (map (fun '(_, e, _, _) => e) g),
          last (map (fun '(_, _, l, _) => l) g) (fst k),
          last (map (fun '(_, _, _, t) => t) g) 0))
      (groupby keyed).

(** moonpies.py:2591 [np.cumsum(x[::-1])[::-1]]. *)
Definition rev_cumsum (l : list R) : list R := rev (cumsum (rev l)).

(** [np.round(x, 4)]. *)
Definition round4 (x : R) : R := IZR (rint (x * 10000)) / 10000.

(** moonpies.py:2594; [0 / 0] is NaN.  For [ice + ejecta = 0] with [ice <> 0] numpy
    gives an infinity; no layer has that, as both are non-negative. *)
Definition icepct (ice ej : R) : option R :=
  if Reqb (ice + ej) 0 then None else Some (round4 (100 * ice / (ice + ej))).

(** moonpies.py:2565-2582: the labelled rows.  [after_age] is cfg.strat_after_age.  [rnd]
    is the conversion of the data to the precision of the time array (line 2573).
    IndexError comes from [sdf.iloc[0]] on an empty table. *)
Definition strat_rows (rnd : R -> R) (thick_min tol : R) (after_age : bool) (age : R)
  (steps : list (R * R * R * string)) : result (list row) :=
  let sdf := map (fun '(t, i, e, s) => mk_row (rnd t) (rnd i) (rnd e) (row_label thick_min i e s))
                 steps in
  if after_age then
    let sdf := filter (fun r => Rltb (r_time r) (age + rtol age tol)) sdf in
    match sdf with
    | [] => Err IndexError
    | r :: _ => Ok (mk_row (r_time r) 0 0 (Some "Formation age"%string) :: sdf)
    end
  else Ok sdf.

(** moonpies.py:2585 [dropna(subset=["label"])]. *)
Definition dropna (rows : list row) : list (R * R * string * R) :=
  flat_map (fun r => match r_label r with
                     | Some l => [(r_ice r, r_ej r, l, r_time r)]
                     | None => []
                     end) rows.

(** moonpies.py:2546-2595 [make_strat_col]; a step is (time, ice, ejecta, sources). *)
Definition make_strat_col (rnd : R -> R) (thick_min tol : R) (after_age : bool) (age : R)
  (steps : list (R * R * R * string)) : result (list layer) :=
  let* sdf := strat_rows rnd thick_min tol after_age age steps in
  let strat := merge_adjacent_strata (dropna sdf) in
  let depth := rev_cumsum (map (fun '(i, e, _, _) => i + e) strat) in
  Ok (map (fun '((i, e, l, t), d) => mk_layer i e l t d (icepct i e)) (combine strat depth)).

(** ** Labels of all cold traps *)

(** moonpies.py:2641-2648 [get_all_labels].  [iter] lists the elements of the set
    [set(parts)] in the interpreter's iteration order. *)
Definition get_all_labels (iter : list string -> list string) (label_array : list (list string))
  : list string :=
  map (fun label_col =>
         let all_labels_str := join label_col in
         let unique_labels := iter (split all_labels_str) in
         strip (join unique_labels))
      label_array.
