(** Ice by source over time: /repo/notebooks/figure_scripts/plot_figs.py:1282-1321
    [plot_by_module_time], down to the numbers that are drawn. *)
From Coq Require Import String List ZArith Reals Bool.
From Verif Require Import Base Model_Time Model_Crater Model_Rng Model_Strat Model_Main Model_Module.
Import ListNotations.
Open Scope R_scope.

(** [pd.cut(x, bins=n)]: [n] bins of equal width from the least to the largest number; the
    first is wider to the left by 0.1 % of the range.  If all numbers are the same, the range
    is widened by 0.1 % (or by 0.001) on both sides first.  The numbers of the edges are those
    of [np.linspace]. *)
Definition cut_range (lo hi : R) : R * R * R :=
  if Reqb lo hi then
    let d := if Reqb lo 0 then 1 / 1000 else 1 / 1000 * Rabs lo in (lo - d, hi + d, 0)
  else (lo, hi, (hi - lo) / 1000).
Definition cut_bins (n : nat) (lo hi : R) : list (R * R) :=
  let '(lo, hi, adj) := cut_range lo hi in
  let edges := match linspace lo hi (S n) with [] => [] | e :: r => (e - adj) :: r end in
  combine edges (tl edges).

(** plot_figs.py:1288-1290: the columns of the two panels with their index, the mean time of
    each bin and the time of each step.  The number of bins is 85, whatever [bins] is.
    (Without seeds all times are NaN; this case is left out.) *)
Definition frame_of := (col * list (string * col))%type.
Definition grouped (t : mtable) (bins : nat) : result frame_of :=
  let* time := tcol t "time" in
  match numbers time with
  | [] => Err ValueError
  | x :: r =>
    let means c := map (fun b => agg_mean (in_era b time c)) (cut_bins 85 (list_min x r) (list_max x r)) in
    Ok (means time, map (fun '(n, c) => (n, means c)) (filter (fun e => negb (String.eqb (fst e) "time")) t))
  end.
(** [cumsum]: NaN stays and is skipped. *)
Fixpoint cumsum (acc : R) (l : col) : col :=
  match l with
  | [] => []
  | Some x :: r => Some (acc + x) :: cumsum (acc + x) r
  | None :: r => None :: cumsum acc r
  end.
Definition cumulated (t : mtable) : result frame_of :=
  let* time := tcol t "time" in
  Ok (time, map (fun '(n, c) => (n, cumsum 0 c)) (filter (fun e => negb (String.eqb (fst e) "time")) t)).

(** plot_figs.py:1296-1303: a shade or a line, its label and its points.  (Each point of a
    shade is repeated, which does not show.) *)
Record curve := mk_curve { cv_shade : bool; cv_label : string; cv_points : list (option R * option R) }.
Definition curves (f : frame_of) : result (list curve) :=
  let (x, cols) := f in
  let* shades := mapM (fun k => let* y := tcol cols k in Ok (mk_curve true (append "Max " k) (combine x y))) loss_keys in
  let lines := filter (fun e => negb (existsb (String.eqb (fst e)) loss_keys)) cols in
  Ok (shades ++ map (fun '(n, y) => mk_curve false n (combine x y)) lines).
Definition plot_by_module_time (c : rcfg) (ppf : ppf_fun) (sort : list (crater info) -> list (crater info))
  (craters basins : list raw) (stream : Z -> tape) (unseeded : tape) (seeds : list Z) (bins : nat)
  : result (list curve * list curve) :=
  let* t := get_ice_ast_comet_seeds c ppf sort craters basins stream unseeded seeds in
  let* g := grouped t bins in
  let* u := cumulated t in
  let* a := curves g in
  let* b := curves u in
  Ok (a, b).
