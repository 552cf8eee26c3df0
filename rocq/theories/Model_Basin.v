(** The figure of ice from basins: /repo/notebooks/figure_scripts/plot_figs.py:1149-1199
    [basin_ice], down to the numbers that are drawn. *)
From Coq Require Import String List ZArith Reals Bool.
From Verif Require Import Base Model_Time Model_Crater Model_Ice Model_Rng Model_Strat Model_Main Model_Module Model_Shown.
Import ListNotations.
Open Scope R_scope.

(** plot_figs.py:1156-1158 [moving_avg], with [np.convolve(x, np.ones(w), 'same')]: the numbers
    of the window around each position, of which there are fewer at both ends. *)
Definition moving_avg (x : list R) (w : nat) : list R :=
  map (fun j => let e := (j + (w - 1) / 2)%nat in
    Rsum (map (fun i => nth i x 0) (filter (fun i => Nat.leb i e && Nat.ltb e (i + w)) (seq 0 (length x)))) / INR w)
    (seq 0 (length x)).

(** What is drawn for a kind of impactor: the ice of each run at each time, and two lines. *)
Record drawing := mk_drawing { dr_kind : string; dr_x : list R; dr_points : list (list R); dr_mean : list R; dr_pct : list R }.

Section Basin.
  (** [c] is the configuration that is given, [d] the one of the module moonpies. *)
  Variables (c d : rcfg) (ppf : ppf_fun) (sort : list (crater info) -> list (crater info)) (craters basins : list raw).
  (** The functions that are called are given no generator: each makes one by
      [np.random.default_rng(None)], with fresh random numbers.  [entropy] are those of the
      generators one after the other.  (An unused seed is put into the configuration.) *)
  Variable entropy : nat -> tape.

  (** moonpies.py:230-260 [get_crater_basin_list(cfg)] without a generator: one is made at
      line 1995 for the impactors of the basins and one at line 1944 for the ages. *)
  Definition fresh_list (k : nat) : result (list (crater info)) :=
    let df_craters := map (read_row false "no") craters in
    let* (icy, _) := random_icy_basins (r_i c) (length basins) (entropy k) 0%nat in
    let df_basins := map (fun '(w, i) => read_row true i w) (combine basins icy) in
    let df := df_craters ++ df_basins in
    let* (us, _) := draw_ages ppf df (entropy (S k)) 0%nat in
    Ok (randomize_crater_ages sort (IZR (r_step c)) df us).

  (** plot_figs.py:1171-1179: one run. *)
  Definition run_ice (comet : bool) (time : list R) (k : nat) : result (list R) :=
    let* df := fresh_list (3 * k) in
    let cc := if comet then comet_run c else c in
    let* (b, _) := get_basin_ice (r_i cc) ppf (r_tol cc) (map impact_of df) time (entropy (3 * k + 2)) 0%nat in
    Ok b.

  (** plot_figs.py:1166-1186: both kinds; the window is 3, the percentile 99.7.  Fewer than
      three times give lines of other lengths than the axis.  No run at all is left out. *)
  Definition drawing_of (n : nat) (time : list R) (comet : bool) : result drawing :=
    let* cols := mapM (run_ice comet time) (seq (if comet then n else 0) n) in
    let rows := map (fun j => map (fun b => nth j b 0) cols) (seq 0 (length time)) in
    if Nat.ltb (length time) 3 then Err ValueError else
    let means := map (fun r => Rsum r / INR n) rows in
    let pcts := map (fun r => match quantile (997 / 1000) r with Some v => v | None => 0 end) rows in
    Ok (mk_drawing (if comet then "Comet" else "Asteroid")%string (map (fun t => t / 1000000000) time) cols
          (moving_avg means 3) (moving_avg pcts 3)).
  Definition basin_ice (n : nat) : result (list drawing) :=
    let* time := get_time_array (r_rnd d) (r_start d) (r_end d) (r_step d) in
    mapM (drawing_of n time) [false; true].
End Basin.
