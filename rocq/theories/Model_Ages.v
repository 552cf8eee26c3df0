(** The figures of ages: /repo/notebooks/figure_scripts/plot_figs.py:128-198
    [crater_basin_ages] and 671-735 [random_crater_ages], down to the numbers that are drawn. *)
From Coq Require Import String List ZArith Reals Bool.
From Verif Require Import Base Model_Time Model_Geo Model_Crater Model_Ice Model_Rng Model_Main Model_Basin.
Import ListNotations.
Open Scope R_scope.

(** ** Ages of craters and basins *)

(** A point with its error bar, in Ga. *)
Record bar := mk_bar { b_name : string; b_age : R; b_low : R; b_upp : R }.

(** [df.sort_values(['age', 'age_upp'])]: by age, then by the upper error; with several keys
    pandas keeps the order of equal rows. *)
Definition bar_leb (a b : bar) : bool := Rltb (b_age a) (b_age b) || (Reqb (b_age a) (b_age b) && Rleb (b_upp a) (b_upp b)).
Fixpoint insert_bar (a : bar) (l : list bar) : list bar :=
  match l with [] => [a] | b :: r => if bar_leb a b then a :: l else b :: insert_bar a r end.
Definition sort_bars (l : list bar) : list bar := fold_right insert_bar [] l.

Section Bars.
  Variables (c : rcfg).

  (** plot_figs.py:143-146: the name of a basin that throws ejecta onto a cold trap gets a star.
      [max()] of no cold traps is a ValueError, for craters too. *)
  Definition star_name (r : crater info) (thick : list R) : result string :=
    match thick with
    | [] => Err ValueError
    | _ => Ok (if existsb (Rltb 0) thick && d_basin (c_rest r) then append "*" (d_name (c_rest r)) else d_name (c_rest r))
    end.

  (** plot_figs.py:151-152: [db.loc[name, "age"]] (a name that occurs twice is left out). *)
  Definition basin_age (db : list bar) (name : string) : result R :=
    match find (fun b => String.eqb (b_name b) name) db with Some b => Ok (b_age b) | None => Err KeyError end.

  (** plot_figs.py:139-178: periods with both ends, then craters and basins from below.  Ages
      and errors are divided by 1e9 first here. *)
  Definition crater_basin_bars (df : list (crater info)) : result (list (string * (R * R)) * list bar * list bar) :=
    let sites := map site_of df in
    let* dists := get_coldtrap_dists (r_ejthr c) (r_basinthr c) (r_names c) sites in
    let thick := get_ejecta_thickness_matrix (crat (r_i c)) (map s_rad sites) dists in
    let* names := mapM (fun '(r, t) => star_name r t) (combine df thick) in
    let rows := map (fun '(r, n) => (d_basin (c_rest r), mk_bar n (c_age r / 1000000000) (c_low r / 1000000000) (c_upp r / 1000000000))) (combine df names) in
    let dc := map snd (filter (fun p => negb (fst p)) rows) in
    let db := map snd (filter fst rows) in
    let* nec := basin_age db "*Nectaris" in
    let* imb := basin_age db "Imbrium" in
    Ok ([("pNe.", (45 / 10, nec)); ("Ne.", (nec, imb)); ("Im.", (imb, 32 / 10)); ("Era.", (32 / 10, 11 / 10))]%string, sort_bars dc, sort_bars db).

  (** The list of craters and basins is made without a generator (as in Model_Basin). *)
  Definition crater_basin_ages (ppf : ppf_fun) (sort : list (crater info) -> list (crater info)) (craters basins : list raw) (entropy : nat -> tape)
    : result (list (string * (R * R)) * list bar * list bar) :=
    let* df := fresh_list c ppf sort craters basins entropy 0 in
    crater_basin_bars df.
End Bars.

(** ** Random ages *)

(** plot_figs.py:685 and 722 [np.arange(159.5, 420.5) / 100]: 261 edges. *)
Definition edges : list R := map (fun k => (1595 / 10 + INR k) / 100) (seq 0 261).
(** [ax.hist(x, bins)]: how many numbers are in each bin; the last one has its right edge. *)
Fixpoint hist (es : list R) (x : list R) : list nat :=
  match es with
  | a :: ((b :: r) as tl_) =>
    let last := match r with [] => true | _ => false end in
    length (filter (fun y => Rleb a y && (Rltb y b || (last && Rleb y b))) x) :: hist tl_ x
  | _ => []
  end.

Section Random.
  Variables (c : rcfg) (ppf : ppf_fun) (sort : list (crater info) -> list (crater info)) (craters : list raw).
  (** The random numbers of a seed, and the seed that is drawn in place of 0
      (config.py:369-377 [_get_random_seed]). *)
  Variables (stream : Z -> tape) (drawn : Z).
  (** Which random number an entry of a two-dimensional sample has: by rows or by columns,
      as the version of SciPy has it. *)
  Variable order : nat -> nat -> nat.

  Definition crater_rows : list (crater info) := map (read_row false "no") craters.
  (** plot_figs.py:687-693: a row of ages, in Ga and in the order of the list.  A name that
      occurs twice gives too many ages for the row. *)
  Definition seed_ages (seed : Z) : result (list R) :=
    let* (us, _) := draw_ages ppf crater_rows (stream (if (seed =? 0)%Z then drawn else seed)) 0%nat in
    let rnd := randomize_crater_ages sort (IZR (r_step c)) crater_rows us in
    let found := concat (map (fun w => filter (fun r => String.eqb (d_name (c_rest r)) (w_name w)) rnd) craters) in
    if Nat.eqb (length found) (length craters) then Ok (map (fun r => c_age r / 1000000000) found) else Err ValueError.
  (** plot_figs.py:681-702: the counts of each crater for the seeds from 0 to 99. *)
  Definition column_of (ages : list (list R)) (j : nat) : list R := map (fun row => nth j row 0) ages.
  Definition top_panel (nseed : nat) : result (list (string * list nat)) :=
    let* ages := mapM seed_ages (map Z.of_nat (seq 0 nseed)) in
    Ok (map (fun '(j, w) => (w_name w, hist edges (column_of ages j))) (combine (seq 0 (length craters)) craters)).

  (** plot_figs.py:713-727: all ages at once, with the generator of the last
      configuration of the loop above; [n] is 1e5.  The inset has those below 3 Ga. *)
  Definition all_ages (nseed n : nat) : list (list R) :=
    map (fun i => map (fun '(j, r) => new_age (IZR (r_step c)) r
           (ppf (trunc_a r) (Some (trunc_b r)) (stream (Z.of_nat (nseed - 1)) (order i j))) / 1000000000)
         (combine (seq 0 (length craters)) crater_rows)) (seq 0 n).
  Definition bottom_panel (nseed n : nat) : list (list nat * option (list nat)) :=
    map (fun j => let x := column_of (all_ages nseed n) j in
      (hist edges x, if existsb (fun y => Rltb y 3) x then Some (hist edges (filter (fun y => Rltb y 3) x)) else None))
      (seq 0 (length craters)).
  (** The counts of both panels (plot_figs.py:683 and 712). *)
  Definition random_crater_ages : result (list (string * list nat) * list (list nat * option (list nat))) :=
    let* top := top_panel 100 in
    Ok (top, bottom_panel 100 (100 * 1000)).
End Random.
