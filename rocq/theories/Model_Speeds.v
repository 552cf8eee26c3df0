(** The figure of impact speeds: /repo/notebooks/figure_scripts/plot_figs.py.  Definitions
    only. *)
From Coq Require Import String List ZArith Reals Bool.
From Verif Require Import Base Model_Time Model_Interp Model_Ice Model_Rng Model_Ages Model_Volatile.
Import ListNotations.
Open Scope R_scope.

(** [np.histogram(x, edges, density=True)] as bars from edge to edge: the count over the
    width and over the number of all that are counted; 0/0 is NaN.  The edges increase. *)
Definition bars (es : list R) (x : list R) : list (R * R * option R) :=
  let counts := hist es x in
  let total := list_sum counts in
  map (fun '((a, b), n) => (a, b, if Nat.eqb total 0 then None else Some (INR n / (b - a) / INR total)))
      (combine (combine es (tl es)) counts).

(** [ax.hist(x, bins=n, density=True)]: even bins from the least to the greatest number;
    numpy widens a range of no width by a half on both sides. *)
Definition bars_own (n : nat) (x : list R) : result (list (R * R * option R)) :=
  let* lo := least x in
  let* hi := greatest x in
  Ok (if Reqb lo hi then bars (linspace (lo - 1 / 2) (hi + 1 / 2) (S n)) x else bars (linspace lo hi (S n)) x).

Section Speeds.
  (** Density, distribution and survival function of the standard normal distribution
      truncated to [[a, b]], with no upper limit for [None]; and the inverse distribution
      function. *)
  Variables pdf cdf sf : R -> option R -> R -> R.
  Variable ppf : ppf_fun.

  (** moonpies.py:2027-2035 [asteroid_speed_rv]: its density at [x]; [loc] and [scale] of
      scipy. *)
  Definition asteroid_pdf (c : icfg) (x : R) : R :=
    let a := (escape_vel c - impact_speed_mean c) / impact_speed_sd c in
    pdf a None ((x - impact_speed_mean c) / impact_speed_sd c) / impact_speed_sd c.

  (** moonpies.py:2038-2051 [comet_speed_rv] and 2891-2905: a weighted sum of a function of
      the two submodels at [x]. *)
  Definition submodels (c : icfg) (f : R -> option R -> R -> R) (x : R) : list R :=
    let at_ mean sd := f (- comet_speed_min c / sd) (Some (comet_speed_max c / sd)) ((x - mean) / sd) in
    [at_ (jfc_mean c) (jfc_sd c); at_ (lpc_mean c) (lpc_sd c)].
  Definition sub_pdfs (c : icfg) (x : R) : list R :=
    match submodels c pdf x with [j; l] => [j / jfc_sd c; l / lpc_sd c] | l => l end.

  (** The curves as points, the bars of both panels. *)
  Record speeds_fig := mk_speeds {
    f_apdf : list (R * R); f_cpdf : list (R * R);
    f_abars : list (R * R * option R); f_cbars : list (R * R * option R);
    f_sf : list (R * R); f_cdf : list (R * R); f_own : list (R * R * option R) }.

  (** plot_figs.py:1049-1107 [ast_comet_vels].  The density of the second panel is that of
      comets in the first.  Colours, labels, ticks and the saved picture are left out. *)
  Definition ast_comet_vels (c : icfg) : rand speeds_fig :=
    let cc := get_comet_cfg c in
    let n := Z.to_nat 100000 in
    do w <- lift (mixture_weights 2 (Some [jfc_frac cc; lpc_frac cc]));
    let x := linspace 0 (comet_speed_max c) (Z.to_nat 10000) in
    let curve f := map (fun v => (v, f v)) x in
    do aspeeds <- get_random_impactor_speeds c ppf n;
    do cspeeds <- get_random_impactor_speeds cc ppf n;
    let es := linspace 0 (comet_speed_max c) 40 in
    do own <- lift (bars_own 40 cspeeds);
    ret (mk_speeds (curve (asteroid_pdf c)) (curve (fun v => weighted_sum w (sub_pdfs cc v)))
           (bars es aspeeds) (bars es cspeeds)
           (curve (fun v => weighted_sum w (submodels cc sf v))) (curve (fun v => weighted_sum w (submodels cc cdf v))) own).
End Speeds.
