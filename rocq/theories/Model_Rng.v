(** Random choices and stochastic ice sources: /repo/moonpies/moonpies.py:230-296,
    866-895, 1558-1640, 1710-1757, 1852-1873, 1924-2051, 2793-2814, 2864-2913.

    One numpy Generator is passed through the whole run, so randomness is a tape
    [u : nat -> R] of uniform draws in [0,1) and a position on it.  Every sampler used
    consumes one uniform per sample: [Generator.random]; [Generator.choice] with
    replacement and probabilities (searches the cumulative probabilities);
    [scipy.stats.truncnorm.rvs] (inverse distribution function of a uniform).  The
    inverse distribution function of the standard truncated normal on [[a, b]] is the
    parameter [ppf a b u] ([b = None]: no upper limit). *)
From Coq Require Import String List ZArith Reals Bool.
From Verif Require Import Base Model_Time Model_Geo Model_Interp Model_Crater Model_Ice.
Import ListNotations.
Open Scope R_scope.

Definition tape := nat -> R.
Definition ppf_fun := R -> option R -> R -> R.

(** A random computation: from a position to a value (or exception) and the next
    position. *)
Definition rand (A : Type) := tape -> nat -> result (A * nat).
Definition ret {A} (a : A) : rand A := fun _ k => Ok (a, k).
Definition lift {A} (r : result A) : rand A := fun _ k => let* a := r in Ok (a, k).
Definition rbind {A B} (m : rand A) (f : A -> rand B) : rand B :=
  fun u k => let* (a, k') := m u k in f a u k'.
Notation "'do' x <- m ; f" := (rbind m (fun x => f))
  (at level 200, x pattern, m at level 100, f at level 200, right associativity).

(** [rng.random(n)]. *)
Definition random (n : nat) : rand (list R) := fun u k => Ok (map u (seq k n), (k + n)%nat).

(** [np.cumsum]. *)
Fixpoint cumsum_from (acc : R) (l : list R) : list R :=
  match l with
  | [] => []
  | x :: r => (acc + x) :: cumsum_from (acc + x) r
  end.
Definition cumsum (l : list R) : list R := cumsum_from 0 l.

(** [cdf.searchsorted(x, side="right")]: number of entries not above [x] (bisection
    finds the same for a sorted array). *)
Definition searchsorted_right (l : list R) (x : R) : nat :=
  length (filter (fun y => Rleb y x) l).

(** [rng.choice(n, p=p)] for one uniform draw: cdf = cumsum(p); cdf /= cdf[-1]. *)
Definition choice_idx (p : list R) (x : R) : nat :=
  let cdf := cumsum p in
  let total := last cdf 0 in
  searchsorted_right (map (fun y => y / total) cdf) x.

(** [rng.choice(pool, n, p=p)]: ValueError for a negative [n], or for a positive one
    with an empty pool ([p] has the length of the pool and sums to 1). *)
Definition choice {A} (pool : list A) (n : Z) (p : list R) : rand (list A) :=
  if (n <? 0)%Z then lift (Err ValueError)
  else match pool with
       | [] => if (n =? 0)%Z then ret [] else lift (Err ValueError)
       | _ =>
         do us <- random (Z.to_nat n);
         lift (mapM (fun x => get pool (choice_idx p x)) us)
       end.

(** moonpies.py:2793-2814 [probabilistic_round] on one number and its draw. *)
Definition round_one (x u : R) : Z := Int_part (x + u).
Definition probabilistic_round (xs : list R) : rand (list Z) :=
  do us <- random (length xs);
  ret (map (fun '(x, u) => round_one x u) (combine xs us)).

(** moonpies.py:1958-1981 [get_random_hydrated_craters]. *)
Definition hydration_prob (c : icfg) : R :=
  if is_comet c then comet_ast_frac c
  else if comets_on c then (1 - comet_ast_frac c) * ctype_frac c * ctype_hydrated c
  else ctype_frac c * ctype_hydrated c.
Definition get_random_hydrated_craters (c : icfg) (n : nat) : rand (list bool) :=
  do us <- random n;
  ret (map (fun u => Rltb u (hydration_prob c)) us).

(** moonpies.py:1984-2008 [get_random_hydrated_basins]: (ctype, comet) marks. *)
Definition basin_marks (c : icfg) (u : R) : bool * bool :=
  let prob := if comets_on c then (1 - comet_ast_frac c) * ctype_frac c * ctype_hydrated c
              else ctype_frac c * ctype_hydrated c in
  (Rltb u prob, Rltb (1 - comet_ast_frac c) u).
Definition get_random_hydrated_basins (c : icfg) (n : nat) : rand (list (bool * bool)) :=
  do us <- random n;
  ret (map (basin_marks c) us).

(** moonpies.py:289-295: the label of one basin. *)
Definition icy_label (c : icfg) (m : bool * bool) : string :=
  let l := "no"%string in
  if basins_on c then
    let l := if fst m then "hyd_ctype"%string else l in
    if comets_on c then (if snd m then "comet"%string else l) else l
  else l.

(** moonpies.py:263-296 [random_icy_basins], the icy_impactor column. *)
Definition random_icy_basins (c : icfg) (n : nat) : rand (list string) :=
  do ms <- get_random_hydrated_basins c n;
  ret (map (icy_label c) ms).

(** moonpies.py:2027-2035 [asteroid_speed_rv] sampled at the uniform [u]. *)
Definition asteroid_speed (c : icfg) (ppf : ppf_fun) (u : R) : R :=
  let a := (escape_vel c - impact_speed_mean c) / impact_speed_sd c in
  impact_speed_mean c + impact_speed_sd c * ppf a None u.

(** moonpies.py:2038-2051 [comet_speed_rv]: its two submodels. *)
Definition jfc_speed (c : icfg) (ppf : ppf_fun) (u : R) : R :=
  let a := - comet_speed_min c / jfc_sd c in
  let b := comet_speed_max c / jfc_sd c in
  jfc_mean c + jfc_sd c * ppf a (Some b) u.
Definition lpc_speed (c : icfg) (ppf : ppf_fun) (u : R) : R :=
  let a := - comet_speed_min c / lpc_sd c in
  let b := comet_speed_max c / lpc_sd c in
  lpc_mean c + lpc_sd c * ppf a (Some b) u.

(** moonpies.py:2870-2889 [rv_mixture.__init__]: normalised weights. *)
Definition mixture_weights (nsub : nat) (weights : option (list R)) : result (list R) :=
  let w := match weights with Some w => w | None => repeat 1 nsub end in
  if Nat.eqb (length w) nsub then Ok (map (fun x => x / Rsum w) w) else Err ValueError.

(** moonpies.py:2891-2905: [_weighted_sum], the body of [_pdf], [_cdf] and [_sf] at one
    point. *)
Definition weighted_sum (weights vals : list R) : R := dotsum vals weights.

(** moonpies.py:2907-2913 [rv_mixture._rvs]: choose a submodel for each sample, then
    draw [n] samples of every submodel and pick. *)
Fixpoint sample_all (subs : list (R -> R)) (n : nat) : rand (list (list R)) :=
  match subs with
  | [] => ret []
  | f :: r =>
    do us <- random n;
    do rest <- sample_all r n;
    ret (map f us :: rest)
  end.
Definition mixture_rvs (subs : list (R -> R)) (weights : list R) (n : nat) : rand (list R) :=
  do us <- random n;
  let choices := map (choice_idx weights) us in
  do samples <- sample_all subs n;
  lift (mapM (fun '(i, ch) => let* row := get samples ch in get row i)
             (combine (seq 0 n) choices)).

(** moonpies.py:2011-2023 [get_random_impactor_speeds]. *)
Definition get_random_impactor_speeds (c : icfg) (ppf : ppf_fun) (n : nat) : rand (list R) :=
  if is_comet c then
    do w <- lift (mixture_weights 2 (Some [jfc_frac c; lpc_frac c]));
    mixture_rvs [jfc_speed c ppf; lpc_speed c ppf] w n
  else
    do us <- random n;
    ret (map (asteroid_speed c ppf) us).

(** [rand_diams[hyd]]: boolean mask. *)
Definition mask {A} (l : list A) (m : list bool) : list A :=
  map fst (filter snd (combine l m)).

(** moonpies.py:1746-1756: the loop of [get_ice_stochastic]. *)
Fixpoint stochastic_loop (c : icfg) (ppf : ppf_fun) (regime : string) (diams prob : list R)
  (counts : list Z) : rand (list R) :=
  match counts with
  | [] => ret []
  | n :: r =>
    do ds <- choice diams n prob;
    do hyd <- get_random_hydrated_craters c (length ds);
    let hd := mask ds hyd in
    do speeds <- get_random_impactor_speeds c ppf (length hd);
    do m <- lift (ice_large_craters c hd speeds regime);
    do rest <- stochastic_loop c ppf regime diams prob r;
    ret (m :: rest)
  end.

(** moonpies.py:1723-1757 [get_ice_stochastic]. *)
Definition get_ice_stochastic (c : icfg) (ppf : ppf_fun) (time : list R) (regime : string)
  : rand (list R) :=
  do (diams, nt, prob) <- lift (get_crater_pop c time regime);
  do counts <- probabilistic_round nt;
  stochastic_loop c ppf regime diams prob counts.

(** moonpies.py:1686-1707 [get_large_simple_crater_ice] and [get_complex_crater_ice]. *)
Definition get_stochastic_thickness (c : icfg) (ppf : ppf_fun) (time : list R) (regime : string)
  : rand (list R) :=
  do m <- get_ice_stochastic c ppf time regime;
  lift (mapM (get_ice_thickness c) m).

(** The columns of the crater table used by the ice code. *)
Record impact := mk_impact { i_rad : R; i_age : R; i_basin : bool; i_icy : string }.

(** moonpies.py:1852-1873 [ice_basins]: mass per time. *)
Definition ice_basins (c : icfg) (ppf : ppf_fun) (tol : R) (df : list impact) (time : list R)
  : rand (list R) :=
  let itype := if is_comet c then "comet"%string else "hyd_ctype"%string in
  let bdf := filter (fun b => i_basin b && String.eqb (i_icy b) itype) df in
  do speeds <- get_random_impactor_speeds c ppf (length bdf);
  do masses <- lift (mapM (fun '(b, v) => ice_large_craters c [2 * i_rad b] [v] "f")
                          (combine bdf speeds));
  lift (ages2time Rplus 0 tol time (combine (map i_age bdf) masses)).

(** moonpies.py:1710-1720 [get_basin_ice]. *)
Definition get_basin_ice (c : icfg) (ppf : ppf_fun) (tol : R) (df : list impact) (time : list R)
  : rand (list R) :=
  do m <- ice_basins c ppf tol df time;
  lift (mapM (get_ice_thickness c) m).

(** moonpies.py:1558-1588 [get_impact_ice]. *)
Definition get_impact_ice (c : icfg) (ppf : ppf_fun) (tol : R) (df : list impact) (time : list R)
  : rand (list R) :=
  let t := map (fun _ => 0) time in
  do mm <- lift (get_micrometeorite_ice c time);
  let t := vadd t mm in
  do si <- lift (get_small_impactor_ice c time);
  let t := vadd t si in
  do ssc <- lift (get_small_simple_crater_ice c time);
  let t := vadd t ssc in
  do lsc <- get_stochastic_thickness c ppf time "d";
  let t := vadd t lsc in
  do cc <- get_stochastic_thickness c ppf time "e";
  let t := vadd t cc in
  do b <- get_basin_ice c ppf tol df time;
  ret (if basins_on c then vadd t b else t).

(** moonpies.py:866-895 [get_polar_ice]; [table] is the solar luminosity table. *)
Definition get_polar_ice (c : icfg) (ppf : ppf_fun) (tol : R) (table : list (R * R))
  (df : list impact) (time : list R) : rand (list R) :=
  do imp <- get_impact_ice c ppf tol df time;
  do com <- get_impact_ice (get_comet_cfg c) ppf tol df time;
  let imp := if comets_on c then vadd imp com else imp in
  do sw <- lift (get_solar_wind_ice c table time);
  ret (vadd imp sw).

(** moonpies.py:812-863 [get_ice_cols_time]. *)
Definition get_ice_cols_time (c : icfg) (ppf : ppf_fun) (tol : R) (table : list (R * R))
  (bhop : string -> option R) (names : list string) (df : list impact) (time : list R)
  : rand (list (list R)) :=
  do polar <- get_polar_ice c ppf tol table df time;
  do volc <- lift (get_volcanic_ice c time);
  lift (distribute_ice c bhop names polar volc).
