(** Melting by ballistic sedimentation, the conduction model that makes the melt fraction
    tables: /repo/moonpies/thermal_eq.py. *)
From Coq Require Import List ZArith Reals Bool.
From Verif Require Import Base Model_Ice.
Import ListNotations.
Open Scope R_scope.

(** ** One step of heat conduction; exact arithmetic *)

(** thermal_eq.py:190-192 [thermal_diffusivity].  Python raises or gives an infinity for
    [density * cp = 0]; in Coq the quotient is then an unspecified real. *)
Definition thermal_diffusivity (conductivity cp density : R) : R :=
  conductivity / (density * cp).

(** thermal_eq.py:195-197 [thermal_conductivity] with its default constants. *)
Definition thermal_conductivity (T : R) : R :=
  34 / 10000 * (1 + 27 / 10 * (T / 350) ^ 3).

(** thermal_eq.py:200-202 [sphc] with its default constants. *)
Definition sphc (T : R) : R :=
  - (36125 / 10000) + 27431 / 10000 * T + 23616 / 10000000 * T ^ 2
  - 1234 / 100000000 * T ^ 3 + 89093 / 10000000000000 * T ^ 4.

(** thermal_eq.py:175-176: the coefficient of one element; [density], [dt], [dx] are
    the defaults (line 153), the only values used. *)
Definition coef (T : R) : R :=
  thermal_diffusivity (thermal_conductivity T) (sphc T) 1800 * (1 / 1000) / (1 / 100000) ^ 2.

(** [l[lo:hi]] for [0 <= lo <= hi <= len(l)]. *)
Definition slice {A} (l : list A) (lo hi : nat) : list A := firstn (hi - lo) (skipn lo l).

(** thermal_eq.py:153-187 [heat1d_finite_diff].  The array is updated in place and
    returned; numpy evaluates the right-hand side of line 183 before storing.  Arrays
    of length 0 ([c[0]]) and 1 ([T[1]]) raise IndexError. *)
Definition heat1d_finite_diff (T : list R) : result (list R) :=
  let n := length T in
  if Nat.ltb n 2 then Err IndexError
  else
    let c := map coef T in
    let at_ l i := nth i l 0 in
    let t0 := at_ c O * at_ T (n - 1)%nat + (1 - 2 * at_ c O) * at_ T O + at_ c O * at_ T 1%nat in
    let tn := at_ c (n - 1)%nat * at_ T (n - 2)%nat
              + (1 - 2 * at_ c (n - 1)%nat) * at_ T (n - 1)%nat + at_ c (n - 1)%nat * at_ T O in
    let inner :=
      map (fun '(ci, (l, m, r)) => ci * l + (1 - 2 * ci) * m + ci * r)
          (combine (slice c 1 (n - 1))
                   (combine (combine (slice T 0 (n - 2)) (slice T 1 (n - 1))) (slice T 2 n))) in
    Ok (t0 :: inner ++ [tn]).

(** ** Melt fraction of one column *)

(** [rng.choice(np.arange(n), size=k, replace=False)] of a generator made from a seed
    (thermal_eq.py:205-226 [rand_positions], [_rng]): [pick seed k n] for [0 <= k <= n];
    ValueError for other sizes.  Only integer seeds are modelled: a generator passed in
    keeps a state, and [None] takes a seed from the operating system. *)
Definition rand_positions (pick : Z -> nat -> nat -> list nat) (seed ej_n : Z) (n : nat)
  : result (list nat) :=
  if Z.ltb ej_n 0 || Z.ltb (Z.of_nat n) ej_n then Err ValueError
  else Ok (pick seed (Z.to_nat ej_n) n).

(** [a[inds] = x]; IndexError outside the array. *)
Fixpoint set_all {A} (a : list A) (inds : list nat) (x : A) : result (list A) :=
  match inds with
  | [] => Ok a
  | i :: r => let* a' := set a i x in set_all a' r x
  end.

(** thermal_eq.py:128-134: whether all elements are within [eq_thresh] of the next one
    ([np.diff] does not link the ends). *)
Fixpoint flat (eq_thresh : R) (temps : list R) : bool :=
  match temps with
  | a :: ((b :: _) as r) => Rltb (Rabs (b - a)) eq_thresh && flat eq_thresh r
  | _ => true
  end.

(** thermal_eq.py:127-141: the loop; [fuel] is [max_iter - i]. *)
Fixpoint melt_loop (melt_t eq_thresh : R) (fuel : nat) (temps : list R) (melted : list bool)
  : result (list R * list bool) :=
  match fuel with
  | O => Ok (temps, melted)
  | S fuel' =>
    if forallb (fun b => b) melted || forallb (fun t => Rltb t melt_t) temps
       || flat eq_thresh temps
    then Ok (temps, melted)
    else
      let* temps' := heat1d_finite_diff temps in
      let melted' := map (fun '(t, b) => if Rleb melt_t t then true else b)
                         (combine temps' melted) in
      melt_loop melt_t eq_thresh fuel' temps' melted'
  end.

(** [np.sum] of a boolean array. *)
Definition count_true (l : list bool) : nat := length (filter (fun b => b) l).

(** thermal_eq.py:114: the number of ejecta elements.  [rnd] is the rounding of float
    arithmetic.  ZeroDivisionError for a Python float; with a numpy float the quotient
    is infinite and [int] raises OverflowError. *)
Definition ejecta_pixels (rnd : R -> R) (n : nat) (mr : R) : result Z :=
  let d := rnd (1 + mr) in
  if Reqb d 0 then Err ZeroDivisionError
  else Ok (truncZ (rnd (INR n * rnd (1 / d)))).

(** thermal_eq.py:76-150 [melt_frac_teq_1d].  The warning of line 142 is left out; apart
    from [ejecta_pixels] arithmetic is exact. *)
Definition melt_frac_teq_1d (rnd : R -> R) (pick : Z -> nat -> nat -> list nat)
  (mr ejecta_t0 target_t0 melt_t : R) (n : nat) (eq_thresh : R) (max_iter : nat) (seed : Z)
  : result R :=
  let* ej_n := ejecta_pixels rnd n mr in
  if Z.eqb ej_n (Z.of_nat n) then Ok (if Rleb melt_t ejecta_t0 then 1 else 0)
  else
    let* ej_inds := rand_positions pick seed ej_n n in
    let* temps := set_all (repeat target_t0 n) ej_inds ejecta_t0 in
    let* melted := set_all (repeat false n) ej_inds true in
    let* (_, melted) := melt_loop melt_t eq_thresh max_iter temps melted in
    let total_melted := (Z.of_nat (count_true melted) - ej_n)%Z in
    Ok (IZR total_melted / IZR (Z.of_nat n - ej_n)).

(** ** Tables of melt fractions *)

(** thermal_eq.py:67-73 [_parallel_melt_frac]; [f mr ejecta_t seed] is the call of
    melt_frac_teq_1d with its other arguments left at their defaults.  The array is
    its list of rows. *)
Definition parallel_melt_frac (f : R -> R -> Z -> result R) (ejecta_temps : list R)
  (seeds : list Z) (mr : R) : result (list (list R)) :=
  mapM (fun ejecta_t => mapM (fun seed => f mr ejecta_t seed) seeds) ejecta_temps.

(** multiprocessing.pool [starmap]: the tasks are cut into chunks of [chunksize]
    (with [4 * ncpus] or a few fewer chunks)... *)
Definition chunksize (ntasks ncpus : nat) : nat :=
  let q := (ntasks / (ncpus * 4))%nat in
  if Nat.eqb (ntasks mod (ncpus * 4)) 0 then q else S q.
Fixpoint chunks {A} (fuel size : nat) (l : list A) : list (list A) :=
  match fuel, l with
  | S fuel', _ :: _ => firstn size l :: chunks fuel' size (skipn size l)
  | _, _ => []
  end.

(** ... each chunk is run by some worker, and its results are stored at the chunk's
    place when it reports back; the first chunk to report a failure decides the
    exception.  [order] is the order in which the chunks report. *)
Fixpoint collect {A B} (f : A -> result B) (cs : list (list A)) (order : list nat)
  (slots : list (option (list B))) (failure : option exn)
  : list (option (list B)) * option exn :=
  match order with
  | [] => (slots, failure)
  | k :: r =>
    match nth_error cs k with
    | None => collect f cs r slots failure
    | Some c =>
      match mapM f c with
      | Ok bs => collect f cs r (upd slots k (Some bs)) failure
      | Err e => collect f cs r slots (match failure with None => Some e | Some _ => failure end)
      end
    end
  end.
Definition starmap {A B} (order : list nat) (ncpus : nat) (f : A -> result B) (l : list A)
  : result (list B) :=
  let cs := chunks (length l) (chunksize (length l) ncpus) l in
  match collect f cs order (map (fun _ => None) cs) None with
  | (_, Some e) => Err e
  | (slots, None) => Ok (concat (map (fun s => match s with Some bs => bs | None => [] end) slots))
  end.

(** thermal_eq.py:49-64 [get_melt_frac_arr]: one entry per mixing ratio.  [ncpus] is
    [None] or a number.  [np.stack] of an empty list raises ValueError; the entries of a
    non-empty list all have the shape (temperatures, seeds). *)
Definition get_melt_frac_arr (f : R -> R -> Z -> result R) (order : list nat)
  (mrs ejecta_temps : list R) (seeds : list Z) (ncpus : option Z)
  : result (list (list (list R))) :=
  match ncpus with
  | Some k =>
    if Z.leb k 1 then mapM (parallel_melt_frac f ejecta_temps seeds) mrs
    else
      let* mf := starmap order (Z.to_nat k) (parallel_melt_frac f ejecta_temps seeds) mrs in
      match mf with [] => Err ValueError | _ => Ok mf end
  | None => mapM (parallel_melt_frac f ejecta_temps seeds) mrs
  end.

(** [np.mean] and [np.std] of a non-empty row; [None] (NaN) for an empty one. *)
Definition mean (l : list R) : option R :=
  match l with [] => None | _ => Some (Rsum l / INR (length l)) end.
Definition std (l : list R) : option R :=
  match mean l with
  | None => None
  | Some m => Some (sqrt (Rsum (map (fun x => (x - m) ^ 2) l) / INR (length l)))
  end.

(** thermal_eq.py:18-46 [make_melt_frac_dfs]: the two tables, one row per mixing ratio and
    one column per ejecta temperature, as written to the files.  [fmt] is the number
    printed by "%g" and read back.  [ncpu] is [cpu_count()]. *)
Definition make_melt_frac_dfs (fmt : R -> R) (f : R -> R -> Z -> result R) (order : list nat)
  (ncpu : Z) (mrs ej_temps : list R) (nseed : nat) (parallel : bool)
  : result (list (list (option R)) * list (list (option R))) :=
  let ncpus := if parallel then ncpu else 1%Z in
  let seeds := map Z.of_nat (seq 0 nseed) in
  let* melt_frac := get_melt_frac_arr f order mrs ej_temps seeds (Some ncpus) in
  Ok (map (map (fun s => option_map fmt (mean s))) melt_frac,
      map (map (fun s => option_map fmt (std s))) melt_frac).
