(** Time axis, event placement and age rounding: /repo/moonpies/moonpies.py. *)
From Coq Require Import List ZArith Reals Bool.
From Verif Require Import Base.
Import ListNotations.
Open Scope R_scope.

(** [np.linspace(start, stop, n)] for [n >= 0] in exact arithmetic: [n = 1] gives
    [start]; otherwise [start + i * (stop - start) / (n - 1)]. *)
Definition linspace (start stop : R) (n : nat) : list R :=
  match n with
  | O => []
  | S O => [start]
  | _ => map (fun i => start + INR i * ((stop - start) / (INR n - 1))) (seq 0 n)
  end.

(** moonpies.py:80-98 [get_time_array].  cfg.timestart, timeend and timestep are
    ints (config.py:151-153).  [int(a / b)] truncates towards zero; the float
    quotient equals the exact one after truncation for |a| < 2^53, which is
    assumed.  [rnd] is the conversion to cfg.dtype (float32). *)
Definition get_time_array (rnd : R -> R) (timestart timeend timestep : Z)
  : result (list R) :=
  if (timestep =? 0)%Z then Err ZeroDivisionError
  else
    let n := Z.quot (timestart - timeend) timestep in
    if (n <? 0)%Z then Err ValueError
    else Ok (map rnd (linspace (IZR timestart) (IZR timestep) (Z.to_nat n))).

(** [np.min] and [np.max] of a non-empty array. *)
Definition list_min (x : R) (l : list R) : R := fold_left Rmin l x.
Definition list_max (x : R) (l : list R) : R := fold_left Rmax l x.

(** moonpies.py:2822-2831 [rtol] and [minmax_rtol]; ValueError on an empty array. *)
Definition rtol (num tol : R) : R := Rabs num * tol.
Definition minmax_rtol (arr : list R) (tol : R) : result (R * R) :=
  match arr with
  | [] => Err ValueError
  | x :: r =>
    let amin := list_min x r in
    let amax := list_max x r in
    Ok (amin - rtol amin tol, amax + rtol amax tol)
  end.

(** [np.argmin]: first index of the smallest element.  [best] is the smallest
    value so far, found at [ib]; [i] is the index of the head of [l]. *)
Fixpoint argmin_from (best : R) (ib i : nat) (l : list R) : nat :=
  match l with
  | [] => ib
  | x :: r => if Rltb x best then argmin_from x i (S i) r else argmin_from best ib (S i) r
  end.

(** [np.abs(time_arr - age).argmin()] (moonpies.py:800) for a non-empty array
    ([0] for an empty one, which [ages2time] never reaches). *)
Definition nearest_idx (time : list R) (age : R) : nat :=
  match time with
  | [] => O
  | t :: r => argmin_from (Rabs (t - age)) 0 1 (map (fun t' => Rabs (t' - age)) r)
  end.

Section Ages2Time.
  Context {V : Type} (agg : V -> V -> V) (fill : V).

  (** Body of the loop moonpies.py:804-806. *)
  Definition place (time : list R) (acc : list V) (ev : R * V) : list V :=
    let i := nearest_idx time (fst ev) in
    match nth_error acc i with
    | Some old => upd acc i (agg old (snd ev))
    | None => acc
    end.

  (** moonpies.py:762-807 [ages2time]; events are (age, value) pairs.
      [agg([a, b], axis=0)] is the binary [agg]; a row of a 2D array is one value. *)
  Definition ages2time (tol : R) (time : list R) (events : list (R * V))
    : result (list V) :=
    let* (tmin, tmax) := minmax_rtol time tol in
    let kept := filter (fun ev => Rleb tmin (fst ev) && Rleb (fst ev) tmax) events in
    Ok (fold_left (place time) kept (repeat fill (length time))).
End Ages2Time.

(** [np.around] to zero decimals: round half to even. *)
Definition rint (x : R) : Z :=
  let f := Int_part x in
  let r := x - IZR f in
  if Rltb r (1 / 2) then f
  else if Rltb (1 / 2) r then (f + 1)%Z
  else if Z.even f then f else (f + 1)%Z.

(** moonpies.py:2817-2819 [round_to_ts]. *)
Definition round_to_ts (v timestep : R) : R := IZR (rint (v / timestep)) * timestep.

(** A row of the crater table; [c_rest] stands for all other columns. *)
Record crater (D : Type) := mk_crater {
  c_age : R; c_low : R; c_upp : R; c_rest : D }.
Arguments mk_crater {D} _ _ _ _.
Arguments c_age {D} _.
Arguments c_low {D} _.
Arguments c_upp {D} _.
Arguments c_rest {D} _.

(** moonpies.py:1946-1949: scale and support of the standardised truncated normal. *)
Definition age_sig {D} (c : crater D) : R := ((c_low c + c_upp c) / 2) / 2.
Definition trunc_a {D} (c : crater D) : R := - c_low c / age_sig c.
Definition trunc_b {D} (c : crater D) : R := c_upp c / age_sig c.

(** moonpies.py:1952-1953: [truncnorm.rvs(a, b, loc, scale)] is
    [loc + scale * u] for a standardised draw [u] in [[a, b]]. *)
Definition new_age {D} (timestep : R) (c : crater D) (u : R) : R :=
  round_to_ts (c_age c + age_sig c * u) timestep.

Definition set_age {D} (c : crater D) (a : R) : crater D :=
  mk_crater a (c_low c) (c_upp c) (c_rest c).

(** moonpies.py:1934-1955 [randomize_crater_ages]; [sort] is the pandas sort by
    descending age (not specified on ties), [us] the standardised draws. *)
Definition randomize_crater_ages {D} (sort : list (crater D) -> list (crater D))
  (timestep : R) (cs : list (crater D)) (us : list R) : list (crater D) :=
  sort (map (fun '(c, u) => set_age c (new_age timestep c u)) (combine cs us)).
