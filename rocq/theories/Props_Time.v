(** Time axis, event placement, age rounding: properties C10-C14. *)
From Coq Require Import List ZArith Reals Lia Lra Bool Permutation Sorted.
From Verif Require Import Base Model_Time Spec_Time Proofs_Base Proofs_FP Proofs_Time Proofs_TimeFP.
Import ListNotations.
Open Scope R_scope.

(** ** C10 *)
Theorem C10_time_axis : forall timestart timestep k,
  (0 < timestep)%Z -> (0 < k)%Z -> timestart = (k * timestep)%Z ->
  exists l, get_time_array (fun x => x) timestart 0 timestep = Ok l /\
    length l = Z.to_nat k /\
    (forall i, (i < Z.to_nat k)%nat ->
       nth_error l i = Some (IZR timestart - INR i * IZR timestep)).
Proof. exact time_array_axis. Qed.

Theorem C10_count : forall rnd ts te st l,
  get_time_array rnd ts te st = Ok l ->
  st <> 0%Z /\ (0 <= Z.quot (ts - te) st)%Z /\ length l = Z.to_nat (Z.quot (ts - te) st).
Proof. exact time_array_count. Qed.

Theorem C10_errors : forall rnd ts te st,
  (get_time_array rnd ts te st = Err ZeroDivisionError <-> st = 0%Z) /\
  (get_time_array rnd ts te st = Err ValueError <-> st <> 0%Z /\ (Z.quot (ts - te) st < 0)%Z).
Proof. exact time_array_errors. Qed.

Theorem C10_ends_ignore_timeend : forall ts te st l,
  get_time_array (fun x => x) ts te st = Ok l -> (2 <= length l)%nat ->
  nth_error l 0 = Some (IZR ts) /\ nth_error l (length l - 1) = Some (IZR st).
Proof. exact time_array_ends. Qed.

(** The documented axis (steps of timestep, ending one step above timeend) fails
    for a non-zero timeend although timestep divides the span. *)
Theorem C10_timeend_refuted : exists ts te st l,
  (0 < st)%Z /\ (0 < te)%Z /\ ((ts - te) mod st = 0)%Z /\
  get_time_array (fun x => x) ts te st = Ok l /\ (2 <= length l)%nat /\
  nth_error l (length l - 1) <> Some (IZR te + IZR st) /\
  nth_error l 1 <> Some (IZR ts - IZR st).
Proof. exact time_array_end_refuted. Qed.

Example C10_case : (0 < 10000000)%Z /\ (0 < 425)%Z /\ 4250000000%Z = (425 * 10000000)%Z.
Proof. repeat split. Qed.
Example C10_case_errors :
  get_time_array (fun x => x) 10 20 (-5) <> Err ValueError /\
  get_time_array (fun x => x) 10 20 5 = Err ValueError.
Proof. split; [discriminate|reflexivity]. Qed.

(** ** C11 *)
Theorem C11_placement : forall V (agg : V -> V -> V) fill tol time events lo hi,
  is_min time lo -> is_max time hi ->
  exists (at_ : R -> nat) out,
    (forall age, first_nearest time age (at_ age)) /\
    ages2time agg fill tol time events = Ok out /\ length out = length time /\
    forall k, (k < length time)%nat ->
      nth_error out k = Some (fold_left agg
        (map snd (filter (fun ev => Rleb (lo - Rabs lo * tol) (fst ev)
                                    && Rleb (fst ev) (hi + Rabs hi * tol)
                                    && Nat.eqb (at_ (fst ev)) k) events)) fill).
Proof. exact @placement. Qed.

Theorem C11_first_nearest_unique : forall time age i j,
  first_nearest time age i -> first_nearest time age j -> i = j.
Proof. exact first_nearest_unique. Qed.

Theorem C11_total_preserved : forall tol time events lo hi out,
  is_min time lo -> is_max time hi ->
  ages2time Rplus 0 tol time events = Ok out ->
  Rsum out = Rsum (map snd (filter (fun ev => Rleb (lo - Rabs lo * tol) (fst ev)
                                              && Rleb (fst ev) (hi + Rabs hi * tol)) events)).
Proof. exact ages2time_sum. Qed.

Theorem C11_no_times : forall V (agg : V -> V -> V) fill tol events,
  ages2time agg fill tol [] events = Err ValueError.
Proof. exact @ages2time_empty. Qed.

Example C11_case : is_min [3; 2; 1] 1 /\ is_max [3; 2; 1] 3 /\ first_nearest [3; 2; 1] (5 / 2) 0.
Proof.
  repeat split; try (simpl; tauto); try (simpl; intros t [<-|[<-|[<-|[]]]]; lra).
  exists 3. repeat split; [|intros; lia].
  intros [|[|[|j]]] u H; simpl in H; try (injection H as <-); try (destruct j; discriminate);
    unfold Rabs; repeat destruct (Rcase_abs _); lra.
Qed.

(** ** C12 *)
Theorem C12_perturbed_grid : forall V (agg : V -> V -> V) fill tol time T0 s
    (evs : list (nat * V)) out k,
  0 <= tol <= 1 ->
  (forall i t, nth_error time i = Some t ->
     0 < t /\ Rabs (t - (T0 - INR i * s)) < s / 2 /\ Rabs (t - (T0 - INR i * s)) <= tol * t) ->
  Forall (fun ev => (fst ev < length time)%nat) evs ->
  ages2time agg fill tol time (map (fun ev => (T0 - INR (fst ev) * s, snd ev)) evs) = Ok out ->
  (k < length time)%nat ->
  nth_error out k = Some (fold_left agg (map snd (filter (fun ev => Nat.eqb (fst ev) k) evs)) fill).
Proof. exact @ages2time_grid. Qed.

(** The time axis the program builds in float32, up to 2^20 steps. *)
Theorem C12_float32_axis : forall V (agg : V -> V -> V) fill (k timestep : Z)
    (evs : list (nat * V)),
  (0 < timestep)%Z -> (0 < k <= 1048576)%Z ->
  Forall (fun ev => (fst ev < Z.to_nat k)%nat) evs ->
  exists time out,
    get_time_array rnd32 (k * timestep) 0 timestep = Ok time /\
    ages2time agg fill (1 / 1000000) time
      (map (fun ev => (IZR (k * timestep) - INR (fst ev) * IZR timestep, snd ev)) evs) = Ok out /\
    length out = Z.to_nat k /\
    forall i, (i < Z.to_nat k)%nat ->
      nth_error out i
      = Some (fold_left agg (map snd (filter (fun ev => Nat.eqb (fst ev) i) evs)) fill).
Proof. exact @float32_axis_placement. Qed.

Example C12_case : forall i t, nth_error [31 / 10; 19 / 10; 1] i = Some t ->
  0 < t /\ Rabs (t - (3 - INR i * 1)) < 1 / 2 /\ Rabs (t - (3 - INR i * 1)) <= (1 / 10) * t.
Proof.
  intros [|[|[|i]]] t H; simpl in H; try (destruct i; discriminate); injection H as <-; simpl INR;
    (split; [lra|]); split; unfold Rabs; destruct (Rcase_abs _); lra.
Qed.
Example C12_case_defaults : (0 < 10000000)%Z /\ (0 < 425 <= 1048576)%Z /\
  Forall (fun ev => (fst ev < Z.to_nat 425)%nat) [(0%nat, 1); (424%nat, 2); (7%nat, 3)].
Proof. repeat split; try lia. repeat constructor; simpl; lia. Qed.

(** ** C13 *)
Theorem C13_round_to_ts : forall v ts, 0 < ts ->
  (exists z, round_to_ts v ts = IZR z * ts) /\
  Rabs (round_to_ts v ts - v) <= ts / 2 /\
  (forall z, v = IZR z * ts -> round_to_ts v ts = v) /\
  (Rabs (round_to_ts v ts - v) = ts / 2 ->
     exists z, round_to_ts v ts = IZR z * ts /\ Z.even z = true).
Proof. exact round_to_ts_spec. Qed.

Theorem C13_monotone : forall x y ts, 0 < ts -> x <= y -> round_to_ts x ts <= round_to_ts y ts.
Proof. exact round_to_ts_mono. Qed.

Example C13_case : round_to_ts 25 10 = 20 /\ round_to_ts 35 10 = 40 /\ round_to_ts 26 10 = 30.
Proof. exact round_to_ts_cases. Qed.

(** ** C14 *)
Theorem C14_random_ages : forall D (sort : list (crater D) -> list (crater D)) ts cs us,
  sorts_by_age sort -> 0 < ts ->
  Forall2 (fun c u => 0 <= c_low c /\ 0 <= c_upp c /\ 0 < c_low c + c_upp c /\
                      trunc_a c <= u <= trunc_b c) cs us ->
  exists ages,
    Forall2 (fun c a => (exists z, a = IZR z * ts) /\
       c_age c - c_low c - ts / 2 <= a <= c_age c + c_upp c + ts / 2) cs ages /\
    Permutation (randomize_crater_ages sort ts cs us)
                (map (fun '(c, a) => mk_crater a (c_low c) (c_upp c) (c_rest c)) (combine cs ages)) /\
    Sorted (fun a b => c_age b <= c_age a) (randomize_crater_ages sort ts cs us).
Proof. exact @randomize_spec. Qed.

(** Every draw the truncated normal can make covers exactly the error bar. *)
Theorem C14_support_is_error_bar : forall D (c : crater D),
  0 <= c_low c -> 0 <= c_upp c -> 0 < c_low c + c_upp c ->
  forall a, (exists u, trunc_a c <= u <= trunc_b c /\ a = c_age c + age_sig c * u) <->
            c_age c - c_low c <= a <= c_age c + c_upp c.
Proof. exact @age_support. Qed.

(** Equal errors are two standard deviations: the new age is the old one moved by half the
    error times a draw between -2 and 2. *)
Theorem C14_two_sigma : forall D (c : crater D) e ts (ppf : R -> option R -> R -> R) u,
  0 < e -> c_low c = e -> c_upp c = e ->
  new_age ts c (ppf (trunc_a c) (Some (trunc_b c)) u) = round_to_ts (c_age c + e / 2 * ppf (- 2) (Some 2) u) ts.
Proof.
  intros D c e ts ppf u He L U. unfold new_age, trunc_a, trunc_b, age_sig. rewrite L, U.
  replace ((e + e) / 2 / 2) with (e / 2) by field. replace (- e / (e / 2)) with (- 2) by (field; lra). replace (e / (e / 2)) with 2 by (field; lra). reflexivity.
Qed.

Example C14_case_sort : exists sort, @sorts_by_age nat sort.
Proof. exists isort_age. exact isort_age_ok. Qed.
Example C14_case : Forall2 (fun c u => 0 <= c_low c /\ 0 <= c_upp c /\ 0 < c_low c + c_upp c /\
                      trunc_a c <= u <= trunc_b c)
  [mk_crater 3850 30 10 1%nat; mk_crater 2000 0 100 2%nat] [-1; 2].
Proof.
  repeat constructor; unfold trunc_a, trunc_b, age_sig; cbn [c_low c_upp]; lra.
Qed.

Print Assumptions C10_time_axis.
Print Assumptions C10_count.
Print Assumptions C10_errors.
Print Assumptions C10_ends_ignore_timeend.
Print Assumptions C10_timeend_refuted.
Print Assumptions C11_placement.
Print Assumptions C11_first_nearest_unique.
Print Assumptions C11_total_preserved.
Print Assumptions C11_no_times.
Print Assumptions C12_perturbed_grid.
Print Assumptions C12_float32_axis.
Print Assumptions C13_round_to_ts.
Print Assumptions C13_monotone.
Print Assumptions C14_random_ages.
Print Assumptions C14_support_is_error_bar.
Print Assumptions C14_two_sigma.
