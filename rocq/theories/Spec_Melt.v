(** Vocabulary of the melt fraction and ballistic sedimentation properties. *)
From Coq Require Import List Reals Sorted.
From Verif Require Import Base Spec_Time Model_Melt.
Import ListNotations.
Open Scope R_scope.

(** A table as the file has it: increasing axes and one value per pair of labels. *)
Definition good_table (t : table) : Prop :=
  t_mrs t <> [] /\ t_temps t <> [] /\
  StronglySorted Rlt (t_mrs t) /\ StronglySorted Rlt (t_temps t) /\
  length (t_vals t) = length (t_mrs t) /\
  Forall (fun row => length row = length (t_temps t)) (t_vals t).

(** The table has value [v] at labels [mr] and [temp]. *)
Definition value_at (t : table) (mr temp v : R) : Prop :=
  exists i j row, nth_error (t_mrs t) i = Some mr /\ nth_error (t_temps t) j = Some temp /\
    nth_error (t_vals t) i = Some row /\ nth_error row j = Some v.

(** [x] lies between the ends of the axis. *)
Definition within (axis : list R) (x : R) : Prop :=
  exists lo hi, In lo axis /\ In hi axis /\ lo <= x <= hi.

(** [L] lists once each label of the axis and each query strictly inside the axis. *)
Definition labels (axis : list R) (query : R -> Prop) (L : list R) : Prop :=
  NoDup L /\
  forall y, In y L <-> In y axis \/
                       (query y /\ exists lo hi, In lo axis /\ In hi axis /\ lo < y < hi).

(** [lo] and [hi] are labels of the axis around [x] with no label in between. *)
Definition bracket (axis : list R) (lo hi x : R) : Prop :=
  In lo axis /\ In hi axis /\ lo <= x <= hi /\ (forall y, In y axis -> y <= lo \/ hi <= y).

(** The position of [x] between [lo] and [hi] measured by counting labels. *)
Definition count (L : list R) (lo x : R) : nat :=
  length (filter (fun y => Rleb lo y && Rltb y x)%bool L).
Definition rank_frac (L : list R) (lo hi x : R) : R :=
  INR (count L lo x) / INR (count L lo hi).

Definition mix (w a b : R) : R := a + (b - a) * w.

(** Two arrays with the same shape. *)
Definition same_shape {A B} (m : list (list A)) (n : list (list B)) : Prop :=
  Forall2 (fun r s => length r = length s) m n.

Definition cell_is {A} (m : list (list A)) (i j : nat) (x : A) : Prop :=
  exists row, nth_error m i = Some row /\ nth_error row j = Some x.

(** [out] is interpolated linearly between the four table values around the query, with
    positions counted in the labels [M] and [T]. *)
Definition bilinear (t : table) (M T : list R) (mr temp out : R) : Prop :=
  forall m0 m1 t0 t1 v00 v01 v10 v11,
    bracket (t_mrs t) m0 m1 mr -> bracket (t_temps t) t0 t1 temp ->
    value_at t m0 t0 v00 -> value_at t m0 t1 v01 -> value_at t m1 t0 v10 -> value_at t m1 t1 v11 ->
    out = mix (rank_frac T t0 t1 temp) (mix (rank_frac M m0 m1 mr) v00 v10)
                                       (mix (rank_frac M m0 m1 mr) v01 v11).

(** Every query with a mixing ratio lies on the table. *)
Definition all_within (t : table) (temps : list (list R)) (mrs : list (list (option R))) : Prop :=
  forall i j temp mr, cell_is temps i j temp -> cell_is mrs i j (Some mr) ->
    within (t_mrs t) mr /\ within (t_temps t) temp.

(** The event of age [age] is placed at time index [k]. *)
Definition counted (time : list R) (tol : R) (k : nat) (age : R) : Prop :=
  (exists lo hi, is_min time lo /\ is_max time hi /\
                 lo - Rabs lo * tol <= age <= hi + Rabs hi * tol) /\
  first_nearest time age k.

(** [v] is the largest of 0 and the values, in column [j], of the events of time [k]. *)
Definition max_of_events (time : list R) (tol : R) (ages : list R) (vals : list (list (option R)))
  (k j : nat) (v : R) : Prop :=
  0 <= v /\
  (forall i age x, nth_error ages i = Some age -> counted time tol k age ->
     cell_is vals i j (Some x) -> x <= v) /\
  (v = 0 \/ exists i age, nth_error ages i = Some age /\ counted time tol k age /\
                         cell_is vals i j (Some v)).
