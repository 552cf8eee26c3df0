(** Vocabulary of the time properties, independent of the model's helpers. *)
From Coq Require Import List Reals Permutation Sorted.
From Verif Require Import Base Model_Time.
Import ListNotations.
Open Scope R_scope.

(** [i] is the first index of [time] whose entry is closest to [age]. *)
Definition first_nearest (time : list R) (age : R) (i : nat) : Prop :=
  exists t, nth_error time i = Some t /\
    (forall j u, nth_error time j = Some u -> Rabs (t - age) <= Rabs (u - age)) /\
    (forall j u, (j < i)%nat -> nth_error time j = Some u -> Rabs (t - age) < Rabs (u - age)).

(** [lo] and [hi] are the smallest and largest entries of [time]. *)
Definition is_min (time : list R) (lo : R) := In lo time /\ forall t, In t time -> lo <= t.
Definition is_max (time : list R) (hi : R) := In hi time /\ forall t, In t time -> t <= hi.

(** [sort] returns the same rows in order of descending age. *)
Definition sorts_by_age {D} (sort : list (crater D) -> list (crater D)) : Prop :=
  forall l, Permutation (sort l) l /\ Sorted (fun a b => c_age b <= c_age a) (sort l).
