(** Vocabulary of the theorems about the conduction model and the melt fraction tables. *)
From Coq Require Import List ZArith Reals Bool Permutation.
From Verif Require Import Base Model_Thermal.
Import ListNotations.
Open Scope R_scope.

(** Temperatures from [lo] to [hi]. *)
Definition within (lo hi : R) (T : list R) : Prop := Forall (fun t => lo <= t <= hi) T.

(** The element before and after [i] on the ring of [n] elements. *)
Definition before (n i : nat) : nat := if Nat.eqb i 0 then (n - 1)%nat else (i - 1)%nat.
Definition after (n i : nat) : nat := if Nat.eqb (S i) n then O else S i.

(** [k] steps of conduction. *)
Fixpoint steps (k : nat) (T : list R) : result (list R) :=
  match k with
  | O => Ok T
  | S k' => let* T' := heat1d_finite_diff T in steps k' T'
  end.

(** The heat in an element per unit of mass, up to a constant: an antiderivative of the
    specific heat capacity. *)
Definition heat_content (t : R) : R :=
  - (36125 / 10000) * t + 27431 / 10000 * t ^ 2 / 2 + 23616 / 10000000 * t ^ 3 / 3
  - 1234 / 100000000 * t ^ 4 / 4 + 89093 / 10000000000000 * t ^ 5 / 5.

(** Float rounding, as far as it is used: monotone, exact on small whole numbers. *)
Definition rounds (n : nat) (rnd : R -> R) : Prop :=
  (forall x y, x <= y -> rnd x <= rnd y) /\
  (forall k, (k <= S n)%nat -> rnd (INR k) = INR k).

(** A choice of [k] different positions out of [n]. *)
Definition picks (pick : Z -> nat -> nat -> list nat) : Prop :=
  forall seed k n, (k <= n)%nat ->
    length (pick seed k n) = k /\ NoDup (pick seed k n) /\ Forall (fun i => (i < n)%nat) (pick seed k n).

(** [a] is the column at the start: ejecta at the positions [ej]. *)
Definition start_column (n : nat) (ej : list nat) (ejecta_t0 target_t0 : R) : list R :=
  map (fun i => if existsb (Nat.eqb i) ej then ejecta_t0 else target_t0) (seq 0 n).

(** The reasons to stop before the iteration limit: every target element has melted in
    one of the states [T 1], ..., [T k]; everything is below the melting temperature;
    neighbours differ by less than the threshold. *)
Definition has_melted (melt_t : R) (T : nat -> list R) (k i : nat) : bool :=
  existsb (fun j => match nth_error (T j) i with Some t => Rleb melt_t t | None => false end)
          (seq 1 k).
Definition stopped (melt_t eq_thresh : R) (n : nat) (ej : list nat) (T : nat -> list R) (k : nat)
  : Prop :=
  (forall i, (i < n)%nat -> In i ej \/ has_melted melt_t T k i = true) \/
  Forall (fun t => t < melt_t) (T k) \/
  (forall i a b, nth_error (T k) i = Some a -> nth_error (T k) (S i) = Some b ->
                 Rabs (b - a) < eq_thresh).

(** The target elements (those without ejecta) that melted in the first [k] steps. *)
Definition target_melted (melt_t : R) (n : nat) (ej : list nat) (T : nat -> list R) (k : nat)
  : list nat :=
  filter (fun i => negb (existsb (Nat.eqb i) ej) && has_melted melt_t T k i) (seq 0 n).

(** The order in which the chunks of a parallel run report: each one once. *)
Definition reports {A} (ncpus : Z) (tasks : list A) (order : list nat) : Prop :=
  let n := length tasks in
  Permutation order (seq 0 (length (chunks n (chunksize n (Z.to_nat ncpus)) tasks))).

(** Number formatting, as far as it is used: monotone, exact at 0, 1/2 and 1. *)
Definition formats (fmt : R -> R) : Prop :=
  (forall x y, x <= y -> fmt x <= fmt y) /\ fmt 0 = 0 /\ fmt (1 / 2) = 1 / 2 /\ fmt 1 = 1.

(** The melt fraction with the defaults of melt_frac_teq_1d. *)
Definition melt_default (rnd : R -> R) (pick : Z -> nat -> nat -> list nat) (max_iter : nat) (mr t : R) (seed : Z) :=
  melt_frac_teq_1d rnd pick mr t 45 110 1000 1 max_iter seed.
