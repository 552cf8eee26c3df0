(** Vocabulary of the geometry properties. *)
From Coq Require Import List Reals Permutation Sorted.
From Verif Require Import Base Model_Geo.
Import ListNotations.
Open Scope R_scope.

(** Unit position vector of a point given in degrees. *)
Definition pos (lon lat : R) : R * R * R :=
  (cos (lat * PI / 180) * cos (lon * PI / 180),
   cos (lat * PI / 180) * sin (lon * PI / 180),
   sin (lat * PI / 180)).

Definition dot (u v : R * R * R) : R :=
  let '(a, b, c) := u in let '(x, y, z) := v in a * x + b * y + c * z.

(** [sort] returns the same rows by descending age. *)
Definition sorts_sites (sort : list site -> list site) : Prop :=
  forall l, Permutation (sort l) l /\ Sorted (fun a b => s_age b <= s_age a) (sort l).
