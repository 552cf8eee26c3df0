(** Vocabulary of the grid properties. *)
From Coq Require Import List ZArith Reals Sorted.
From Verif Require Import Base Model_Geo.
Import ListNotations.
Open Scope R_scope.

(** The conversion keeps integers up to 2^24 (binary32 does). *)
Definition keeps_integers (rnd : R -> R) : Prop :=
  forall z, (Z.abs z <= 2 ^ 24)%Z -> rnd (IZR z) = IZR z.

(** [l] lists the numbers [IZR k], for the integers [k] with [P k], in the order [lt]. *)
Definition lists_integers (lt : R -> R -> Prop) (P : Z -> Prop) (l : list R) : Prop :=
  StronglySorted lt l /\ forall v, In v l <-> exists k, v = IZR k /\ P k.

(** Entry of a stack of grids. *)
Definition cell3 {A} (m : list (list (list A))) (k i j : nat) (x : A) : Prop :=
  exists g row, nth_error m k = Some g /\ nth_error g i = Some row /\ nth_error row j = Some x.

(** Rows numbered from 0 as after [reset_index(drop=True)]. *)
Definition numbered (sites : list site) : list (Z * site) :=
  combine (map Z.of_nat (seq 0 (length sites))) sites.
