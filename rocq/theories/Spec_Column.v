(** Specifications for column updates, independent of the array loops.

    A column is seen as a stack of layers, youngest first; each layer is a pair
    (ice, ejecta) in which the ejecta lies on top of the ice. *)
From Coq Require Import List ZArith Reals.
From Verif Require Import Base Arith.
Import ListNotations.

Section Stack.
  Context {T : Type} (A : arith T).

  (** One gardening pass from the surface: [d] is the depth reached so far. *)
  Fixpoint garden_stack (d depth eff : T) (layers : list (T * T)) : list (T * T) :=
    match layers with
    | [] => []
    | (ice, ej) :: deeper =>
      if ltb A d depth then
        let d1 := add A d ej in
        if ltb A d1 depth then
          let removed :=
            if ltb A depth (add A d1 (mul A ice eff)) then sub A depth d1
            else mul A ice eff in
          let ice' := store A (sub A ice removed) in
          (ice', ej) :: garden_stack (add A d1 ice') depth eff deeper
        else layers
      else layers
    end.

  (** Remove [depth] of ice from the top of the stack. *)
  Fixpoint erode_stack (depth : T) (layers : list (T * T)) : list (T * T) :=
    match layers with
    | [] => []
    | (ice, ej) :: deeper =>
      if ltb A (zero A) depth then
        ((if ltb A ice depth then zero A else store A (sub A ice depth)), ej)
          :: erode_stack (sub A depth ice) deeper
      else layers
    end.

  (** Erosion is switched off when the youngest layer carries a shield. *)
  Definition erode_shielded (shield depth : T) (layers : list (T * T)) :=
    match layers with
    | [] => []
    | (_, ej) :: _ => if ltb A shield ej then layers else erode_stack depth layers
    end.

  (** What happens in one timestep: ballistic sedimentation of the existing
      stack, deposition of this step's ice and ejecta, then overturn. *)
  Record event := mk_event {
    ev_ice : T; ev_ej : T; ev_bsed_depth : T; ev_bsed_frac : T; ev_overturn : T }.

  Definition overturn_stack (costello : bool) (shield depth : T)
    (layers : list (T * T)) : list (T * T) :=
    if costello then garden_stack (zero A) depth (one A) layers
    else erode_shielded shield depth layers.

  Definition step (costello : bool) (shield : T) (layers : list (T * T)) (e : event)
    : list (T * T) :=
    overturn_stack costello shield (ev_overturn e)
      ((ev_ice e, ev_ej e)
         :: garden_stack (zero A) (ev_bsed_depth e) (ev_bsed_frac e) layers).

  (** The append-only simulation. *)
  Definition simulate (costello : bool) (shield : T) (events : list event)
    : list (T * T) :=
    fold_left (step costello shield) events [].
End Stack.

Arguments mk_event {T} _ _ _ _ _.
Arguments ev_ice {T} _.
Arguments ev_ej {T} _.
Arguments ev_bsed_depth {T} _.
Arguments ev_bsed_frac {T} _.
Arguments ev_overturn {T} _.

(** Every entry of [new] is between 0 and the corresponding entry of [old]. *)
Definition only_removed (new old : list R) : Prop :=
  Forall2 (fun n o => 0 <= n <= o)%R new old.

(** Gardening of exact reals, written with [Rmin] as in the documentation:
    remove [eff] of the ice but no more than is needed to reach [depth]. *)
Fixpoint garden_R (d depth eff : R) (layers : list (R * R)) : list (R * R) :=
  match layers with
  | [] => []
  | (ice, ej) :: deeper =>
    if Rltb (d + ej) depth then
      if Rltb d depth then
        let ice' := (ice - Rmin (ice * eff) (depth - (d + ej)))%R in
        (ice', ej) :: garden_R (d + ej + ice') depth eff deeper
      else layers
    else layers
  end%R.

(** [l[a:b]] for non-negative [a <= b]. *)
Definition slice {A} (a b : nat) (l : list A) : list A := firstn (b - a) (skipn a l).

(** Layers [0 .. k-1] of a pair of arrays as a stack, youngest first. *)
Definition stack_of {A} (k : nat) (ice ej : list A) : list (A * A) :=
  rev (combine (firstn k ice) (firstn k ej)).

(** A stack written back to an array, oldest first. *)
Definition ice_of {A} (layers : list (A * A)) : list A := rev (map fst layers).
