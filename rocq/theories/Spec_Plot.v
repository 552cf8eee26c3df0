(** Vocabulary of the theorems about plotted columns and Monte Carlo totals. *)
From Coq Require Import String List Reals Bool Sorted Permutation.
From Verif Require Import Base Model_Strat Model_Plot.
Import ListNotations.
Open Scope R_scope.

(** The depth of the top of a layer: where the layer above it ends, or the surface.
    A table lists the layers from the deepest to the shallowest. *)
Definition top_of (above : list layer) : R :=
  match above with [] => 0 | l :: _ => l_depth l end.

(** The layers at least [m] thick. *)
Fixpoint thick_layers (m : R) (strat : list layer) : list layer :=
  match strat with
  | [] => []
  | l :: above =>
    if Rleb m (l_depth l - top_of above) then l :: thick_layers m above else thick_layers m above
  end.

(** [o] is the layer [l] with its ice percentage. *)
Definition same_layer (l o : layer) : Prop :=
  l_ice o = l_ice l /\ l_ej o = l_ej l /\ l_label o = l_label l /\
  l_time o = l_time l /\ l_depth o = l_depth l /\
  (l_ice l + l_ej l = 0 -> l_icepct o = None) /\
  (l_ice l + l_ej l <> 0 -> l_icepct o = Some (100 * l_ice l / (l_ice l + l_ej l))).

(** pandas sorts: the same rows, ascending; nothing is said about ties. *)
Definition sorts_by {A} (key : A -> R) (sort : list A -> list A) : Prop :=
  forall l, Permutation l (sort l) /\ StronglySorted (fun a b => key a <= key b) (sort l).

(** Layers of positive thickness that end where the layer below begins. *)
Definition stacked (strat : list layer) : Prop :=
  StronglySorted (fun a b => l_depth b < l_depth a) strat /\
  Forall (fun l => 0 < l_depth l) strat.

(** Layer [i] from the top, and the depth at which it begins. *)
Definition layer_from_top (strat : list layer) (i : nat) (l : layer) : Prop :=
  nth_error (rev strat) i = Some l.
Definition begins_at (strat : list layer) (i : nat) (d : R) : Prop :=
  match i with
  | O => d = 0
  | S j => exists l, layer_from_top strat j l /\ d = l_depth l
  end.

(** Each layer holds its ice, which is not more than the layer is thick. *)
Fixpoint holds_ice (strat : list layer) : Prop :=
  match strat with
  | [] => True
  | l :: above => 0 <= l_ice l <= l_depth l - top_of above /\ holds_ice above
  end.

(** With its ice at the bottom of the layer, the ice of [l] above depth [d]. *)
Definition ice_of_layer_above (d : R) (l : layer) : R :=
  Rmin (l_ice l) (Rmax 0 (d - (l_depth l - l_ice l))).
