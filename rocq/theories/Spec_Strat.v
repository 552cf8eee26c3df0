(** Vocabulary of the theorems about labels and stratigraphy tables. *)
From Coq Require Import String Ascii List Reals Bool Sorted.
From Verif Require Import Base Model_Strat.
Import ListNotations.
Open Scope R_scope.

(** A timestep is (time, ice, ejecta, sources); the ones that appear in the table. *)
Definition in_span (rnd : R -> R) (tol : R) (after_age : bool) (age : R)
  (s : R * R * R * string) : bool :=
  let '(t, _, _, _) := s in negb after_age || Rltb (rnd t) (age + Rabs age * tol).
Definition visible (thick_min : R) (s : R * R * R * string) : bool :=
  let '(_, i, e, _) := s in Rltb thick_min i || Rltb thick_min e.

(** The label of a visible timestep: ejecta wins over ice. *)
Definition step_label (thick_min : R) (s : R * R * R * string) : string :=
  let '(_, i, e, src) := s in
  if Rltb thick_min e then (if String.eqb src "" then "Minor source(s)" else src)%string
  else "Ice"%string.

(** The labelled rows (ice, ejecta, label, time) that are merged into layers. *)
Definition labelled (rnd : R -> R) (thick_min : R) (s : R * R * R * string)
  : R * R * string * R :=
  let '(t, i, e, _) := s in (rnd i, rnd e, step_label thick_min s, rnd t).

(** The extra first row (formation age) of the table: the time of the first step in span. *)
Definition formation (rnd : R -> R) (after_age : bool) (kept : list (R * R * R * string))
  : list (R * R * string * R) :=
  match after_age, kept with
  | true, (t, _, _, _) :: _ => [(0, 0, "Formation age"%string, rnd t)]
  | _, _ => []
  end.

(** [l] is the layer made of the non-empty group of rows [g]: one label, sums of ice and
    ejecta, time of the last row. *)
Definition is_layer (g : list (R * R * string * R)) (l : layer) : Prop :=
  Forall (fun r => snd (fst r) = l_label l) g /\
  l_ice l = Rsum (map (fun r => fst (fst (fst r))) g) /\
  l_ej l = Rsum (map (fun r => snd (fst (fst r))) g) /\
  exists init r, g = (init ++ [r])%list /\ l_time l = snd r.

(** No comma in a text. *)
Fixpoint no_comma (s : string) : Prop :=
  match s with
  | EmptyString => True
  | String a r => a <> ","%char /\ no_comma r
  end.

(** [iter] lists every element of the set of its argument once. *)
Definition set_order (iter : list string -> list string) : Prop :=
  forall l, NoDup (iter l) /\ forall x, In x (iter l) <-> In x l.
