(** Vocabulary of the theorems about hatches. *)
From Coq Require Import String Ascii List ZArith.
Import ListNotations.

(** A sign written [n] times. *)
Fixpoint times (n : nat) (c : ascii) : string :=
  match n with O => EmptyString | S m => String c (times m c) end.

(** The signs of matplotlib that are used for hatches of ejecta. *)
Definition hatch_signs : list ascii := ["/"; "\"; "|"; "-"; "+"; "x"; "o"]%char.

(** Labels of layers that are not ejecta of a named source. *)
Definition no_source (label : string) : Prop := label = "Ice"%string \/ label = "Other"%string.
