(** Vocabulary of the theorems about the stratigraphy figure. *)
From Coq Require Import String Ascii List ZArith Reals Bool Sorted.
From Verif Require Import Base Model_Strat Model_Plot Model_Figure.
Import ListNotations.
Open Scope R_scope.

(** Artist [k] of axis [p]. *)
Definition artist_at (axes : list (list artist)) (p k : nat) : option artist :=
  match nth_error axes p with Some arts => nth_error arts k | None => None end.

(** The order in which artists were drawn. *)
Definition drawn_before (a b : nat * nat) : Prop := (fst a < fst b \/ fst a = fst b /\ snd a < snd b)%nat.

(** matplotlib's rule: a label that is not empty and does not begin with an underscore. *)
Definition public (l : string) : Prop := l <> EmptyString /\ forall r, l <> String "_" r.

Definition colour_of (label : string) : R := if String.eqb label "Ice" then 100 else 0.

(** The axis of a cold trap: the columns of a seed are next to each other, one axis is left
    free between two seeds. *)
Definition axis_of (ncts s i : nat) : nat := (s * (ncts + 1) + i)%nat.

(** The value of a hexadecimal digit. *)
Definition digit_value (c : ascii) (n : nat) : Prop :=
  String.get n "0123456789abcdef" = Some c \/ String.get n "0123456789ABCDEF" = Some c.

(** A colour code of six digits, with or without "#": red, green and blue from 0 to 255. *)
Definition six_digits (s : string) (r g b : nat) : Prop :=
  exists c1 c2 c3 c4 c5 c6 d1 d2 d3 d4 d5 d6,
    digit_value c1 d1 /\ digit_value c2 d2 /\ digit_value c3 d3 /\ digit_value c4 d4 /\
    digit_value c5 d5 /\ digit_value c6 d6 /\
    r = (16 * d1 + d2)%nat /\ g = (16 * d3 + d4)%nat /\ b = (16 * d5 + d6)%nat /\
    let t := String c1 (String c2 (String c3 (String c4 (String c5 (String c6 EmptyString))))) in
    s = t \/ s = String "#" t.

(** The name of one file or directory. *)
Definition plain_name (n : string) : Prop :=
  n <> ""%string /\ n <> "."%string /\ n <> ".."%string /\ forall a b, n <> (a ++ "/" ++ b)%string.

(** Colours as red, green and blue from 0 to 255; a code for each. *)
Definition codes_of (codes : list string) (cols : list (nat * nat * nat)) : Prop :=
  Forall2 (fun s '(r, g, b) => six_digits s r g b) codes cols.

(** The colour that is the part [w] of the way from one colour to another, on the scale
    that the code uses: 256 stands for 1. *)
Definition mix (w : R) (x y : nat * nat * nat) : list R :=
  let m a b := (1 - w) * (INR a / 256) + w * (INR b / 256) in
  let '(r, g, b) := x in
  let '(r', g', b') := y in [m r r'; m g g'; m b b'].
