(** Vocabulary of the properties of the figure of ice by source over time. *)
From Coq Require Import String List ZArith Reals Bool.
From Verif Require Import Base Model_Time Model_Module Model_Cumulative Spec_Time Spec_Module.
Import ListNotations.
Open Scope R_scope.

(** The steps of which the time is in part [k] of [n] equal parts of the range from [lo] to
    [hi]: after its start and not after its end.  The least time is in the first part. *)
Definition within (n : nat) (lo hi : R) (k : nat) (x : R) : bool :=
  (Rltb (lo + INR k * ((hi - lo) / INR n)) x || (Nat.eqb k 0 && Reqb x lo)) && Rleb x (lo + INR (S k) * ((hi - lo) / INR n)).
Definition part (time : list R) (n : nat) (lo hi : R) (k : nat) : list nat :=
  filter (fun i => match nth_error time i with Some x => within n lo hi k x | None => false end) (seq 0 (length time)).

(** The curves of both panels from the first to the last, by the columns that they show, and
    how a curve is labelled. *)
Definition curve_names : list string :=
  (depths ++ ["Volcanic ice"; "Solar wind ice"; "Micrometeorite ice"; "Small impactor ice"; "Small simple crater ice";
   "Large simple crater ice"; "Large complex crater ice"; "Basin ice"]%string)%list.
Definition labelled (n : string) (cv : curve) : Prop :=
  (In n depths /\ cv_shade cv = true /\ cv_label cv = append "Max " n) \/
  (In n all_ice /\ cv_shade cv = false /\ cv_label cv = n).
(** The mean, if there is one. *)
Definition mean_of (l : list R) : option R := match l with [] => None | _ => Some (mean l) end.
