(** Generic vocabulary: Python exceptions as values, list access, booleans on R. *)
From Coq Require Import List ZArith Reals Lia Bool.
Import ListNotations.

(** Python exceptions that the modelled functions can raise. *)
Inductive exn : Set :=
| IndexError | KeyError | ValueError | TypeError | AttributeError
| ZeroDivisionError | FileNotFoundError | OverflowError.

Inductive result (A : Type) : Type :=
| Ok (a : A)
| Err (e : exn).
Arguments Ok {A} _.
Arguments Err {A} _.

Definition bind {A B} (r : result A) (f : A -> result B) : result B :=
  match r with Ok a => f a | Err e => Err e end.

Notation "'let*' x := r 'in' k" := (bind r (fun x => k))
  (at level 200, x pattern, r at level 100, k at level 200, right associativity).

(** [a[i]] for a non-negative index [i]: IndexError past the end. *)
Definition get {A} (l : list A) (i : nat) : result A :=
  match nth_error l i with Some a => Ok a | None => Err IndexError end.

(** [l] with position [i] replaced by [x] (no change past the end). *)
Fixpoint upd {A} (l : list A) (i : nat) (x : A) : list A :=
  match l, i with
  | [], _ => []
  | _ :: r, O => x :: r
  | y :: r, S j => y :: upd r j x
  end.

(** [a[i] = x]: IndexError past the end. *)
Definition set {A} (l : list A) (i : nat) (x : A) : result (list A) :=
  if Nat.ltb i (length l) then Ok (upd l i x) else Err IndexError.

(** Sequential map that stops at the first exception. *)
Fixpoint mapM {A B} (f : A -> result B) (l : list A) : result (list B) :=
  match l with
  | [] => Ok []
  | a :: r => let* b := f a in let* bs := mapM f r in Ok (b :: bs)
  end.

(** Boolean comparisons on the reals. *)
Definition Rltb (x y : R) : bool := if Rlt_dec x y then true else false.
Definition Rleb (x y : R) : bool := if Rle_dec x y then true else false.
Definition Reqb (x y : R) : bool := if Req_EM_T x y then true else false.

(** Sum of a list of reals ([np.sum] in exact arithmetic). *)
Definition Rsum (l : list R) : R := fold_right Rplus 0%R l.
