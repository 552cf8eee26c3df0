(** Arithmetic as an explicit parameter of the column loops.

    The loops of the program run on numpy scalars whose precision depends on the
    inputs (columns may be stored as float32 while depths are float64).  The model
    is written once over [arith]; [exactR] is exact real arithmetic,
    [roundedR rw rs] rounds every operation with [rw] and every value stored in a
    column with [rs], [exactQ] is for computation. *)
From Coq Require Import Reals QArith Qminmax.
From Verif Require Import Base.

Record arith (T : Type) := {
  zero : T;
  one : T;
  add : T -> T -> T;
  sub : T -> T -> T;
  mul : T -> T -> T;
  ltb : T -> T -> bool;
  store : T -> T           (* conversion to the precision of the column *)
}.
Arguments zero {T} _.
Arguments one {T} _.
Arguments add {T} _ _ _.
Arguments sub {T} _ _ _.
Arguments mul {T} _ _ _.
Arguments ltb {T} _ _ _.
Arguments store {T} _ _.

Definition exactR : arith R := {|
  zero := 0%R; one := 1%R; add := Rplus; sub := Rminus; mul := Rmult;
  ltb := Rltb; store := fun x => x |}.

Definition roundedR (rw rs : R -> R) : arith R := {|
  zero := 0%R; one := 1%R;
  add := fun x y => rw (x + y)%R;
  sub := fun x y => rw (x - y)%R;
  mul := fun x y => rw (x * y)%R;
  ltb := Rltb; store := rs |}.

Definition Qltb (x y : Q) : bool := negb (Qle_bool y x).

Definition exactQ : arith Q := {|
  zero := 0%Q; one := 1%Q; 
  add := fun x y => Qred (x + y)%Q; sub := fun x y => Qred (x - y)%Q; 
  mul := fun x y => Qred (x * y)%Q;
  ltb := Qltb; store := fun x => x |}.

(** What is assumed of the two roundings: monotone, idempotent, exact at 0 and 1,
    and every value of the storage format is a value of the working format. *)
Record fp_ok (rw rs : R -> R) : Prop := {
  rw_mono : forall x y, (x <= y)%R -> (rw x <= rw y)%R;
  rw_idem : forall x, rw (rw x) = rw x;
  rw_0 : rw 0%R = 0%R;
  rw_1 : rw 1%R = 1%R;
  rs_mono : forall x y, (x <= y)%R -> (rs x <= rs y)%R;
  rs_idem : forall x, rs (rs x) = rs x;
  rs_0 : rs 0%R = 0%R;
  rw_rs : forall x, rw (rs x) = rs x
}.
