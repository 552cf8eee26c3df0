(** Vocabulary of the theorems about the figure of impact speeds. *)
From Coq Require Import List Reals Bool.
From Verif Require Import Base Model_Ice.
Import ListNotations.
Open Scope R_scope.

(** What is known of a distribution truncated to [[a, b]]: density, distribution function
    and survival function. *)
Definition below (x : R) (b : option R) : Prop := match b with Some b' => x < b' | None => True end.
Record truncated (pdf cdf sf : R -> option R -> R -> R) : Prop := {
  pdf_nonneg : forall a b x, below a b -> 0 <= pdf a b x;
  pdf_inside : forall a b x, a < x -> below x b -> 0 < pdf a b x;
  pdf_left : forall a b x, x < a -> pdf a b x = 0;
  pdf_right : forall a b x, b < x -> pdf a (Some b) x = 0;
  cdf_range : forall a b x, below a b -> 0 <= cdf a b x <= 1;
  cdf_mono : forall a b x y, below a b -> x <= y -> cdf a b x <= cdf a b y;
  cdf_left : forall a b x, x <= a -> cdf a b x = 0;
  cdf_right : forall a b x, a < b -> b <= x -> cdf a (Some b) x = 1;
  cdf_inside : forall a b x, a < x -> below x b -> 0 < cdf a b x < 1;
  sf_cdf : forall a b x, sf a b x = 1 - cdf a b x }.

(** Distributions like these: uniform between two limits, exponential above one. *)
Definition ex_pdf (a : R) (b : option R) (x : R) : R :=
  match b with
  | Some b' => if Rltb a x && Rltb x b' then 1 / (b' - a) else 0
  | None => if Rltb a x then exp (a - x) else 0
  end.
Definition ex_cdf (a : R) (b : option R) (x : R) : R :=
  if Rleb x a then 0
  else match b with Some b' => if Rleb b' x then 1 else (x - a) / (b' - a) | None => 1 - exp (a - x) end.
Definition ex_sf (a : R) (b : option R) (x : R) : R := 1 - ex_cdf a b x.

(** The numbers of [x] between two limits; the upper one included or not. *)
Definition between (closed : bool) (a b : R) (x : list R) : nat :=
  length (filter (fun y => Rleb a y && if closed then Rleb y b else Rltb y b) x).

(** [m] bars of even width from [lo] to [hi]: each as high as the part of the numbers in it,
    of those in the whole range, over its width; without a height if there are none. *)
Definition shares (lo hi : R) (m : nat) (x : list R) (bs : list (R * R * option R)) : Prop :=
  length bs = m /\
  forall k a b h, nth_error bs k = Some (a, b, h) ->
    a = lo + (hi - lo) * INR k / INR m /\ b = lo + (hi - lo) * INR (k + 1) / INR m /\
    (between true lo hi x = 0%nat -> h = None) /\
    (between true lo hi x <> 0%nat -> exists v, h = Some v /\
       v * (b - a) * INR (between true lo hi x) = INR (between (Nat.eqb (k + 1) m) a b x)).

(** The area of bars. *)
Definition area (bs : list (R * R * option R)) : R :=
  Rsum (map (fun '(a, b, h) => match h with Some v => v * (b - a) | None => 0 end) bs).

(** Where comets are expected: around either mean. *)
Definition comet_speed (c : icfg) (x : R) : Prop :=
  jfc_mean c - comet_speed_min c < x < jfc_mean c + comet_speed_max c \/
  lpc_mean c - comet_speed_min c < x < lpc_mean c + comet_speed_max c.
Definition not_comet_speed (c : icfg) (x : R) : Prop :=
  (x < jfc_mean c - comet_speed_min c \/ jfc_mean c + comet_speed_max c < x) /\
  (x < lpc_mean c - comet_speed_min c \/ lpc_mean c + comet_speed_max c < x).
