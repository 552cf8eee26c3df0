(** Heat capacity and units of length: /repo/moonpies/moonpies.py:2417-2430 and 2838-2846.
    Definitions only. *)
From Coq Require Import String List Reals.
From Verif Require Import Base Model_Cfg Model_Run.
Import ListNotations.
Open Scope R_scope.

(** moonpies.py:2418-2430 [specific_heat_capacity(T, cfg)], with real arithmetic.  An option
    that cannot be unpacked into five is a ValueError. *)
Definition specific_heat_capacity (T : R) (c : cfg) : result R :=
  let* l := opt_reals (getv c "specific_heat_coeffs") in
  match l with
  | [c0; c1; c2; c3; c4] => Ok (c0 + c1 * T + c2 * T ^ 2 + c3 * T ^ 3 + c4 * T ^ 4)
  | _ => Err ValueError
  end.

(** moonpies.py:2839-2841 [m2km], 2844-2846 [km2m]. *)
Definition m2km (x : R) : R := x / 1000.
Definition km2m (x : R) : R := x * 1000.
