(** C100: the heat capacity of regolith, and units of length. *)
From Coq Require Import ZArith QArith Qreals Bool String List Reals Lra Lia Psatz.
From Verif Require Import Base Model_Cfg Spec_Cfg Proofs_Cfg Props_Cfg Model_Run Proofs_Run Model_Heat Props_Run Model_Thermal.
Import ListNotations.
Open Scope R_scope.

(** The options of the thermal module are not given by the user. *)
Definition no_coefficients (kw : cfg) : Prop := lookup "specific_heat_coeffs" kw = None.

Definition heat (T : R) : R := - (289 / 80) + 27431 / 10000 * T + 369 / 156250 * T ^ 2 - 617 / 50000000 * T ^ 3 + 89093 / 10000000000000 * T ^ 4.
Lemma heat_is : forall E kw c T, Cfg E kw = Ok c -> no_coefficients kw -> specific_heat_capacity T c = Ok (heat T).
Proof.
  intros E kw c T H U. unfold specific_heat_capacity.
  assert (V : getv c "specific_heat_coeffs" = default_of "specific_heat_coeffs").
  { assert (S : start kw "specific_heat_coeffs" = default_of "specific_heat_coeffs") by (unfold start; rewrite U; reflexivity).
    assert (I : In "specific_heat_coeffs"%string options) by (apply existsb_eqb; vm_compute; reflexivity).
    pose proof (C39_user_wins E kw c "specific_heat_coeffs" H I eq_refl) as X. rewrite S in X. specialize (X ltac:(discriminate)).
    assert (Y : stored E "specific_heat_coeffs" (default_of "specific_heat_coeffs") (default_of "specific_heat_coeffs")) by (vm_compute; reflexivity).
    unfold stored in X, Y. congruence. }
  rewrite V. match goal with |- context [opt_reals ?v] => let w := eval vm_compute in v in change v with w end.
  cbn [opt_reals mapM opt_real bind]. f_equal. unfold heat, Q2R. cbn [Qnum Qden]. lra.
Qed.

(** *** Any coefficients *)

Lemma user_coeffs : forall E kw c l, Cfg E kw = Ok c -> lookup "specific_heat_coeffs" kw = Some (VTuple l) -> getv c "specific_heat_coeffs" = VTuple l.
Proof.
  intros E kw c l H L. apply (C41_kept E kw c _ _ H); auto. apply existsb_eqb. vm_compute. reflexivity.
Qed.
Lemma reals_of : forall qs, mapM opt_real (map (fun q => VFloat (Fin q)) qs) = Ok (map Q2R qs).
Proof. induction qs as [|q qs IH]; [reflexivity|]. cbn [map mapM opt_real bind]. now rewrite IH. Qed.

(** Five numbers are the coefficients of a polynomial, that of the constant first; any other
    number of them is a ValueError. *)
Theorem C100_coefficients : forall E kw c qs T, Cfg E kw = Ok c ->
  lookup "specific_heat_coeffs" kw = Some (VTuple (map (fun q => VFloat (Fin q)) qs)) ->
  specific_heat_capacity T c = if Nat.eqb (length qs) 5 then Ok (fold_right (fun q rest => Q2R q + T * rest) 0 qs) else Err ValueError.
Proof.
  intros E kw c qs T H L. unfold specific_heat_capacity. rewrite (user_coeffs E kw c _ H L). cbn [opt_reals]. rewrite reals_of. cbn [bind].
  destruct qs as [|a [|b [|d [|e [|f [|g qs]]]]]]; try reflexivity. cbn [map length Nat.eqb fold_right]. f_equal. ring.
Qed.

(** *** The default coefficients *)

Lemma slope : forall t, 0 <= t <= 550 -> 0 < 27431 / 10000 + 2 * (369 / 156250) * t - 3 * (617 / 50000000) * t ^ 2 + 4 * (89093 / 10000000000000) * t ^ 3.
Proof.
  intros t T. destruct (Rle_dec t 200) as [L|L].
  - assert (0 <= t ^ 2 <= 40000) by nra. assert (0 <= t ^ 3) by (apply pow_le; lra). nra.
  - assert (Q : 0 <= (550 - t) * (3 * (617 / 50000000) * (t + 550) - 2 * (369 / 156250) - 4 * (89093 / 10000000000000) * (t ^ 2 + 550 * t + 302500))).
    { apply Rmult_le_pos; [lra|]. nra. }
    nra.
Qed.
(** It is the capacity that the conduction model uses. *)
Theorem C100_same : forall E kw c T, Cfg E kw = Ok c -> no_coefficients kw -> specific_heat_capacity T c = Ok (sphc T).
Proof. intros E kw c T H U. rewrite (heat_is E kw c _ H U). f_equal. unfold heat, sphc. field. Qed.
(** Warmer regolith takes more heat, up to 550 K. *)
Theorem C100_rises : forall E kw c T T' h h', Cfg E kw = Ok c -> no_coefficients kw -> 0 <= T < T' -> T' <= 550 ->
  specific_heat_capacity T c = Ok h -> specific_heat_capacity T' c = Ok h' -> h < h'.
Proof.
  intros E kw c T T' h h' H U L B A A'. rewrite (heat_is E kw c _ H U) in A. rewrite (heat_is E kw c _ H U) in A'.
  assert (Inj : forall a b : R, Ok a = Ok b -> a = b) by congruence. apply Inj in A, A'. subst h h'.
  set (g t := 27431 / 10000 + 2 * (369 / 156250) * t - 3 * (617 / 50000000) * t ^ 2 + 4 * (89093 / 10000000000000) * t ^ 3).
  assert (S : heat T' - heat T = (T' - T) * ((g T + 4 * g ((T + T') / 2) + g T') / 6)) by (unfold heat, g; field).
  assert (0 < g T) by (apply slope; lra). assert (0 < g ((T + T') / 2)) by (apply slope; lra). assert (0 < g T') by (apply slope; lra).
  assert (0 < (T' - T) * ((g T + 4 * g ((T + T') / 2) + g T') / 6)) by (apply Rmult_lt_0_compat; lra). lra.
Qed.
(** Warmer regolith always takes more heat: false from 600 K to 640 K. *)
Theorem C100_rises_refuted : forall E kw c, Cfg E kw = Ok c -> no_coefficients kw ->
  exists h h', specific_heat_capacity 600 c = Ok h /\ specific_heat_capacity 640 c = Ok h' /\ h' < h.
Proof.
  intros E kw c H U. exists (heat 600), (heat 640). rewrite !(heat_is E kw c _ H U). split; [reflexivity|]. split; [reflexivity|]. unfold heat. lra.
Qed.
(** It takes heat from 2 K on, at any temperature. *)
Theorem C100_positive : forall E kw c T h, Cfg E kw = Ok c -> no_coefficients kw -> 2 <= T ->
  specific_heat_capacity T c = Ok h -> 0 < h.
Proof.
  intros E kw c T h H U L A. rewrite (heat_is E kw c _ H U) in A.
  assert (Inj : forall a b : R, Ok a = Ok b -> a = b) by congruence. apply Inj in A. subst h.
  assert (R0 : 2 < 27431 / 10000 + 369 / 156250 * T - 617 / 50000000 * T ^ 2 + 89093 / 10000000000000 * T ^ 3 \/ 4 <= T /\ 1 < 27431 / 10000 + 369 / 156250 * T - 617 / 50000000 * T ^ 2 + 89093 / 10000000000000 * T ^ 3).
  { destruct (Rle_dec T 100) as [B|B].
    - left. assert (0 <= T ^ 3) by (apply pow_le; lra). nra.
    - right. split; [lra|].
      assert (K : 0 <= (T - 815) ^ 2 * (T + 245)) by (apply Rmult_le_pos; [apply pow2_ge_0|lra]). nra. }
  unfold heat. destruct R0 as [R0|[L4 R0]]; nra.
Qed.
(** It always takes heat: false at 1 K. *)
Theorem C100_positive_refuted : forall E kw c, Cfg E kw = Ok c -> no_coefficients kw ->
  exists h, specific_heat_capacity 1 c = Ok h /\ h < 0.
Proof. intros E kw c H U. exists (heat 1). rewrite (heat_is E kw c _ H U). split; [reflexivity|]. unfold heat. lra. Qed.

(** *** Units *)

(** Conversions undo each other, and a length in kilometres is a smaller number. *)
Theorem C100_units : forall x, km2m (m2km x) = x /\ m2km (km2m x) = x /\ (0 < x -> m2km x < x < km2m x) /\ m2km 1000 = 1.
Proof. intros x. unfold km2m, m2km. repeat split; lra. Qed.

(** *** Cases *)

Example C100_case : exists c, Cfg day [] = Ok c /\ no_coefficients [] /\
  exists h, specific_heat_capacity 100 c = Ok h /\ 282 < h < 283.
Proof.
  exists (built_from day []). assert (H : Cfg day [] = Ok (built_from day [])) by (vm_compute; reflexivity).
  split; [exact H|]. split; [reflexivity|]. exists (heat 100). split; [now apply (heat_is day [])|]. unfold heat. lra.
Qed.
Example C100_coefficients_case : let kw := [("specific_heat_coeffs", VTuple (map (fun q => VFloat (Fin q)) [1; 2; 3]%Q))]%string in
  exists c, Cfg day kw = Ok c /\ specific_heat_capacity 100 c = Err ValueError.
Proof.
  cbv zeta. eexists. assert (H : Cfg day [("specific_heat_coeffs", VTuple (map (fun q => VFloat (Fin q)) [1; 2; 3]%Q))]%string = Ok (built_from day [("specific_heat_coeffs", VTuple (map (fun q => VFloat (Fin q)) [1; 2; 3]%Q))]%string)) by (vm_compute; reflexivity).
  split; [exact H|]. rewrite (C100_coefficients day _ _ [1; 2; 3]%Q 100 H); reflexivity.
Qed.

Print Assumptions C100_coefficients.
Print Assumptions C100_same.
Print Assumptions C100_rises.
Print Assumptions C100_rises_refuted.
Print Assumptions C100_positive.
Print Assumptions C100_positive_refuted.
Print Assumptions C100_units.
