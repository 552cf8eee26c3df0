(** Bounds used for the figures of ejecta. *)
From Coq Require Import String List ZArith Reals Lia Lra Psatz Bool.
From Verif Require Import Base Model_Time Model_Geo Model_Crater Model_Curves Proofs_Base Proofs_Time Proofs_Crater Proofs_Scaling.
Import ListNotations.
Open Scope R_scope.

Lemma sin_low x : 0 <= x <= 1 -> x - x ^ 3 / 6 <= sin x.
Proof.
  intros H. pose proof PI2_3_2. destruct (SIN x) as [L _]; try lra.
  unfold sin_lb, sin_approx, sin_term in L. cbn [sum_f_R0 Nat.mul Nat.add] in L.
  rewrite !INR_IZR_INZ in L. simpl fact in L. cbn [Z.of_nat Pos.of_succ_nat Pos.succ] in L.
  assert (G : 0 <= x ^ 5 / 120 - x ^ 7 / 5040).
  { assert (P5 : 0 <= x ^ 5) by (apply pow_le; lra). assert (E7 : x ^ 7 = x ^ 5 * (x * x)) by ring. rewrite E7.
    assert (x * x <= 1) by nra. revert P5. generalize (x ^ 5). intros y Hy. nra. }
  cbn [pow] in *. lra.
Qed.

Lemma cos_low x : 0 <= x <= 1 -> 1 - x ^ 2 / 2 <= cos x.
Proof.
  intros H. replace x with (2 * (x / 2)) at 2 by lra. rewrite cos_2a_sin.
  assert (0 <= sin (x / 2)) by (apply sin_ge_0; pose proof PI2_3_2; lra).
  assert (sin (x / 2) <= x / 2).
  { destruct (Req_dec x 0) as [->|N]; [replace (0 / 2) with 0 by lra; rewrite sin_0; lra|]. pose proof (sin_lt_x (x / 2) ltac:(lra)). lra. }
  assert (sin (x / 2) * sin (x / 2) <= x / 2 * (x / 2)) by nra. nra.
Qed.

(** The tangent of a small angle. *)
Lemma tan_near x : 0 <= x <= 1 / 100 -> x - x ^ 3 / 6 <= tan x <= x * (1 + x).
Proof.
  intros H. pose proof (sin_low x ltac:(lra)) as S1. pose proof (cos_low x ltac:(lra)) as C1.
  pose proof (COS_bound x) as [_ C2].
  assert (S2 : sin x <= x).
  { destruct (Req_dec x 0) as [->|N]; [rewrite sin_0; lra|]. pose proof (sin_lt_x x ltac:(lra)). lra. }
  assert (0 <= sin x) by (apply sin_ge_0; pose proof PI2_3_2; lra).
  assert (P : 0 < cos x) by nra. unfold tan. split.
  - apply Rle_trans with (sin x); [exact S1|]. apply Rmult_le_reg_r with (cos x); [exact P|]. unfold Rdiv. rewrite Rmult_assoc, Rinv_l by lra. nra.
  - apply Rmult_le_reg_r with (cos x); [exact P|]. unfold Rdiv. rewrite Rmult_assoc, Rinv_l by lra.
    assert (x <= x * (1 + x) * cos x); [|lra]. assert (1 <= (1 + x) * cos x) by nra. nra.
Qed.

Lemma tan_tight x u : 0 < x <= 1 / 100 -> x <= u * (1 - x ^ 2 / 2) -> tan x <= u.
Proof.
  intros H U. pose proof (cos_low x ltac:(lra)) as C1. pose proof (sin_lt_x x ltac:(lra)) as S2.
  assert (P : 0 < cos x) by nra. assert (P' : 0 < 1 - x ^ 2 / 2) by nra.
  assert (0 <= u) by (destruct (Rle_lt_dec 0 u) as [L|L]; [exact L|]; pose proof (Rmult_lt_compat_r _ _ _ P' L); lra).
  unfold tan. apply Rmult_le_reg_r with (cos x); [exact P|].
  unfold Rdiv. rewrite Rmult_assoc, Rinv_l by lra. apply Rle_trans with (u * (1 - x ^ 2 / 2)); [lra|]. apply Rmult_le_compat_l; lra.
Qed.

Lemma power_bounds : 1043 < Rpower 12000 (74 / 100) < 1044.
Proof.
  assert (E : Rpower 12000 (74 / 100) = Rpower (12000 ^ 37) (1 / 50)).
  { rewrite <- Rpower_pow by lra. rewrite Rpower_mult. f_equal. rewrite INR_IZR_INZ. cbn [Z.of_nat Pos.of_succ_nat Pos.succ]. lra. }
  assert (F : forall q, 0 < q -> q = Rpower (q ^ 50) (1 / 50)).
  { intros q Hq. rewrite <- Rpower_pow by exact Hq. rewrite Rpower_mult.
    replace (INR 50 * (1 / 50)) with 1 by (rewrite INR_IZR_INZ; cbn [Z.of_nat Pos.of_succ_nat Pos.succ]; lra).
    now rewrite Rpower_1. }
  rewrite E. split.
  - rewrite (F 1043) by lra. apply Rpower_lt_pos; [lra|apply pow_lt; lra|].
    rewrite !pow_IZR. apply IZR_lt. vm_compute. reflexivity.
  - rewrite (F 1044) by lra. apply Rpower_lt_pos; [lra|apply pow_lt; lra|].
    rewrite !pow_IZR. apply IZR_lt. vm_compute. reflexivity.
Qed.

(** On Earth at 45 degrees, for short ranges. *)
Lemma earth_speed c d : impact_angle c = 45 -> 0 < d <= 100000 ->
  let t := tan (d / (2 * 6371000)) in 0 < t /\
  exists v, ballistic_velocity (earth c) d = Some v /\ 0 < v /\ v ^ 2 = 2 * (981 / 100) * 6371000 * t / (1 + t).
Proof.
  intros A D t. assert (B : 0 <= d / (2 * 6371000) <= 1 / 100) by lra.
  assert (T : 0 < t).
  { unfold t. pose proof (tan_near (d / (2 * 6371000)) B) as [L _].
    assert (0 < d / (2 * 6371000)) by lra. revert L H B. generalize (d / (2 * 6371000)). intros y L H B. nra. }
  split; [exact T|]. unfold ballistic_velocity. cbn [earth rad_moon grav_moon impact_angle]. rewrite A.
  unfold deg2rad. replace (45 * (PI / 180)) with (PI / 4) by field.
  assert (Cc : cos (d / (2 * 6371000)) <> 0).
  { pose proof (cos_low (d / (2 * 6371000)) ltac:(lra)) as C. revert C B. generalize (d / (2 * 6371000)). intros y C B. nra. }
  rewrite otan_ok by exact Cc. fold t. cbn [obind].
  assert (S2 : sin (PI / 4) * cos (PI / 4) = 1 / 2 /\ cos (PI / 4) ^ 2 = 1 / 2).
  { rewrite sin_PI4, cos_PI4. pose proof (sqrt_lt_R0 2 ltac:(lra)). pose proof (sqrt_sqrt 2 ltac:(lra)) as Q2.
    assert (E : 1 / sqrt 2 * (1 / sqrt 2) = 1 / 2) by (replace (1 / sqrt 2 * (1 / sqrt 2)) with (1 / (sqrt 2 * sqrt 2)) by (field; lra); rewrite Q2; reflexivity).
    split; [exact E|]. rewrite <- Rsqr_pow2. exact E. }
  destruct S2 as [S2 S3]. rewrite S2, S3. rewrite odiv_ok by lra. cbn [obind].
  set (q := 981 / 100 * 6371000 * t / (1 / 2 + 1 / 2 * t)).
  assert (Eq : q = 2 * (981 / 100) * 6371000 * t / (1 + t)) by (unfold q; field; lra).
  assert (Pq : 0 < q) by (rewrite Eq; apply Rdiv_lt_0_compat; [apply Rmult_lt_0_compat; lra|lra]).
  clearbody q. rewrite osqrt_ok by lra. exists (sqrt q). repeat split; [apply sqrt_lt_R0; exact Pq|].
  rewrite <- Rsqr_pow2, Rsqr_sqrt by lra. exact Eq.
Qed.

(** ** Radii *)

Lemma geom_in lo hi n x : 0 < lo -> lo < hi -> (2 <= n)%nat -> In x (geomspace lo hi n) -> lo <= x <= hi.
Proof.
  intros P L Hn H. unfold geomspace in H. apply in_map_iff in H. destruct H as (i & <- & Hi). apply in_seq in Hi.
  assert (Q : 1 < hi / lo) by (apply Rmult_lt_reg_r with lo; [exact P|]; unfold Rdiv; rewrite Rmult_assoc, Rinv_l by lra; lra).
  assert (N : 0 < INR (n - 1)) by (apply lt_0_INR; lia).
  assert (I0 : 0 <= INR i / INR (n - 1) <= 1).
  { pose proof (pos_INR i). assert (INR i <= INR (n - 1)) by (apply le_INR; lia). split; [apply Rmult_le_pos; [lra|left; apply Rinv_0_lt_compat; exact N]|].
    apply Rmult_le_reg_r with (INR (n - 1)); [exact N|]. unfold Rdiv. rewrite Rmult_assoc, Rinv_l by lra. lra. }
  revert I0. generalize (INR i / INR (n - 1)). intros w I0.
  assert (1 <= Rpower (hi / lo) w <= hi / lo).
  { split.
    - rewrite <- (Rpower_O (hi / lo)) at 1 by lra. apply Rle_Rpower; lra.
    - rewrite <- (Rpower_1 (hi / lo)) at 2 by lra. apply Rle_Rpower; lra. }
  split; [nra|]. apply Rle_trans with (lo * (hi / lo)); [apply Rmult_le_compat_l; lra|]. right. field. lra.
Qed.

Lemma geom_len lo hi n : length (geomspace lo hi n) = n.
Proof. unfold geomspace. now rewrite map_length, seq_length. Qed.

Lemma geom_first lo hi n : 0 < lo -> lo < hi -> (2 <= n)%nat -> nth_error (geomspace lo hi n) 0 = Some lo.
Proof.
  intros P L Hn. unfold geomspace. rewrite nth_error_map. destruct n; [lia|]. cbn [seq nth_error option_map]. f_equal.
  change (INR 0) with 0. replace (0 / INR (S n - 1)) with 0 by (unfold Rdiv; ring). rewrite Rpower_O; [ring|].
  apply Rdiv_lt_0_compat; lra.
Qed.

Lemma geom_last lo hi n : 0 < lo -> lo < hi -> (2 <= n)%nat -> nth_error (geomspace lo hi n) (n - 1) = Some hi.
Proof.
  intros P L Hn. unfold geomspace. rewrite nth_error_map.
  assert (E : nth_error (seq 0 n) (n - 1) = Some (n - 1)%nat).
  { rewrite (nth_error_nth' _ 0%nat) by (rewrite seq_length; lia). rewrite seq_nth by lia. reflexivity. }
  rewrite E. cbn [option_map]. f_equal. assert (0 < INR (n - 1)) by (apply lt_0_INR; lia).
  replace (INR (n - 1) / INR (n - 1)) with 1 by (field; lra). rewrite Rpower_1 by (apply Rdiv_lt_0_compat; lra). field. lra.
Qed.
