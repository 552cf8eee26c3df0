(** The default chronology counts are positive, so the default configuration is sane. *)
From Coq Require Import String List ZArith Reals Lia Lra Psatz Bool Sorted.
From Verif Require Import Base Model_Time Model_Geo Model_Interp Model_Crater Model_Ice Model_Rng Spec_Ice Proofs_Base
  Proofs_Time Proofs_Geo Proofs_Interp Proofs_Crater Proofs_Scaling Proofs_Ice Proofs_Rng.
Import ListNotations.
Open Scope R_scope.

Lemma ln10_pos : 0 < ln 10.
Proof. rewrite <- ln_1. apply ln_increasing; lra. Qed.

Lemma log10_pow10 n : log10 (10 ^ n) = INR n.
Proof. unfold log10. rewrite ln_pow by lra. pose proof ln10_pos. field. lra. Qed.

Lemma log10_mult a b : 0 < a -> 0 < b -> log10 (a * b) = log10 a + log10 b.
Proof. intros. unfold log10. rewrite ln_mult by auto. pose proof ln10_pos. field. lra. Qed.

Lemma log10_lower x m n : 0 < x -> (0 < n)%nat -> 10 ^ m < x ^ n -> INR m / INR n < log10 x.
Proof.
  intros Hx Hn H. assert (0 < INR n) by now apply lt_0_INR. unfold log10. pose proof ln10_pos.
  assert (Hl : INR m * ln 10 < INR n * ln x).
  { rewrite <- !ln_pow by lra. apply ln_increasing; auto. apply pow_lt. lra. }
  apply Rmult_lt_reg_r with (INR n * ln 10); [apply Rmult_lt_0_compat; auto|].
  replace (INR m / INR n * (INR n * ln 10)) with (INR m * ln 10) by (field; lra).
  replace (ln x / ln 10 * (INR n * ln 10)) with (INR n * ln x) by (field; lra). exact Hl.
Qed.

Lemma log10_upper x m n : 0 < x -> (0 < n)%nat -> x ^ n < 10 ^ m -> log10 x < INR m / INR n.
Proof.
  intros Hx Hn H. assert (0 < INR n) by now apply lt_0_INR. unfold log10. pose proof ln10_pos.
  assert (Hl : INR n * ln x < INR m * ln 10).
  { rewrite <- !ln_pow by lra. apply ln_increasing; auto. apply pow_lt. lra. }
  apply Rmult_lt_reg_r with (INR n * ln 10); [apply Rmult_lt_0_compat; auto|].
  replace (INR m / INR n * (INR n * ln 10)) with (INR m * ln 10) by (field; lra).
  replace (ln x / ln 10 * (INR n * ln 10)) with (INR n * ln x) by (field; lra). exact Hl.
Qed.

Lemma log_15 : 1 / 6 < log10 (3 / 2) < 1 / 5.
Proof.
  split.
  - replace (1 / 6) with (INR 1 / INR 6) by (simpl; lra). apply log10_lower; [lra|lia|simpl; lra].
  - replace (1 / 5) with (INR 1 / INR 5) by (simpl; lra). apply log10_upper; [lra|lia|simpl; lra].
Qed.
Lemma log_3 : 10 / 21 < log10 3 < 11 / 23.
Proof.
  split.
  - replace (10 / 21) with (INR 10 / INR 21) by (simpl; lra). apply log10_lower; [lra|lia|lra].
  - replace (11 / 23) with (INR 11 / INR 23) by (simpl; lra). apply log10_upper; [lra|lia|lra].
Qed.
Lemma log_tenth : log10 (1 / 10) = - 1.
Proof.
  pose proof (log10_mult (1 / 10) 10 ltac:(lra) ltac:(lra)) as H.
  replace (1 / 10 * 10) with 1 in H by lra. unfold log10 in H at 1. rewrite ln_1 in H.
  pose proof (log10_pow10 1) as H1. simpl in H1. rewrite Rmult_1_r in H1. rewrite H1 in H. lra.
Qed.
Lemma log_15k : log10 15 = 1 + log10 (3 / 2).
Proof.
  replace 15 with (10 ^ 1 * (3 / 2)) by (simpl; lra). rewrite log10_mult by lra. rewrite log10_pow10. simpl. lra.
Qed.
Lemma log_300k : log10 300 = 2 + log10 3.
Proof.
  replace 300 with (10 ^ 2 * 3) by (simpl; lra). rewrite log10_mult by lra. rewrite log10_pow10. simpl. lra.
Qed.

Definition P : R -> R := poly_from 0 (neukum_2001 ICFG0).

Lemma pow_bounds lo hi x n : 0 <= lo -> lo <= x <= hi -> lo ^ n <= x ^ n <= hi ^ n.
Proof. intros. split; apply pow_incr; lra. Qed.

Lemma P_m1 : 0 < P (- 1).
Proof. unfold P. cbn [poly_from neukum_2001 ICFG0]. simpl pow. lra. Qed.

Ltac pbounds lo hi x H :=
  pose proof (pow_bounds lo hi x 2 ltac:(lra) H); pose proof (pow_bounds lo hi x 3 ltac:(lra) H);
  pose proof (pow_bounds lo hi x 4 ltac:(lra) H); pose proof (pow_bounds lo hi x 5 ltac:(lra) H);
  pose proof (pow_bounds lo hi x 6 ltac:(lra) H); pose proof (pow_bounds lo hi x 7 ltac:(lra) H);
  pose proof (pow_bounds lo hi x 8 ltac:(lra) H); pose proof (pow_bounds lo hi x 9 ltac:(lra) H);
  pose proof (pow_bounds lo hi x 10 ltac:(lra) H); pose proof (pow_bounds lo hi x 11 ltac:(lra) H).

Lemma P_02 x : 1 / 6 <= x <= 1 / 5 -> - 4 < P x < - 3.
Proof.
  intros H. pbounds (1 / 6) (1 / 5) x H. unfold P. cbn [poly_from neukum_2001 ICFG0].
  rewrite pow_O, pow_1. lra.
Qed.
Lemma P_12 x : 7 / 6 <= x <= 6 / 5 -> - (65 / 10) < P x < - (45 / 10).
Proof.
  intros H. pbounds (7 / 6) (6 / 5) x H. unfold P. cbn [poly_from neukum_2001 ICFG0].
  rewrite pow_O, pow_1. lra.
Qed.
Lemma P_25 x : 52 / 21 <= x <= 57 / 23 -> P x < - 7.
Proof.
  intros H. pbounds (52 / 21) (57 / 23) x H. unfold P. cbn [poly_from neukum_2001 ICFG0].
  rewrite pow_O, pow_1. lra.
Qed.

Lemma neukum_lt d d' : P (log10 (d' * (1 / 1000))) < P (log10 (d * (1 / 1000))) -> neukum ICFG0 d' < neukum ICFG0 d.
Proof.
  intros H. unfold neukum. cbv zeta. change (neukum_new ICFG0) with true. cbv iota. fold P.
  assert (Rpower 10 (P (log10 (d' * (1 / 1000)))) < Rpower 10 (P (log10 (d * (1 / 1000))))).
  { unfold Rpower. apply exp_increasing. apply Rmult_lt_compat_r; auto. apply ln10_pos. }
  lra.
Qed.

Lemma neukum_c : neukum ICFG0 1500 < neukum ICFG0 100.
Proof.
  apply neukum_lt. replace (1500 * (1 / 1000)) with (3 / 2) by lra. replace (100 * (1 / 1000)) with (1 / 10) by lra.
  rewrite log_tenth. pose proof log_15. pose proof (P_02 (log10 (3 / 2)) ltac:(lra)). pose proof P_m1. lra.
Qed.
Lemma neukum_d : neukum ICFG0 15000 < neukum ICFG0 1500.
Proof.
  apply neukum_lt. replace (1500 * (1 / 1000)) with (3 / 2) by lra. replace (15000 * (1 / 1000)) with 15 by lra.
  rewrite log_15k. pose proof log_15. pose proof (P_02 (log10 (3 / 2)) ltac:(lra)).
  pose proof (P_12 (1 + log10 (3 / 2)) ltac:(lra)). lra.
Qed.
Lemma neukum_e : neukum ICFG0 300000 < neukum ICFG0 15000.
Proof.
  apply neukum_lt. replace (15000 * (1 / 1000)) with 15 by lra. replace (300000 * (1 / 1000)) with 300 by lra.
  rewrite log_15k, log_300k. pose proof log_15. pose proof log_3.
  pose proof (P_12 (1 + log10 (3 / 2)) ltac:(lra)). pose proof (P_25 (2 + log10 3) ltac:(lra)). lra.
Qed.

Lemma icfg0_speeds : speeds_sane ICFG0.
Proof. repeat split; cbn [escape_vel impact_speed_sd jfc_sd lpc_sd jfc_frac lpc_frac comet_speed_min comet_speed_max jfc_mean lpc_mean ICFG0]; lra. Qed.

Lemma f2t_default_le : final2transient (crat ICFG0) 100 <= final2transient (crat ICFG0) 1500.
Proof.
  cbn [crat ICFG0].
  destruct (f2t_cases CFG0 100) as [[A ->]|[[A _]|[A _]]]; cbn [simple2complex complex2peakring CFG0] in *; try lra.
  destruct (f2t_cases CFG0 1500) as [[B ->]|[[B _]|[B _]]]; cbn [simple2complex complex2peakring CFG0] in *; lra.
Qed.

Lemma sane_default : sane ICFG0.
Proof.
  constructor; cbn [ice_species area_H2O ice_density hop_effcy timestep mm_mass_rate ctype_frac ctype_hydrated
    hydrated_wt_pct impact_mass_retained comet_ast_frac comet_density comet_hydrated_wt_pct comet_mass_retained
    brown_d0 earth_moon_ratio sa_moon crat impactor_density target_density grav_moon impact_speed_mean
    simple2complex complex2peakring ICFG0 CFG0]; try lra.
  - reflexivity.
  - pose proof PI_RGT_0. lra.
  - do 4 eexists. split; [reflexivity|]. apply f2t_default_le.
  - exact icfg0_speeds.
  - intros r [<-|[<-|[<-|[<-|[]]]]]; do 4 eexists; (split; [reflexivity|]); lra.
  - intros r [<-|[<-|[<-|[]]]]; do 4 eexists; (split; [reflexivity|]);
      [left; apply neukum_c|left; apply neukum_d|left; apply neukum_e].
Qed.

(** Both chronologies. *)
Definition P83 : R -> R := poly_from 0 (neukum_1983 ICFG0).
Lemma P83_m1 : 0 < P83 (- 1).
Proof. unfold P83. cbn [poly_from neukum_1983 ICFG0]. simpl pow. lra. Qed.
Lemma P83_02 x : 1 / 6 <= x <= 1 / 5 -> - 4 < P83 x < - 3.
Proof.
  intros H. pbounds (1 / 6) (1 / 5) x H. unfold P83. cbn [poly_from neukum_1983 ICFG0].
  rewrite pow_O, pow_1. lra.
Qed.
Lemma P83_12 x : 7 / 6 <= x <= 6 / 5 -> - (65 / 10) < P83 x < - (45 / 10).
Proof.
  intros H. pbounds (7 / 6) (6 / 5) x H. unfold P83. cbn [poly_from neukum_1983 ICFG0].
  rewrite pow_O, pow_1. lra.
Qed.
Lemma P83_25 x : 52 / 21 <= x <= 57 / 23 -> P83 x < - 7.
Proof.
  intros H. pbounds (52 / 21) (57 / 23) x H. unfold P83. cbn [poly_from neukum_1983 ICFG0].
  rewrite pow_O, pow_1. lra.
Qed.
Lemma neukum_both i : neukum_2001 i = neukum_2001 ICFG0 -> neukum_1983 i = neukum_1983 ICFG0 ->
  neukum i 1500 < neukum i 100 /\ neukum i 15000 < neukum i 1500 /\ neukum i 300000 < neukum i 15000.
Proof.
  intros A B. set (Q := if neukum_new i then P else P83).
  assert (L : forall d d', Q (log10 (d' * (1 / 1000))) < Q (log10 (d * (1 / 1000))) -> neukum i d' < neukum i d).
  { intros d d' H. unfold neukum. cbv zeta. rewrite A, B.
    assert (X : (fun x => poly_from 0 (if neukum_new i then neukum_2001 ICFG0 else neukum_1983 ICFG0) x) = Q)
      by (unfold Q, P, P83; destruct (neukum_new i); reflexivity).
    assert (Y : forall x, poly_from 0 (if neukum_new i then neukum_2001 ICFG0 else neukum_1983 ICFG0) x = Q x)
      by (intros x; rewrite <- X; reflexivity).
    rewrite !Y.
    assert (Rpower 10 (Q (log10 (d' * (1 / 1000)))) < Rpower 10 (Q (log10 (d * (1 / 1000))))).
    { unfold Rpower. apply exp_increasing. apply Rmult_lt_compat_r; auto. apply ln10_pos. }
    lra. }
  assert (M : 0 < Q (- 1)) by (unfold Q; destruct (neukum_new i); [apply P_m1|apply P83_m1]).
  assert (B2 : forall x, 1 / 6 <= x <= 1 / 5 -> - 4 < Q x < - 3)
    by (intros x; unfold Q; destruct (neukum_new i); [apply P_02|apply P83_02]).
  assert (B12 : forall x, 7 / 6 <= x <= 6 / 5 -> - (65 / 10) < Q x < - (45 / 10))
    by (intros x; unfold Q; destruct (neukum_new i); [apply P_12|apply P83_12]).
  assert (B25 : forall x, 52 / 21 <= x <= 57 / 23 -> Q x < - 7)
    by (intros x; unfold Q; destruct (neukum_new i); [apply P_25|apply P83_25]).
  pose proof log_15. pose proof log_3.
  pose proof (B2 (log10 (3 / 2)) ltac:(lra)). pose proof (B12 (1 + log10 (3 / 2)) ltac:(lra)).
  pose proof (B25 (2 + log10 3) ltac:(lra)).
  repeat split; apply L;
    replace (1500 * (1 / 1000)) with (3 / 2) by lra; replace (100 * (1 / 1000)) with (1 / 10) by lra;
    replace (15000 * (1 / 1000)) with 15 by lra; replace (300000 * (1 / 1000)) with 300 by lra;
    rewrite ?log_tenth, ?log_15k, ?log_300k; lra.
Qed.
