From Coq Require Import String List ZArith Reals Lia Lra Psatz Bool Sorted.
From Verif Require Import Base Model_Time Model_Geo Model_Interp Model_Crater Proofs_Base Proofs_Time
  Proofs_Geo Proofs_Interp.
Import ListNotations.
Open Scope R_scope.

(** * Powers *)
Lemma Rpower_pos x e : 0 < Rpower x e.
Proof. unfold Rpower. apply exp_pos. Qed.

Lemma Rpower_lt_neg x y e : e < 0 -> 0 < x -> x < y -> Rpower y e < Rpower x e.
Proof.
  intros He Hx Hxy. unfold Rpower. apply exp_increasing.
  pose proof (ln_increasing x y Hx Hxy). nra.
Qed.

Lemma Rpower_lt_pos x y e : 0 < e -> 0 < x -> x < y -> Rpower x e < Rpower y e.
Proof. intros. apply Rlt_Rpower_l; auto. Qed.

Lemma Rpower_1_base e : Rpower 1 e = 1.
Proof. unfold Rpower. rewrite ln_1, Rmult_0_r, exp_0. reflexivity. Qed.

Lemma Rpower_mult_base x y e : 0 < x -> 0 < y -> Rpower (x * y) e = Rpower x e * Rpower y e.
Proof. intros. unfold Rpower. rewrite ln_mult by auto. rewrite Rmult_plus_distr_l, exp_plus. reflexivity. Qed.

Lemma Rpower_inv_exp x e : 0 < x -> e <> 0 -> Rpower (Rpower x e) (1 / e) = x.
Proof.
  intros Hx He. rewrite Rpower_mult. replace (e * (1 / e)) with 1 by (field; auto).
  apply Rpower_1; auto.
Qed.

Lemma Rpower_inv_exp' x e : 0 < x -> e <> 0 -> Rpower (Rpower x (1 / e)) e = x.
Proof.
  intros Hx He. rewrite Rpower_mult. replace (1 / e * e) with 1 by (field; auto).
  apply Rpower_1; auto.
Qed.

Lemma Rpower_div_base x y e : 0 < x -> 0 < y -> Rpower (x / y) e = Rpower x e / Rpower y e.
Proof.
  intros. unfold Rdiv. rewrite Rpower_mult_base by (auto; now apply Rinv_0_lt_compat).
  f_equal. unfold Rpower. rewrite ln_Rinv by auto. rewrite Ropp_mult_distr_r_reverse, exp_Ropp. reflexivity.
Qed.

(** Logarithm bounds without numerics: [1 - 1/x <= ln x <= x - 1]. *)
Lemma ln_upper x : 0 < x -> ln x <= x - 1.
Proof.
  intros H. pose proof (exp_ineq1_le (ln x)). rewrite exp_ln in H0 by auto. lra.
Qed.
Lemma ln_lower x : 0 < x -> 1 - / x <= ln x.
Proof.
  intros H. pose proof (ln_upper (/ x) (Rinv_0_lt_compat _ H)). rewrite ln_Rinv in H0 by auto. lra.
Qed.

(** * Option operations *)
Lemma odiv_ok x y : y <> 0 -> odiv x y = Some (x / y).
Proof. intros H. unfold odiv. replace (Reqb y 0) with false; auto. symmetry. now apply Reqb_false. Qed.
Lemma opow_ok x e : 0 < x -> opow x e = Some (Rpower x e).
Proof. intros H. unfold opow. replace (Rltb 0 x) with true; auto. symmetry. now apply Rltb_true. Qed.
Lemma osqrt_ok x : 0 <= x -> osqrt x = Some (sqrt x).
Proof. intros H. unfold osqrt. replace (Rltb x 0) with false; auto. symmetry. now apply Rltb_false. Qed.
Lemma otan_ok x : cos x <> 0 -> otan x = Some (tan x).
Proof. intros H. unfold otan. replace (Reqb (cos x) 0) with false; auto. symmetry. now apply Reqb_false. Qed.

(** * Simple and complex craters *)
Section Thickness.
  Variables (c : ccfg).
  Hypothesis Hsane : simple2complex c <= complex2peakring c.

  Lemma thick_simple_eq d r : 0 < d -> 0 < r < simple2complex c / 2 ->
    get_ejecta_thickness c (Some d) r = 4 / 100 * r * Rpower (d / r) (ej_exp c).
  Proof.
    intros Hd Hr. unfold get_ejecta_thickness. cbn [obind].
    assert (Hq : 0 < d / r) by (apply Rdiv_lt_0_compat; lra).
    rcase r (simple2complex c / 2) E1'; [|lra].
    rcase (simple2complex c / 2) r E2'; [lra|]. cbn [andb].
    destruct (Rleb (complex2peakring c / 2) r) eqn:E3; [apply Rleb_true in E3; lra|].
    unfold ej_thick_simple. rewrite odiv_ok by lra. cbn [obind]. rewrite opow_ok by auto. reflexivity.
  Qed.

  Lemma thick_complex_eq d r : 0 < d -> 0 < r -> simple2complex c / 2 < r < complex2peakring c / 2 ->
    get_ejecta_thickness c (Some d) r = 14 / 100 * Rpower r (74 / 100) * Rpower (d / r) (ej_exp c).
  Proof.
    intros Hd Hr Hr2. unfold get_ejecta_thickness. cbn [obind].
    assert (Hq : 0 < d / r) by (apply Rdiv_lt_0_compat; lra).
    rcase r (simple2complex c / 2) E1'; [lra|].
    rcase (simple2complex c / 2) r E2'; [|lra].
    rcase r (complex2peakring c / 2) E4'; [|lra]. cbn [andb].
    destruct (Rleb (complex2peakring c / 2) r) eqn:E3; [apply Rleb_true in E3; lra|].
    unfold ej_thick_complex. rewrite odiv_ok by lra. cbn [obind]. rewrite !opow_ok by auto. reflexivity.
  Qed.

  (** A crater that is not a basin and not exactly at the transition. *)
  Definition ordinary (r : R) : Prop :=
    0 < r < complex2peakring c / 2 /\ r <> simple2complex c / 2.

  Lemma thick_shape r : ordinary r -> exists k, 0 < k /\
    (forall d, 0 < d -> get_ejecta_thickness c (Some d) r = k * Rpower (d / r) (ej_exp c)) /\
    (r < simple2complex c / 2 -> k = 4 / 100 * r) /\
    (simple2complex c / 2 < r -> k = 14 / 100 * Rpower r (74 / 100)).
  Proof.
    intros [Hr Hn]. destruct (Rlt_le_dec r (simple2complex c / 2)) as [H|H].
    - exists (4 / 100 * r). repeat split; intros; try lra. apply thick_simple_eq; auto; lra.
    - exists (14 / 100 * Rpower r (74 / 100)). pose proof (Rpower_pos r (74 / 100)).
      repeat split; intros; try lra. apply thick_complex_eq; auto; lra.
  Qed.

  Lemma thick_law r d : ordinary r -> 0 < d ->
    0 < get_ejecta_thickness c (Some d) r /\
    (forall m, 0 < m -> get_ejecta_thickness c (Some (m * d)) r
                        = Rpower m (ej_exp c) * get_ejecta_thickness c (Some d) r) /\
    (ej_exp c < 0 -> forall d', d < d' ->
       get_ejecta_thickness c (Some d') r < get_ejecta_thickness c (Some d) r).
  Proof.
    intros Hr Hd. destruct (thick_shape r Hr) as (k & Hk & HE & _).
    destruct Hr as [Hr _].
    assert (Hq : 0 < d / r) by (apply Rdiv_lt_0_compat; lra).
    repeat split.
    - rewrite HE by auto. pose proof (Rpower_pos (d / r) (ej_exp c)). nra.
    - intros m Hm. rewrite !HE by (auto; nra).
      replace (m * d / r) with (m * (d / r)) by (field; lra).
      rewrite Rpower_mult_base by auto. ring.
    - intros He d' Hd'. rewrite !HE by lra. apply Rmult_lt_compat_l; auto.
      apply Rpower_lt_neg; auto. apply Rmult_lt_compat_r; auto. apply Rinv_0_lt_compat; lra.
  Qed.

  Lemma thick_rim r : ordinary r ->
    get_ejecta_thickness c (Some r) r =
    if Rltb r (simple2complex c / 2) then 4 / 100 * r else 14 / 100 * Rpower r (74 / 100).
  Proof.
    intros Hr. destruct (thick_shape r Hr) as (k & Hk & HE & H1 & H2). destruct Hr as [Hr Hn].
    rewrite HE by lra. replace (r / r) with 1 by (field; lra). rewrite Rpower_1_base, Rmult_1_r.
    rcase r (simple2complex c / 2) E1'; auto. apply H2. lra.
  Qed.

  Lemma thick_transition dist : simple2complex c < complex2peakring c ->
    get_ejecta_thickness c dist (simple2complex c / 2) = 0.
  Proof.
    intros H. unfold get_ejecta_thickness.
    rcase (simple2complex c / 2) (simple2complex c / 2) E1'; [lra|]. cbn [andb].
    destruct (Rleb (complex2peakring c / 2) (simple2complex c / 2)) eqn:E3; auto.
    apply Rleb_true in E3. lra.
  Qed.
End Thickness.

Lemma thick_nan c r : get_ejecta_thickness c None r = 0.
Proof.
  unfold get_ejecta_thickness. cbn [obind].
  destruct (Rleb (complex2peakring c / 2) r); auto.
  destruct (Rltb (simple2complex c / 2) r && Rltb r (complex2peakring c / 2)); auto.
  destruct (Rltb r (simple2complex c / 2)); auto.
Qed.

(** * Ballistic velocity *)
Lemma half_angle d rp : 0 < rp -> 0 <= d < PI * rp -> 0 <= d / (2 * rp) < PI / 2.
Proof.
  intros Hr Hd. split.
  - apply Rmult_le_pos; [lra|]. left. apply Rinv_0_lt_compat. lra.
  - apply Rmult_lt_reg_r with (2 * rp); [lra|].
    replace (d / (2 * rp) * (2 * rp)) with d by (field; lra). lra.
Qed.

Lemma tan_nonneg x : 0 <= x < PI / 2 -> 0 <= tan x /\ 0 < cos x.
Proof.
  intros H. assert (0 < cos x) by (apply cos_gt_0; lra).
  split; auto. unfold tan. apply Rmult_le_pos.
  - apply sin_ge_0; pose proof PI_RGT_0; lra.
  - left. now apply Rinv_0_lt_compat.
Qed.

Section Velocity.
  Variable c : ccfg.
  Hypothesis Hg : 0 < grav_moon c.
  Hypothesis Hrad : 0 < rad_moon c.
  Hypothesis Hang : 0 < impact_angle c < 90.
  Let th := deg2rad (impact_angle c).

  Lemma th_range : 0 < th < PI / 2 /\ 0 < sin th /\ 0 < cos th.
  Proof.
    assert (0 < th < PI / 2).
    { unfold th. rewrite <- deg2rad_0, <- deg2rad_90. split; apply deg2rad_lt; lra. }
    split; auto. split; [apply sin_gt_0; lra|apply cos_gt_0; lra].
  Qed.

  Lemma velocity_sq d : 0 <= d < PI * rad_moon c ->
    exists v, ballistic_velocity c d = Some v /\ 0 <= v /\
      let t := tan (d / (2 * rad_moon c)) in
      v ^ 2 * (sin th * cos th + cos th ^ 2 * t) = grav_moon c * rad_moon c * t /\
      0 <= t /\ 0 < sin th * cos th + cos th ^ 2 * t.
  Proof.
    intros Hd. destruct th_range as (Ht & Hs & Hc).
    pose proof (half_angle d (rad_moon c) Hrad Hd) as Hh.
    destruct (tan_nonneg _ Hh) as [Htan Hcos].
    unfold ballistic_velocity. rewrite otan_ok by lra. cbn [obind]. fold th.
    set (t := tan (d / (2 * rad_moon c))) in *.
    assert (Hden : 0 < sin th * cos th + cos th ^ 2 * t).
    { assert (0 < sin th * cos th) by nra. assert (0 <= cos th ^ 2 * t) by (apply Rmult_le_pos; nra). lra. }
    rewrite odiv_ok by lra. cbn [obind].
    assert (Hq : 0 <= grav_moon c * rad_moon c * t / (sin th * cos th + cos th ^ 2 * t)).
    { apply Rmult_le_pos; [apply Rmult_le_pos; nra|]. left. now apply Rinv_0_lt_compat. }
    rewrite osqrt_ok by auto. eexists; split; [reflexivity|].
    split; [apply sqrt_pos|]. cbv zeta. split; auto.
    replace (sqrt (grav_moon c * rad_moon c * t / (sin th * cos th + cos th ^ 2 * t)) ^ 2)
      with (grav_moon c * rad_moon c * t / (sin th * cos th + cos th ^ 2 * t)).
    - field. lra.
    - rewrite pow2_sqrt; auto.
  Qed.

  Lemma velocity_range_equation d : 0 <= d < PI * rad_moon c ->
    exists v, ballistic_velocity c d = Some v /\ 0 <= v /\
      tan (d / (2 * rad_moon c)) * (grav_moon c * rad_moon c - v ^ 2 * cos th ^ 2)
      = v ^ 2 * (sin th * cos th).
  Proof.
    intros Hd. destruct (velocity_sq d Hd) as (v & H1 & H2 & H3 & _). cbv zeta in H3.
    exists v. repeat split; auto. lra.
  Qed.

  Lemma velocity_bound d v : 0 < d < PI * rad_moon c -> ballistic_velocity c d = Some v ->
    0 < v /\ v < sqrt (grav_moon c * rad_moon c) / cos th.
  Proof.
    intros Hd Hv. destruct th_range as (Ht & Hs & Hc).
    destruct (velocity_sq d ltac:(lra)) as (v' & H1 & H2 & H3 & H4 & H5). cbv zeta in *.
    rewrite Hv in H1. injection H1 as <-.
    set (t := tan (d / (2 * rad_moon c))) in *.
    assert (Hpos : 0 < t).
    { unfold t. apply tan_gt_0.
      - apply Rdiv_lt_0_compat; lra.
      - apply half_angle; lra. }
    assert (Hgr : 0 < grav_moon c * rad_moon c) by nra.
    assert (Hv0 : 0 < v).
    { destruct (Req_dec v 0) as [->|]; [|lra]. exfalso.
      assert (0 < grav_moon c * rad_moon c * t) by nra.
      replace (0 ^ 2) with 0 in H3 by ring. lra. }
    split; auto.
    apply Rmult_lt_reg_r with (cos th); auto.
    replace (sqrt (grav_moon c * rad_moon c) / cos th * cos th) with (sqrt (grav_moon c * rad_moon c)) by (field; lra).
    apply Rsqr_incrst_0; [|nra|apply sqrt_pos].
    rewrite Rsqr_sqrt by lra. unfold Rsqr.
    assert (v ^ 2 * (sin th * cos th) > 0) by (apply Rmult_gt_0_compat; nra).
    assert (v ^ 2 * cos th ^ 2 * t < grav_moon c * rad_moon c * t) by lra.
    apply Rmult_lt_reg_r in H0; auto. nra.
  Qed.

  Lemma velocity_increasing d d' v v' : 0 <= d -> d < d' -> d' < PI * rad_moon c ->
    ballistic_velocity c d = Some v -> ballistic_velocity c d' = Some v' -> v < v'.
  Proof.
    intros Hd Hdd Hd' Hv Hv'. destruct th_range as (Ht & Hs & Hc).
    destruct (velocity_sq d ltac:(lra)) as (x & H1 & H2 & H3 & H4 & H5).
    destruct (velocity_sq d' ltac:(lra)) as (x' & G1 & G2 & G3 & G4 & G5). cbv zeta in *.
    rewrite Hv in H1. injection H1 as <-. rewrite Hv' in G1. injection G1 as <-.
    set (t := tan (d / (2 * rad_moon c))) in *. set (t' := tan (d' / (2 * rad_moon c))) in *.
    assert (Htt : t < t').
    { unfold t, t'. pose proof (half_angle d _ Hrad ltac:(lra)).
      pose proof (half_angle d' _ Hrad ltac:(lra)).
      apply tan_increasing; try lra. apply Rmult_lt_compat_r; auto. apply Rinv_0_lt_compat; lra. }
    set (A := sin th * cos th) in *. set (B := cos th ^ 2) in *.
    set (G := grav_moon c * rad_moon c) in *.
    assert (HA : 0 < A) by (unfold A; nra). assert (HB : 0 < B) by (unfold B; nra).
    assert (HG : 0 < G) by (unfold G; nra).
    apply Rsqr_incrst_0; auto. unfold Rsqr.
    assert (E : v * v = G * t / (A + B * t)) by (apply Rmult_eq_reg_r with (A + B * t); [field_simplify|]; lra).
    assert (E' : v' * v' = G * t' / (A + B * t')) by (apply Rmult_eq_reg_r with (A + B * t'); [field_simplify|]; lra).
    rewrite E, E'.
    apply Rmult_lt_reg_r with ((A + B * t) * (A + B * t')); [nra|].
    replace (G * t / (A + B * t) * ((A + B * t) * (A + B * t'))) with (G * (t * (A + B * t'))) by (field; lra).
    replace (G * t' / (A + B * t') * ((A + B * t) * (A + B * t'))) with (G * (t' * (A + B * t))) by (field; lra).
    apply Rmult_lt_compat_l; auto. nra.
  Qed.
End Velocity.
