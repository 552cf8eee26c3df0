(** C98: the figure of the speeds of asteroids and comets. *)
From Coq Require Import String List ZArith Reals Bool Lra Lia.
From Verif Require Import Base Model_Time Model_Interp Model_Ice Model_Rng Model_Speeds Spec_Ice Spec_Speeds.
From Verif Require Import Proofs_Base Proofs_Time Proofs_Rng Proofs_Speeds Props_Rng.
Import ListNotations.
Open Scope R_scope.

(** The settings that matter. *)
Definition axis_sane (c : icfg) : Prop :=
  speeds_sane c /\ 0 < comet_speed_min c + comet_speed_max c /\ 0 < comet_speed_max c.

Lemma comet_pair c pdf cdf sf : truncated pdf cdf sf -> axis_sane c -> forall w1 w2, 0 < w1 -> 0 < w2 -> w1 + w2 = 1 -> forall x,
  let P := weighted_sum [w1; w2] (submodels c cdf x) in
  let Q := weighted_sum [w1; w2] (submodels c sf x) in
  let D := weighted_sum [w1; w2] (sub_pdfs pdf c x) in
  0 <= P <= 1 /\ P + Q = 1 /\ 0 <= D /\ (comet_speed c x -> 0 < D) /\ (not_comet_speed c x -> D = 0) /\
  forall y, x <= y -> P <= weighted_sum [w1; w2] (submodels c cdf y).
Proof.
  intros T ((_ & _ & SJ & SL & _) & MM & _) w1 w2 W1 W2 W x. cbv zeta.
  unfold weighted_sum, sub_pdfs, submodels. cbv zeta.
  set (aj := - comet_speed_min c / jfc_sd c). set (bj := comet_speed_max c / jfc_sd c).
  set (al := - comet_speed_min c / lpc_sd c). set (bl := comet_speed_max c / lpc_sd c).
  assert (DS : forall a b, dotsum [a; b] [w1; w2] = a * w1 + b * w2) by (intros; unfold dotsum, Rsum; cbn; ring).
  assert (Bj : below aj (Some bj)).
  { cbn. unfold aj, bj, Rdiv. apply Rmult_lt_compat_r; [now apply Rinv_0_lt_compat|lra]. }
  assert (Bl : below al (Some bl)).
  { cbn. unfold al, bl, Rdiv. apply Rmult_lt_compat_r; [now apply Rinv_0_lt_compat|lra]. }
  rewrite !DS. set (xj := (x - jfc_mean c) / jfc_sd c). set (xl := (x - lpc_mean c) / lpc_sd c).
  pose proof (cdf_range _ _ _ T aj (Some bj) xj Bj) as Rj. pose proof (cdf_range _ _ _ T al (Some bl) xl Bl) as Rl.
  rewrite (sf_cdf _ _ _ T), (sf_cdf _ _ _ T).
  assert (Ij : 0 < / jfc_sd c) by now apply Rinv_0_lt_compat. assert (Il : 0 < / lpc_sd c) by now apply Rinv_0_lt_compat.
  pose proof (pdf_nonneg _ _ _ T aj (Some bj) xj Bj) as Nj. pose proof (pdf_nonneg _ _ _ T al (Some bl) xl Bl) as Nl.
  split; [nra|]. split; [nra|]. unfold Rdiv at 1 2 4 5.
  assert (LT : forall m s v, 0 < s -> forall y, (y < m + v <-> (y - m) / s < v / s) /\ (m + v < y <-> v / s < (y - m) / s)).
  { intros m s v Hs y. assert (0 < / s) by now apply Rinv_0_lt_compat. unfold Rdiv. split; split; intros H'.
    - apply Rmult_lt_compat_r; lra.
    - apply Rmult_lt_reg_r in H'; lra.
    - apply Rmult_lt_compat_r; lra.
    - apply Rmult_lt_reg_r in H'; lra. }
  split; [|split; [|split]].
  - assert (0 <= pdf aj (Some bj) xj * / jfc_sd c) by (apply Rmult_le_pos; lra).
    assert (0 <= pdf al (Some bl) xl * / lpc_sd c) by (apply Rmult_le_pos; lra). nra.
  - assert (0 <= pdf aj (Some bj) xj * / jfc_sd c) by (apply Rmult_le_pos; lra).
    assert (0 <= pdf al (Some bl) xl * / lpc_sd c) by (apply Rmult_le_pos; lra).
    intros [[H1 H2]|[H1 H2]].
    + assert (0 < pdf aj (Some bj) xj * / jfc_sd c); [|nra]. apply Rmult_lt_0_compat; auto. apply (pdf_inside _ _ _ T).
      * apply (LT (jfc_mean c) (jfc_sd c) (- comet_speed_min c) SJ x). lra.
      * cbn. apply (LT (jfc_mean c) (jfc_sd c) (comet_speed_max c) SJ x). lra.
    + assert (0 < pdf al (Some bl) xl * / lpc_sd c); [|nra]. apply Rmult_lt_0_compat; auto. apply (pdf_inside _ _ _ T).
      * apply (LT (lpc_mean c) (lpc_sd c) (- comet_speed_min c) SL x). lra.
      * cbn. apply (LT (lpc_mean c) (lpc_sd c) (comet_speed_max c) SL x). lra.
  - intros [Hj Hl]. assert (Zj : pdf aj (Some bj) xj = 0).
    { destruct Hj as [H|H]; [apply (pdf_left _ _ _ T)|apply (pdf_right _ _ _ T)].
      - apply (LT (jfc_mean c) (jfc_sd c) (- comet_speed_min c) SJ x). lra.
      - apply (LT (jfc_mean c) (jfc_sd c) (comet_speed_max c) SJ x). lra. }
    assert (Zl : pdf al (Some bl) xl = 0).
    { destruct Hl as [H|H]; [apply (pdf_left _ _ _ T)|apply (pdf_right _ _ _ T)].
      - apply (LT (lpc_mean c) (lpc_sd c) (- comet_speed_min c) SL x). lra.
      - apply (LT (lpc_mean c) (lpc_sd c) (comet_speed_max c) SL x). lra. }
    rewrite Zj, Zl. lra.
  - intros y L. rewrite DS.
    assert (M1 : cdf aj (Some bj) xj <= cdf aj (Some bj) ((y - jfc_mean c) / jfc_sd c)).
    { apply (cdf_mono _ _ _ T); auto. apply Rmult_le_compat_r; lra. }
    assert (M2 : cdf al (Some bl) xl <= cdf al (Some bl) ((y - lpc_mean c) / lpc_sd c)).
    { apply (cdf_mono _ _ _ T); auto. apply Rmult_le_compat_r; lra. }
    nra.
Qed.
Lemma weights2 c : speeds_sane c -> exists w1 w2,
  mixture_weights 2 (Some [jfc_frac c; lpc_frac c]) = Ok [w1; w2] /\ 0 < w1 /\ 0 < w2 /\ w1 + w2 = 1.
Proof.
  intros (_ & _ & _ & _ & Hj & Hl & _). destruct (mixture_weights_ok 2 [jfc_frac c; lpc_frac c]) as (w & E & L & F & S1);
    [repeat constructor; auto|reflexivity|discriminate|].
  destruct w as [|w1 [|w2 [|]]]; try discriminate. exists w1, w2. inversion F as [|? ? F1 F']; subst. inversion F'; subst.
  split; auto. split; auto. split; auto. unfold Rsum in S1. cbn in S1. lra.
Qed.
Lemma ok_eq {A} (a b : A) : Ok a = Ok b -> a = b.
Proof. now intros [=]. Qed.
Lemma vels_inv pdf cdf sf ppf c u k f k' : speeds_sane c -> ast_comet_vels pdf cdf sf ppf c u k = Ok (f, k') ->
  exists w1 w2 asp csp k1, 0 < w1 /\ 0 < w2 /\ w1 + w2 = 1 /\
    get_random_impactor_speeds c ppf (Z.to_nat 100000) u k = Ok (asp, k1) /\
    get_random_impactor_speeds (get_comet_cfg c) ppf (Z.to_nat 100000) u k1 = Ok (csp, k') /\
    bars_own 40 csp = Ok (f_own f) /\
    let x := linspace 0 (comet_speed_max c) (Z.to_nat 10000) in
    let es := linspace 0 (comet_speed_max c) 40 in
    f_apdf f = map (fun v => (v, asteroid_pdf pdf c v)) x /\
    f_cpdf f = map (fun v => (v, weighted_sum [w1; w2] (sub_pdfs pdf (get_comet_cfg c) v))) x /\
    f_sf f = map (fun v => (v, weighted_sum [w1; w2] (submodels (get_comet_cfg c) sf v))) x /\
    f_cdf f = map (fun v => (v, weighted_sum [w1; w2] (submodels (get_comet_cfg c) cdf v))) x /\
    f_abars f = bars es asp /\ f_cbars f = bars es csp.
Proof.
  intros SN E. destruct (weights2 c SN) as (w1 & w2 & Ew & W1 & W2 & W). unfold ast_comet_vels in E. cbv zeta in E.
  unfold rbind at 1 in E. change (jfc_frac (get_comet_cfg c)) with (jfc_frac c) in E. change (lpc_frac (get_comet_cfg c)) with (lpc_frac c) in E.
  unfold lift at 1 in E. rewrite Ew in E. cbn [bind] in E. unfold rbind at 1 in E.
  destruct (get_random_impactor_speeds c ppf _ u k) as [[asp k1]|] eqn:EA; cbn [bind] in E; [|discriminate]. unfold rbind at 1 in E.
  destruct (get_random_impactor_speeds (get_comet_cfg c) ppf _ u k1) as [[csp k2]|] eqn:EC; cbn [bind] in E; [|discriminate].
  unfold rbind, lift in E. destruct (bars_own 40 csp) as [own|] eqn:EO; cbn [bind] in E; [|discriminate].
  unfold ret in E. apply ok_eq in E. assert (Ef := f_equal fst E). assert (Ek := f_equal snd E). cbn [fst snd] in Ef, Ek. subst k2. clear E.
  rewrite <- Ef. exists w1, w2, asp, csp, k1. cbv zeta. cbn [f_apdf f_cpdf f_sf f_cdf f_abars f_cbars f_own].
  do 3 (split; [assumption|]). split; [reflexivity|]. split; [exact EC|]. split; [exact EO|]. do 5 (split; [reflexivity|]). reflexivity.
Qed.
Lemma ten_thousand : (2 <= Z.to_nat 10000)%nat /\ INR (Z.to_nat 10000) - 1 = 9999.
Proof.
  split; [lia|]. rewrite INR_IZR_INZ, Z2Nat.id by lia. lra.
Qed.
Lemma curve_at {B} (g : R -> B) vmax i : (i < Z.to_nat 10000)%nat ->
  nth_error (map (fun v => (v, g v)) (linspace 0 vmax (Z.to_nat 10000))) i = Some (vmax * INR i / 9999, g (vmax * INR i / 9999)).
Proof.
  intros I. destruct ten_thousand as [E1 E2]. rewrite nth_error_map, linspace_nth by lia. rewrite E2. cbn [option_map].
  replace (0 + INR i * ((vmax - 0) / 9999)) with (vmax * INR i / 9999) by field. reflexivity.
Qed.

(** At each of 10000 even steps up to the largest comet speed: the distribution function of
    comets is between 0 and 1, does not fall, and is 1 without the survival function;
    densities are not negative, that of asteroids is positive above the escape speed and 0
    below, that of comets is positive from the least speed below either mean to the largest
    speed above it, and 0 outside. *)
Theorem C98_curves : forall pdf cdf sf ppf c u k f k',
  truncated pdf cdf sf -> axis_sane c -> ast_comet_vels pdf cdf sf ppf c u k = Ok (f, k') ->
  forall i, (i < Z.to_nat 10000)%nat -> let x := comet_speed_max c * INR i / 9999 in
  exists p q d da, nth_error (f_cdf f) i = Some (x, p) /\ nth_error (f_sf f) i = Some (x, q) /\
    nth_error (f_cpdf f) i = Some (x, d) /\ nth_error (f_apdf f) i = Some (x, da) /\
    0 <= p <= 1 /\ p + q = 1 /\ 0 <= d /\ 0 <= da /\
    (x < escape_vel c -> da = 0) /\ (escape_vel c < x -> 0 < da) /\
    (comet_speed c x -> 0 < d) /\ (not_comet_speed c x -> d = 0) /\
    forall j y p', (i <= j)%nat -> nth_error (f_cdf f) j = Some (y, p') -> p <= p'.
Proof.
  intros pdf cdf sf ppf c u k f k' T SN E i I. cbv zeta. pose proof SN as (SP & MM & VM).
  destruct (vels_inv _ _ _ _ _ _ _ _ _ SP E) as (w1 & w2 & asp & csp & k1 & W1 & W2 & W & _ & _ & _ & A1 & A2 & A3 & A4 & _).
  rewrite A1, A2, A3, A4. clear A1 A2 A3 A4 E. rewrite !curve_at by auto. set (x := comet_speed_max c * INR i / 9999).
  assert (SN' : axis_sane (get_comet_cfg c)) by exact SN.
  destruct (comet_pair (get_comet_cfg c) _ _ _ T SN' w1 w2 W1 W2 W x) as (P1 & P2 & P3 & P4 & P5 & P6).
  do 4 eexists. do 4 (split; [reflexivity|]). split; [exact P1|]. split; [exact P2|]. split; [exact P3|].
  destruct SP as (_ & SI & _). assert (II : 0 < / impact_speed_sd c) by now apply Rinv_0_lt_compat. unfold asteroid_pdf. cbv zeta.
  set (a := (escape_vel c - impact_speed_mean c) / impact_speed_sd c). set (z := (x - impact_speed_mean c) / impact_speed_sd c).
  split; [apply Rmult_le_pos; [apply (pdf_nonneg _ _ _ T); exact Logic.I|lra]|].
  split; [|split; [|split; [exact P4|split; [exact P5|]]]].
  - intros L. rewrite (pdf_left _ _ _ T); [unfold Rdiv; ring|]. apply Rmult_lt_compat_r; lra.
  - intros L. apply Rmult_lt_0_compat; auto. apply (pdf_inside _ _ _ T); [apply Rmult_lt_compat_r; lra|exact Logic.I].
  - intros j y p' L Hj. assert (J : (j < Z.to_nat 10000)%nat).
    { assert (X : (j < length (map (fun v => (v, weighted_sum [w1; w2] (submodels (get_comet_cfg c) cdf v))) (linspace 0 (comet_speed_max c) (Z.to_nat 10000))))%nat)
        by (apply nth_error_Some; congruence). now rewrite map_length, linspace_length in X. }
    rewrite curve_at in Hj by auto. apply some_eq in Hj. assert (Hp := f_equal snd Hj). cbn [snd] in Hp. rewrite <- Hp. apply P6.
    unfold x. apply le_INR in L. apply Rmult_le_compat_r; [lra|]. nra.
Qed.

(** The figure can be drawn, and its bars show 100000 speeds of each kind: in the first
    panel 39 bars up to the largest comet speed, in the second 40 bars that contain all
    speeds of comets; the area of bars that contain a speed is 1. *)
Theorem C98_bars : forall pdf cdf sf ppf c u k,
  ppf_support ppf -> draws u -> axis_sane c ->
  exists f k' asp csp k1, ast_comet_vels pdf cdf sf ppf c u k = Ok (f, k') /\
    get_random_impactor_speeds c ppf (Z.to_nat 100000) u k = Ok (asp, k1) /\
    get_random_impactor_speeds (get_comet_cfg c) ppf (Z.to_nat 100000) u k1 = Ok (csp, k') /\
    length asp = Z.to_nat 100000 /\ length csp = Z.to_nat 100000 /\
    (forall v, In v csp -> jfc_mean c - comet_speed_min c <= v <= jfc_mean c + comet_speed_max c \/
                           lpc_mean c - comet_speed_min c <= v <= lpc_mean c + comet_speed_max c) /\
    (is_comet c = false -> forall v, In v asp -> escape_vel c <= v) /\
    (forall x bs, (x = asp /\ bs = f_abars f) \/ (x = csp /\ bs = f_cbars f) ->
       shares 0 (comet_speed_max c) 39 x bs /\ (between true 0 (comet_speed_max c) x <> 0%nat -> area bs = 1)) /\
    exists lo hi, lo < hi /\ (forall v, In v csp -> lo <= v <= hi) /\ shares lo hi 40 csp (f_own f) /\ area (f_own f) = 1.
Proof.
  intros pdf cdf sf ppf c u k Hp Hu SN. pose proof SN as (SP & MM & VM).
  destruct (C36_supports c ppf (Z.to_nat 100000) u k Hp SP Hu) as (asp & k1 & EA & LA & FA).
  destruct (C36_supports (get_comet_cfg c) ppf (Z.to_nat 100000) u k1 Hp SP Hu) as (csp & k2 & EC & LC & FC).
  assert (NE : csp <> []).
  { intros ->. cbn [length] in LC. assert (X : (0 < Z.to_nat 100000)%nat) by lia. rewrite <- LC in X. now apply Nat.lt_irrefl in X. }
  destruct (own_ok 40 csp ltac:(lia) NE) as (lo & hi & bs & EO & L & A & Sh & Ar).
  destruct (weights2 c SP) as (w1 & w2 & Ew & W1 & W2 & W).
  assert (E : exists f, ast_comet_vels pdf cdf sf ppf c u k = Ok (f, k2)).
  { unfold ast_comet_vels. cbv zeta. unfold rbind at 1. change (jfc_frac (get_comet_cfg c)) with (jfc_frac c).
    change (lpc_frac (get_comet_cfg c)) with (lpc_frac c). unfold lift at 1. rewrite Ew. cbn [bind]. unfold rbind at 1. rewrite EA. cbn [bind].
    unfold rbind at 1. rewrite EC. cbn [bind]. unfold rbind, lift. rewrite EO. cbn [bind]. unfold ret. eauto. }
  destruct E as (f & E). exists f, k2, asp, csp, k1.
  destruct (vels_inv _ _ _ _ _ _ _ _ _ SP E) as (v1 & v2 & asp' & csp' & k1' & _ & _ & _ & EA' & EC' & EO' & _ & _ & _ & _ & B1 & B2).
  rewrite EA in EA'. apply (f_equal (fun r => match r with Ok p => p | Err _ => (asp, k1) end)) in EA'. cbv iota in EA'.
  assert (X1 := f_equal fst EA'). assert (X2 := f_equal snd EA'). cbn [fst snd] in X1, X2. subst asp' k1'. clear EA'.
  rewrite EC in EC'. apply (f_equal (fun r => match r with Ok p => p | Err _ => (csp, k2) end)) in EC'. cbv iota in EC'.
  assert (X1 := f_equal fst EC'). cbn [fst] in X1. subst csp'. clear EC'. rewrite EO in EO'. injection EO' as ->.
  split; auto. split; auto. split; auto. split; auto. split; auto. split; [|split; [|split]].
  - intros v Hv. rewrite Forall_forall in FC. apply (FC v Hv). reflexivity.
  - intros Hc v Hv. rewrite Forall_forall in FA. now apply (FA v Hv).
  - intros x bars0 [[-> ->]|[-> ->]]; [rewrite B1|rewrite B2];
      (split; [apply (bars_shares 0 _ 39); [lra|lia]|intros NZ; apply (bars_area 0 _ 39); auto; lia]).
  - exists lo, hi. auto.
Qed.

(** With the default settings the density of comets is positive at speeds below the least
    speed of comets, and at the right end of the axis, at the largest speed of comets, the
    distribution function has not reached 1. *)
Lemma sane0 : axis_sane ICFG0.
Proof. split; [|cbn; lra]. red. cbn. repeat split; lra. Qed.
Theorem C98_limits_refuted : forall pdf cdf sf ppf u k f k',
  truncated pdf cdf sf -> ast_comet_vels pdf cdf sf ppf ICFG0 u k = Ok (f, k') ->
  (exists i x d, nth_error (f_cpdf f) i = Some (x, d) /\ 0 < d /\ x < comet_speed_min ICFG0) /\
  (exists i x p, nth_error (f_cdf f) i = Some (x, p) /\ x = comet_speed_max ICFG0 /\ p < 1).
Proof.
  intros pdf cdf sf ppf u k f k' T E. split.
  - exists (Z.to_nat 1400). destruct (C98_curves _ _ _ _ _ _ _ _ _ T sane0 E (Z.to_nat 1400) ltac:(lia)) as (p & q & d & da & _ & _ & D & _ & _ & _ & _ & _ & _ & _ & PD & _).
    assert (X : INR (Z.to_nat 1400) = 1400) by (rewrite INR_IZR_INZ, Z2Nat.id by lia; reflexivity). rewrite X in *.
    exists (comet_speed_max ICFG0 * 1400 / 9999), d. split; auto. split; [apply PD; left; cbn; lra|cbn; lra].
  - destruct (vels_inv _ _ _ _ _ _ _ _ _ (proj1 sane0) E) as (w1 & w2 & asp & csp & k1 & W1 & W2 & W & _ & _ & _ & _ & _ & _ & A4 & _).
    exists (Z.to_nat 9999). rewrite A4. do 2 eexists. split; [apply curve_at; lia|].
    assert (X : INR (Z.to_nat 9999) = 9999) by (rewrite INR_IZR_INZ, Z2Nat.id by lia; reflexivity). rewrite X.
    split; [field|]. replace (comet_speed_max ICFG0 * 9999 / 9999) with 72000 by (cbn; field).
    unfold submodels, weighted_sum. cbv zeta. unfold dotsum, Rsum. cbn -[Rdiv Rmult Rplus Rminus Ropp IZR].
    assert (L : below (72000) (Some 72000) -> False) by (cbn; lra).
    match goal with |- context [cdf ?a (Some ?b) ?x] => assert (C1 := cdf_inside _ _ _ T a (Some b) x ltac:(lra) ltac:(cbn; lra)) end.
    match goal with |- context [_ + (cdf ?a (Some ?b) ?x * _ + _)] => assert (C2 := cdf_inside _ _ _ T a (Some b) x ltac:(lra) ltac:(cbn; lra)) | _ => idtac end.
    nra.
Qed.

(** With functions like those of the truncated normal distribution the figure is drawn. *)
Example C98_case : exists f k', ast_comet_vels ex_pdf ex_cdf ex_sf lin_ppf ICFG0 (fun _ => 1 / 2) 0%nat = Ok (f, k') /\
  truncated ex_pdf ex_cdf ex_sf /\ axis_sane ICFG0.
Proof.
  destruct (C98_bars ex_pdf ex_cdf ex_sf lin_ppf ICFG0 (fun _ => 1 / 2) 0%nat) as (f & k' & _ & _ & _ & E & _).
  - exact lin_support.
  - intros i. lra.
  - exact sane0.
  - exists f, k'. split; auto. split; [exact ex_truncated|exact sane0].
Qed.
Example C98_case_bars : shares 0 6 3 [1; 3; 3; 9] (bars (linspace 0 6 4) [1; 3; 3; 9]) /\
  between true 0 6 [1; 3; 3; 9] = 3%nat /\ between false 2 4 [1; 3; 3; 9] = 2%nat.
Proof.
  split; [apply bars_shares; [lra|lia]|]. unfold between. cbn [filter].
  split; decs; cbn; try lra; reflexivity.
Qed.

Print Assumptions C98_curves.
Print Assumptions C98_bars.
Print Assumptions C98_limits_refuted.
