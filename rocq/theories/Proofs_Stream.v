From Coq Require Import String List ZArith Reals Lia Lra Psatz Bool Sorted.
From Flocq Require Import Core.
From Verif Require Import Base Model_Time Model_Geo Model_Interp Model_Crater Model_Ice Model_Rng Spec_Ice Proofs_Base
  Proofs_Time Proofs_Geo Proofs_Interp Proofs_Crater Proofs_Scaling Proofs_Ice Proofs_Rng Proofs_FP.
Import ListNotations.
Open Scope R_scope.

(** * Rounding in binary64 *)
Lemma rnd64_half : rnd64 (1 + (1 - / 2 ^ 53)) = 2.
Proof.
  set (x := 1 + (1 - / 2 ^ 53)).
  assert (Hm : mag radix2 x = 1%Z :> Z).
  { apply mag_unique. rewrite Rabs_pos_eq by (unfold x; lra). change (1 - 1)%Z with 0%Z.
    simpl bpow. unfold x. lra. }
  unfold rnd64, round, scaled_mantissa, cexp. rewrite Hm.
  change (FLT_exp (-1074) 53 1) with (-52)%Z. change (- -52)%Z with 52%Z.
  assert (Es : x * bpow radix2 52 = 9007199254740991 + / 2).
  { unfold x. simpl bpow. field_simplify; try lra. }
  rewrite Es.
  assert (Ef : Zfloor (9007199254740991 + / 2) = 9007199254740991%Z) by (apply Zfloor_imp; simpl; lra).
  assert (Ec : Zceil (9007199254740991 + / 2) = 9007199254740992%Z) by (apply Zceil_imp; simpl; lra).
  unfold Znearest. rewrite Ef, Ec. rewrite Rcompare_Eq by (simpl; lra).
  cbn [Z.even negb]. unfold F2R. cbn [Fnum Fexp]. simpl bpow. lra.
Qed.

(** * Switching basin ice off *)
Lemma pop_flags c b time r : get_crater_pop (with_flags c (comets_on c) b) time r = get_crater_pop c time r.
Proof. reflexivity. Qed.

Lemma loop_flags c b ppf r diams prob counts u k :
  stochastic_loop (with_flags c (comets_on c) b) ppf r diams prob counts u k
  = stochastic_loop c ppf r diams prob counts u k.
Proof.
  revert k. induction counts as [|n counts IH]; intros k; [reflexivity|].
  cbn [stochastic_loop]. unfold rbind.
  destruct (choice diams n prob u k) as [[ds k1]|]; cbn [bind]; [|reflexivity].
  change (get_random_hydrated_craters (with_flags c (comets_on c) b)) with (get_random_hydrated_craters c).
  destruct (get_random_hydrated_craters c (length ds) u k1) as [[hyd k2]|]; cbn [bind]; [|reflexivity].
  change (get_random_impactor_speeds (with_flags c (comets_on c) b)) with (get_random_impactor_speeds c).
  destruct (get_random_impactor_speeds c ppf (length (mask ds hyd)) u k2) as [[vs k3]|]; cbn [bind]; [|reflexivity].
  change (ice_large_craters (with_flags c (comets_on c) b)) with (ice_large_craters c).
  destruct (lift (ice_large_craters c (mask ds hyd) vs r) u k3) as [[m k4]|]; cbn [bind]; [|reflexivity].
  rewrite IH. reflexivity.
Qed.

Lemma thick_flags c b ppf time r u k :
  get_stochastic_thickness (with_flags c (comets_on c) b) ppf time r u k = get_stochastic_thickness c ppf time r u k.
Proof.
  unfold get_stochastic_thickness, get_ice_stochastic, rbind. rewrite pop_flags.
  destruct (lift (get_crater_pop c time r) u k) as [[[[diams nt] prob] k1]|]; cbn [bind]; [|reflexivity].
  destruct (probabilistic_round nt u k1) as [[ns k2]|]; cbn [bind]; [|reflexivity].
  rewrite loop_flags. reflexivity.
Qed.

Lemma asteroid_speeds_pos c ppf n u k : is_comet c = false ->
  get_random_impactor_speeds c ppf n u k = Ok (map (asteroid_speed c ppf) (map u (seq k n)), (k + n)%nat).
Proof. intros H. unfold get_random_impactor_speeds. rewrite H. reflexivity. Qed.

Lemma basin_ice_pos c ppf tol df time u k b k' : is_comet c = false ->
  get_basin_ice c ppf tol df time u k = Ok (b, k') ->
  k' = (k + length (filter (is_icy "hyd_ctype") df))%nat.
Proof.
  intros Hc H. unfold get_basin_ice, ice_basins in H. rewrite Hc in H. cbv zeta in H.
  apply rbind_ok in H as (m & k1 & H & H').
  apply lift_ok in H' as [_ ->].
  apply rbind_ok in H as (vs & k2 & H & H').
  rewrite asteroid_speeds_pos in H by auto.
  apply rbind_ok in H' as (ms & k3 & H1 & H2).
  apply lift_ok in H1 as [_ ->]. apply lift_ok in H2 as [_ ->].
  remember (filter (is_icy "hyd_ctype") df) as bdf. unfold is_icy in Heqbdf. rewrite <- Heqbdf in H. now inversion H.
Qed.

Lemma impact_ice_split c ppf tol df time u k a k' :
  get_impact_ice c ppf tol df time u k = Ok (a, k') ->
  exists pre kp b, get_basin_ice c ppf tol df time u kp = Ok (b, k') /\
    a = (if basins_on c then vadd pre b else pre) /\
    (exists mm si ssc lsc cc kd,
       get_micrometeorite_ice c time = Ok mm /\ get_small_impactor_ice c time = Ok si /\
       get_small_simple_crater_ice c time = Ok ssc /\
       get_stochastic_thickness c ppf time "d" u k = Ok (lsc, kd) /\
       get_stochastic_thickness c ppf time "e" u kd = Ok (cc, kp) /\
       pre = vadd (vadd (vadd (vadd (vadd (map (fun _ => 0) time) mm) si) ssc) lsc) cc).
Proof.
  intros H. unfold get_impact_ice in H. cbv zeta in H.
  apply rbind_ok in H as (mm & k1 & E1' & H). apply lift_ok in E1' as [E1' ->].
  apply rbind_ok in H as (si & k1 & E2' & H). apply lift_ok in E2' as [E2' ->].
  apply rbind_ok in H as (ssc & k1 & E3 & H). apply lift_ok in E3 as [E3 ->].
  apply rbind_ok in H as (lsc & kd & E4 & H). apply rbind_ok in H as (cc & kp & E5 & H).
  apply rbind_ok in H as (b & kb & E6 & H). apply ret_ok in H as [-> ->].
  eexists. exists kp, b. split; [exact E6|]. split; [reflexivity|]. 
  exists mm, si, ssc, lsc, cc, kd. repeat split; auto.
Qed.

Lemma basins_flag_stream c ppf tol df_on df_off time u k a_on k_on a_off k_off :
  is_comet c = false -> basins_on c = true ->
  Forall (fun b => i_icy b = "no"%string) df_off ->
  get_impact_ice c ppf tol df_on time u k = Ok (a_on, k_on) ->
  get_impact_ice (with_flags c (comets_on c) false) ppf tol df_off time u k = Ok (a_off, k_off) ->
  k_on = (k_off + length (filter (is_icy "hyd_ctype") df_on))%nat /\
  exists b, a_on = vadd a_off b.
Proof.
  intros Hc Hb Hno Hon Hoff.
  apply impact_ice_split in Hon as (pre & kp & b & Eb & Ea & mm & si & ssc & lsc & cc & kd & A1 & A2 & A3 & A4 & A5 & A6).
  apply impact_ice_split in Hoff as (pre' & kp' & b' & Eb' & Ea' & mm' & si' & ssc' & lsc' & cc' & kd' & B1 & B2 & B3 & B4 & B5 & B6).
  change (get_micrometeorite_ice (with_flags c (comets_on c) false) time) with (get_micrometeorite_ice c time) in B1.
  change (get_small_impactor_ice (with_flags c (comets_on c) false) time) with (get_small_impactor_ice c time) in B2.
  change (get_small_simple_crater_ice (with_flags c (comets_on c) false) time) with (get_small_simple_crater_ice c time) in B3.
  rewrite thick_flags in B4, B5. rewrite A1 in B1. rewrite A2 in B2. rewrite A3 in B3. rewrite A4 in B4.
  injection B1 as <-. injection B2 as <-. injection B3 as <-. injection B4 as <- <-.
  rewrite A5 in B5. injection B5 as <- <-.
  apply basin_ice_pos in Eb; [|auto]. apply basin_ice_pos in Eb'; [|auto].
  assert (E0 : filter (is_icy "hyd_ctype") df_off = []).
  { clear - Hno. induction Hno as [|x l Hx HF IH]; [reflexivity|]. cbn [filter]. unfold is_icy at 1.
    rewrite Hx. cbn [String.eqb Ascii.eqb Bool.eqb]. rewrite andb_false_r. exact IH. }
  rewrite E0 in Eb'. cbn [length] in Eb'. rewrite Nat.add_0_r in Eb'. subst k_off.
  split; auto. rewrite Hb in Ea. cbn in Ea'. exists b. rewrite Ea, Ea', A6, B6. reflexivity.
Qed.
