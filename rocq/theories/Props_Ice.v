(** Ice delivery: properties C22-C24, C26-C29, C33, C55, C61, C62. *)
From Coq Require Import String Ascii List ZArith Reals Lia Lra Psatz Bool Sorted Permutation.
From Verif Require Import Base Model_Time Model_Geo Model_Interp Model_Crater Model_Ice Model_Rng Spec_Ice
  Proofs_Base Proofs_Time Proofs_Geo Proofs_Interp Proofs_Crater Proofs_Scaling Proofs_Ice Proofs_Rng Proofs_Neukum.
Import ListNotations.
Open Scope R_scope.

(** ** C22: mass to thickness *)

(** Volume of ice spread over the cold traps = volume of the mass that reaches the pole. *)
Theorem C22_conserves_mass : forall c m a,
  (ice_species c = "H2O"%string /\ a = area_H2O c \/ ice_species c = "CO2"%string /\ a = area_CO2 c) ->
  a <> 0 -> ice_density c <> 0 ->
  exists h, get_ice_thickness c m = Ok h /\ h * a * ice_density c = m * hop_effcy c.
Proof.
  intros c m a H Ha Hd. rewrite thickness_ok by tauto. eexists; split; [reflexivity|].
  assert (E : area c = a).
  { unfold area. destruct H as [[-> ->]|[-> ->]]; reflexivity. }
  rewrite E. field. auto.
Qed.

Theorem C22_linear : forall c m1 m2 h1 h2 x y,
  get_ice_thickness c m1 = Ok h1 -> get_ice_thickness c m2 = Ok h2 ->
  get_ice_thickness c (x * m1 + y * m2) = Ok (x * h1 + y * h2).
Proof.
  intros c m1 m2 h1 h2 x y. unfold get_ice_thickness.
  destruct (String.eqb (ice_species c) "H2O"); [|destruct (String.eqb (ice_species c) "CO2"); [|discriminate]];
    cbn [bind]; intros [= <-] [= <-]; f_equal; unfold Rdiv; ring.
Qed.

Theorem C22_monotone : forall c m1 m2 h1 h2,
  0 <= hop_effcy c -> 0 < ice_density c -> 0 < area_H2O c -> 0 < area_CO2 c ->
  get_ice_thickness c m1 = Ok h1 -> get_ice_thickness c m2 = Ok h2 -> m1 <= m2 -> h1 <= h2.
Proof.
  intros c m1 m2 h1 h2 Hh Hd H1 H2. unfold get_ice_thickness.
  destruct (String.eqb (ice_species c) "H2O"); [|destruct (String.eqb (ice_species c) "CO2"); [|discriminate]];
    cbn [bind]; intros [= <-] [= <-] H; unfold Rdiv;
    (apply Rmult_le_compat_r; [left; now apply Rinv_0_lt_compat|];
     apply Rmult_le_compat_r; [left; now apply Rinv_0_lt_compat|]; apply Rmult_le_compat_r; auto).
Qed.

(** Any other species fails. *)
Theorem C22_other_species : forall c m,
  ice_species c <> "H2O"%string -> ice_species c <> "CO2"%string ->
  exists e, get_ice_thickness c m = Err e.
Proof. intros c m H1 H2. rewrite thickness_err by auto. eauto. Qed.

(** Default configuration: 934*13000*10^6/0.054 kg give one metre. *)
Example C22_case : get_ice_thickness ICFG0 (934 * 13000000000 / (54 / 1000)) = Ok 1.
Proof.
  destruct (C22_conserves_mass ICFG0 (934 * 13000000000 / (54 / 1000)) (area_H2O ICFG0)) as (h & E & H);
    [left; auto|cbn; lra|cbn; lra|]. rewrite E. f_equal.
  cbn [area_H2O ice_density hop_effcy ICFG0] in H. lra.
Qed.

(** ** C23: volcanic ice *)

Theorem C23_values : forall c time i t, nth_error time i = Some t ->
  let in_late := snd (volc_late c) < t <= fst (volc_late c) in
  let in_early := snd (volc_early c) < t <= fst (volc_early c) in
  let total := volc_total_vol c * volc_magma_density c * volc_ice_ppm c / 1000000 in
  length (volcanic_ice_head c time) = length time /\
  exists m, nth_error (volcanic_ice_head c time) i = Some m /\
    (in_late -> m = total * volc_late_pct c * timestep c) /\
    (~ in_late -> in_early -> m = total * volc_early_pct c * timestep c) /\
    (~ in_late -> ~ in_early -> m = 0).
Proof.
  intros c time i t Ht in_late in_early total. split; [apply map_length|].
  destruct (volc_head_nth c time i t Ht) as (m & Hm & A & B & C). exists m. split; auto.
  assert (E : total = volc_ice_total c) by (unfold total, volc_ice_total; lra). rewrite E.
  repeat split; auto.
Qed.

(** When the epochs start and end on time steps and do not overlap, the whole run
    delivers exactly the configured rate times the lengths of the epochs, in whatever
    order the times are listed. *)
Theorem C23_total : forall c time n a1 b1 a2 b2,
  0 < timestep c -> Permutation time (map (fun k => INR k * timestep c) (seq 1 n)) ->
  volc_early c = (INR b1 * timestep c, INR a1 * timestep c) ->
  volc_late c = (INR b2 * timestep c, INR a2 * timestep c) ->
  (a2 <= b2 <= a1)%nat -> (a1 <= b1 <= n)%nat ->
  Rsum (volcanic_ice_head c time)
  = volc_total_vol c * volc_magma_density c * volc_ice_ppm c / 1000000
    * (volc_early_pct c * (fst (volc_early c) - snd (volc_early c))
       + volc_late_pct c * (fst (volc_late c) - snd (volc_late c))).
Proof.
  intros c time n a1 b1 a2 b2 Hts HP He Hl [H1 H2] [H3 H4].
  rewrite (volc_epoch_totals c time n a1 b1 a2 b2) by auto. unfold volc_ice_total. lra.
Qed.

(** The default epochs meet these hypotheses: 75% of the rate over 4-3 Ga and 25% over
    3-2 Ga. *)
Example C23_case : forall time, Permutation time (map (fun k => INR k * 10000000) (seq 1 425)) ->
  Rsum (volcanic_ice_head ICFG0 time) = 10000000 * 3000 * 10 / 1000000 * 1000000000.
Proof.
  intros time H. assert (E : INR 400 = 400 /\ INR 300 = 300 /\ INR 200 = 200)
    by (rewrite !INR_IZR_INZ; repeat split; reflexivity).
  destruct E as (E1' & E2' & E3).
  rewrite (C23_total ICFG0 time 425 300 400 200 300); try lia.
  - cbn [volc_total_vol volc_magma_density volc_ice_ppm volc_early volc_late volc_early_pct volc_late_pct ICFG0 fst snd]. lra.
  - cbn [timestep ICFG0]. lra.
  - exact H.
  - cbn [volc_early timestep ICFG0]. f_equal; lra.
  - cbn [volc_late timestep ICFG0]. f_equal; lra.
Qed.

(** ** C61: volcanic modes *)

(** Only mode Head can succeed; the other documented mode, NK, always fails. *)
Theorem C61_head_only : forall c time t, get_volcanic_ice c time = Ok t -> volc_mode c = "Head"%string.
Proof.
  intros c time t. unfold get_volcanic_ice.
  destruct (String.eqb (volc_mode c) "NK"); [discriminate|].
  destruct (String.eqb_spec (volc_mode c) "Head"); [auto|discriminate].
Qed.
(** The documented mode "NK" always fails: it reads an option that does not exist. *)
Theorem C61_nk_refuted : forall c time, volc_mode c = "NK"%string ->
  get_volcanic_ice c time = Err AttributeError.
Proof. intros c time H. unfold get_volcanic_ice. rewrite H. reflexivity. Qed.
Theorem C61_unknown : forall c time, volc_mode c <> "NK"%string -> volc_mode c <> "Head"%string ->
  get_volcanic_ice c time = Err ValueError.
Proof.
  intros c time H1 H2. unfold get_volcanic_ice.
  destruct (String.eqb_spec (volc_mode c) "NK"); [contradiction|].
  destruct (String.eqb_spec (volc_mode c) "Head"); [contradiction|]. reflexivity.
Qed.
Example C61_case : exists t, get_volcanic_ice ICFG0 [2000000000; 1] = Ok t.
Proof. eexists. reflexivity. Qed.

(** ** C24: solar wind *)

(** The supply per timestep [kg] of the two models: 2 g/s (Benna) or 30 mg/s. *)
Theorem C24_modes : forall c table time,
  table <> [] -> ages_increasing table ->
  ((same_name (solar_wind_mode c) "benna" \/ same_name (solar_wind_mode c) "lucey-hurley") ->
     exists m, solar_wind_ice_mass c table time = Ok m) /\
  (~ same_name (solar_wind_mode c) "benna" -> ~ same_name (solar_wind_mode c) "lucey-hurley" ->
     solar_wind_ice_mass c table time = Err ValueError).
Proof.
  intros c table time Hn Hi. split.
  - intros H. apply sw_names in H. unfold solar_wind_ice_mass.
    destruct (sw_supply_ok c H) as (r & -> & _). cbn [bind]. destruct (faint_young_sun c); [|eauto].
    apply mapM_total. intros t _.
    destruct (interp_total (map (fun '(t0, l) => (- t0, l)) (lum_rows table)) (- t)) as [l ->].
    + unfold lum_rows. destruct table; [congruence|discriminate].
    + eexists. reflexivity.
  - intros H1 H2. unfold solar_wind_ice_mass. rewrite sw_supply_err; [reflexivity|].
    rewrite sw_names. tauto.
Qed.

Theorem C24_range : forall c table time m lo hi,
  table <> [] -> ages_increasing table -> Forall (fun r => lo <= snd r <= hi) table ->
  0 <= timestep c ->
  solar_wind_ice_mass c table time = Ok m ->
  length m = length time /\
  exists grams_per_second,
    (same_name (solar_wind_mode c) "benna" /\ grams_per_second = 2 \/
     same_name (solar_wind_mode c) "lucey-hurley" /\ grams_per_second = 3 / 100) /\
    let supply := grams_per_second / 1000 * (365 * 24 * 3600) * timestep c in
    Forall (fun x => (faint_young_sun c = true -> supply * lo <= x <= supply * hi) /\
                     (faint_young_sun c = false -> x = supply)) m.
Proof.
  intros c table time m lo hi Hn Hi HF Ht Hm.
  assert (Hin : In (lower (solar_wind_mode c)) ["benna"; "lucey-hurley"]%string).
  { destruct (in_dec string_dec (lower (solar_wind_mode c)) ["benna"; "lucey-hurley"]%string); auto.
    unfold solar_wind_ice_mass in Hm. rewrite sw_supply_err in Hm by auto. discriminate. }
  destruct (sw_supply_ok c Hin) as (rate & Es & Er).
  assert (Hr0 : 0 <= rate) by (rewrite Er; destruct (String.eqb _ _); lra).
  destruct (solar_wind_spec c table time _ lo hi Es) as (m' & Em & HL & HFm); auto.
  { apply Rmult_le_pos; lra. }
  rewrite Em in Hm. injection Hm as <-. split; auto.
  exists (rate * 1000). split.
  - destruct (String.eqb_spec (lower (solar_wind_mode c)) "benna") as [E|N].
    + left. split; [|rewrite Er; lra]. apply lower_iff; auto. repeat constructor; unfold not_upper; cbn; lia.
    + right. split; [|rewrite Er; lra]. destruct Hin as [Hin|[Hin|[]]]; [congruence|].
      apply lower_iff; auto. repeat constructor; unfold not_upper; cbn; lia.
  - cbv zeta. replace (rate * 1000 / 1000 * (365 * 24 * 3600) * timestep c)
      with (rate * (60 * 60 * 24 * 365 * timestep c)) by lra.
    eapply Forall_impl; [|exact HFm]. cbv beta. intros x. destruct (faint_young_sun c); intros H; split; intros; auto; discriminate.
Qed.

(** At a tabulated time the luminosity is the tabulated one. *)
Theorem C24_at_table_times : forall c table gyr lum supply,
  ages_increasing table -> In (gyr, lum) table -> faint_young_sun c = true ->
  sw_supply c = Ok supply ->
  solar_wind_ice_mass c table [(457 / 100 - gyr) * 1000000000] = Ok [supply * lum].
Proof.
  intros c table gyr lum supply Hi Hin Hf Hs. unfold solar_wind_ice_mass. rewrite Hs, Hf. cbn [bind mapM].
  apply In_nth_error in Hin as [i Hin].
  rewrite (interp_at_knot _ i _ lum).
  - cbn [bind]. do 2 f_equal. lra.
  - now apply lum_knots_sorted.
  - unfold lum_rows. rewrite map_map, nth_error_map, Hin. reflexivity.
Qed.

Example C24_case : exists m, solar_wind_ice_mass ICFG0 [(0, 7 / 10); (457 / 100, 1)] [0; 4000000000] = Ok m /\
  same_name "bENnA" "benna" /\ ~ same_name "ben" "benna".
Proof.
  destruct (C24_modes ICFG0 [(0, 7 / 10); (457 / 100, 1)] [0; 4000000000]) as [H _].
  - discriminate.
  - repeat constructor. cbn. lra.
  - destruct H as [m Hm].
    + left. cbn [solar_wind_mode ICFG0]. apply (lower_iff "Benna" "benna"); [|reflexivity].
      repeat constructor; unfold not_upper; cbn; lia.
    + exists m. split; auto. split.
      * apply (lower_iff "bENnA" "benna"); [|reflexivity]. repeat constructor; unfold not_upper; cbn; lia.
      * intros C. unfold same_name in C. cbn [list_ascii_of_string] in C.
        repeat match goal with H : Forall2 _ _ _ |- _ => inversion H; subst; clear H end.
Qed.

(** ** C26: asteroids and comets *)

Theorem C26_craters : forall c time regime diams ast prob,
  is_comet c = false -> comets_on c = true ->
  get_crater_pop c time regime = Ok (diams, ast, prob) ->
  exists com all,
    get_crater_pop (get_comet_cfg c) time regime = Ok (diams, com, prob) /\
    get_crater_pop (without_comets c) time regime = Ok (diams, all, prob) /\
    length ast = length time /\ length com = length time /\ length all = length time /\
    forall i x y z, nth_error ast i = Some x -> nth_error com i = Some y -> nth_error all i = Some z ->
      x + y = z /\ y = comet_ast_frac c * z.
Proof.
  intros c time regime diams ast prob H1 H2 H.
  destruct (crater_pop_partition c time regime diams ast prob H1 H2 H) as (nc & na & A & B & C & D & E & F).
  exists nc, na. do 5 (split; auto). intros i x y z Hx Hy Hz. split.
  - eapply F; eauto.
  - unfold get_crater_pop in A, B, H. unfold regime_of in *. 
    change (regimes (get_comet_cfg c)) with (regimes c) in A.
    change (regimes (without_comets c)) with (regimes c) in B.
    destruct (regimes c regime) as [[[[dmin dmax] step] slope]|]; [|discriminate]. cbn [bind] in *.
    destruct (get_crater_sfd dmin dmax step slope) as [[ds p]|]; [|discriminate]. cbn [bind] in *.
    injection A as _ <- _. injection B as _ <- _.
    rewrite nth_error_map in Hy, Hz. destruct (nth_error time i) as [t|]; [|discriminate].
    cbn [option_map] in *. injection Hy as <-. injection Hz as <-.
    change (num_craters_chronology (get_comet_cfg c)) with (num_craters_chronology c).
    change (num_craters_chronology (without_comets c)) with (num_craters_chronology c).
    unfold share. cbn. rewrite H1. lra.
Qed.

Theorem C26_small_impactors : forall c time diams ast,
  is_comet c = false -> comets_on c = true ->
  get_small_impactor_pop c time = Ok (diams, ast) ->
  exists com all,
    get_small_impactor_pop (get_comet_cfg c) time = Ok (diams, com) /\
    get_small_impactor_pop (without_comets c) time = Ok (diams, all) /\
    length ast = length time /\ length com = length time /\ length all = length time /\
    forall i j ra rb rt x y z,
      nth_error ast i = Some ra -> nth_error com i = Some rb -> nth_error all i = Some rt ->
      nth_error ra j = Some x -> nth_error rb j = Some y -> nth_error rt j = Some z -> x + y = z.
Proof. exact small_pop_partition. Qed.

(** Micrometeorites are not shared out: with comets on all of them are comets. *)
Theorem C26_micrometeorites : forall c t, is_comet c = false -> comets_on c = true ->
  ice_micrometeorites c t = 0.
Proof. intros c t H1 H2. unfold ice_micrometeorites. rewrite H1, H2. cbv zeta. ring. Qed.

(** Stochastic regimes: of [nc] comet craters a draw is icy with probability [p]
    (icy exactly for draws below [p]); the expected number [nc * p] is the square of the
    comet fraction times the count of a run without comets, not the comet fraction. *)
Theorem C26_comet_fraction_twice_refuted : forall c time regime diams com all prob i y z p,
  is_comet c = false ->
  get_crater_pop (get_comet_cfg c) time regime = Ok (diams, com, prob) ->
  get_crater_pop (without_comets c) time regime = Ok (diams, all, prob) ->
  nth_error com i = Some y -> nth_error all i = Some z ->
  (forall u n k, get_random_hydrated_craters (get_comet_cfg c) n u k
                 = Ok (map (fun x => Rltb x p) (map u (seq k n)), (k + n)%nat)) ->
  0 < comet_ast_frac c < 1 -> 0 <= p <= 1 ->
  y * p = comet_ast_frac c ^ 2 * z /\ (z <> 0 -> y * p <> comet_ast_frac c * z).
Proof.
  intros c time regime diams com all prob i y z p Hc A B Hy Hz Hp Hf Hp1.
  assert (Ep : p = comet_ast_frac c).
  { assert (Hq : forall q, Rltb q p = Rltb q (comet_ast_frac c)).
    { intros q. specialize (Hp (fun _ => q) 1%nat 0%nat).
      unfold get_random_hydrated_craters, rbind, random, ret in Hp. cbn [bind seq map] in Hp.
      injection Hp as Hp'. rewrite <- Hp'. reflexivity. }
    destruct (Rtotal_order p (comet_ast_frac c)) as [H|[H|H]]; auto; exfalso.
    - specialize (Hq p). rewrite (proj2 (Rltb_true p (comet_ast_frac c)) H) in Hq.
      apply Rltb_true in Hq. lra.
    - specialize (Hq (comet_ast_frac c)). rewrite (proj2 (Rltb_true (comet_ast_frac c) p) H) in Hq.
      symmetry in Hq. apply Rltb_true in Hq. lra. }
  assert (Ey : y = comet_ast_frac c * z).
  { unfold get_crater_pop, regime_of in A, B.
    change (regimes (get_comet_cfg c)) with (regimes c) in A.
    change (regimes (without_comets c)) with (regimes c) in B.
    destruct (regimes c regime) as [[[[dmin dmax] step] slope]|]; [|discriminate]. cbn [bind] in *.
    destruct (get_crater_sfd dmin dmax step slope) as [[ds pr]|]; [|discriminate]. cbn [bind] in *.
    injection A as _ <- _. injection B as _ <- _. rewrite nth_error_map in Hy, Hz.
    destruct (nth_error time i) as [t|]; [|discriminate]. cbn [option_map] in *.
    injection Hy as <-. injection Hz as <-.
    change (num_craters_chronology (get_comet_cfg c)) with (num_craters_chronology c).
    change (num_craters_chronology (without_comets c)) with (num_craters_chronology c).
    unfold share. cbn. rewrite Hc. lra. }
  rewrite Ep, Ey. split; [ring|]. intros Hz0 E.
  assert ((comet_ast_frac c * (1 - comet_ast_frac c)) * z = 0) by lra.
  apply Rmult_integral in H as [H|H]; [|contradiction]. apply Rmult_integral in H as [H|H]; lra.
Qed.

Lemma crater_pop_default : exists diams ast prob x,
  get_crater_pop ICFG0 [0] "d" = Ok (diams, ast, prob) /\ nth_error ast 0 = Some x /\ 0 < x.
Proof.
  destruct (crater_pop_ok ICFG0 [0] "d" sane_default ltac:(simpl; auto))
    as (diams & nt & prob & dmin & dmax & step & slope & E & Er & HL & _).
  exists diams, nt, prob. destruct nt as [|x [|? ?]]; try discriminate. exists x. split; auto. split; auto.
  unfold get_crater_pop, regime_of in E. rewrite Er in E. cbn [bind] in E.
  destruct (get_crater_sfd dmin dmax step slope) as [[ds p]|]; [|discriminate]. cbn [bind map] in E.
  injection E as _ <- _. injection Er as <- <- _ _. unfold share, num_craters_chronology.
  cbn [is_comet comets_on comet_ast_frac sa_moon timestep ICFG0]. pose proof neukum_d. pose proof PI_RGT_0.
  pose proof (scaling_pos 0) as Hsc. set (f := impact_flux_scaling 0) in *. clearbody f. set (pi := PI) in *. clearbody pi. repeat apply Rmult_lt_0_compat; lra.
Qed.

(** The hypotheses hold in the default configuration, with a positive count. *)
Example C26_case : exists diams ast com all prob x y z,
  get_crater_pop ICFG0 [0] "d" = Ok (diams, ast, prob) /\
  get_crater_pop (get_comet_cfg ICFG0) [0] "d" = Ok (diams, com, prob) /\
  get_crater_pop (without_comets ICFG0) [0] "d" = Ok (diams, all, prob) /\
  nth_error ast 0 = Some x /\ nth_error com 0 = Some y /\ nth_error all 0 = Some z /\
  0 < x /\ x + y = z /\ y = 5 / 100 * z.
Proof.
  destruct crater_pop_default as (diams & ast & prob & x & E & Hx & Hpos).
  destruct (C26_craters ICFG0 [0] "d" diams ast prob eq_refl eq_refl E) as (com & all & A & B & L1 & L2 & L3 & H).
  destruct com as [|y [|? ?]]; try discriminate. destruct all as [|z [|? ?]]; try discriminate.
  exists diams, ast, [y], [z], prob, x, y, z. repeat split; auto; eapply (H 0%nat); eauto; reflexivity.
Qed.

(** ** C27: retention *)

Theorem C27_nonnegative : forall c v, 0 <= ice_retention_factor c v.
Proof. exact retention_nonneg. Qed.
Theorem C27_slow : forall c v, v < 10000 ->
  ice_retention_factor c v = if is_comet c then 1 else 1 / 2.
Proof. exact retention_slow. Qed.
Theorem C27_decreasing : forall c v v',
  mode c = "cannon"%string \/ mode c = "moonpies"%string -> 10000 <= v -> v < v' ->
  ice_retention_factor c v' < ice_retention_factor c v.
Proof. exact retention_decreasing. Qed.
(** The published fits, from 10 km/s on; the factor does not depend on the kind of
    impactor there. *)
Theorem C27_fits : forall c v, 10000 <= v ->
  (mode c = "cannon"%string ->
     ice_retention_factor c v = 3626 / 100 * exp (- (3464 / 10000) * (v / 1000))) /\
  (mode c = "moonpies"%string -> ice_retention_factor c v = 16600 * Rpower (v / 1000) (- (416 / 100))).
Proof.
  intros c v H. replace (v / 1000) with (v * (1 / 1000)) by lra.
  split; intros Hm; rewrite retention_fast, Hm by auto; reflexivity.
Qed.
(** It is not a fraction: more than all the ice is retained at 10 km/s. *)
Theorem C27_fraction_refuted : forall c, mode c = "cannon"%string \/ mode c = "moonpies"%string ->
  1 < ice_retention_factor c 10000.
Proof. exact retention_above_one. Qed.
Example C27_case : ice_retention_factor ICFG0 5000 = 1 / 2 /\ ice_retention_factor (get_comet_cfg ICFG0) 5000 = 1 /\
  ice_retention_factor ICFG0 100000 = 16600 * Rpower 10 (- (832 / 100)).
Proof.
  split; [rewrite C27_slow by lra; reflexivity|]. split; [rewrite C27_slow by lra; reflexivity|].
  destruct (C27_fits ICFG0 100000) as [_ H]; [lra|]. rewrite H by reflexivity. f_equal.
  replace (100000 / 1000) with (Rpower 10 2).
  - rewrite Rpower_mult. f_equal. lra.
  - replace 2 with (INR 2) by (simpl; lra). rewrite Rpower_pow by lra. simpl. lra.
Qed.

(** ** C28: size-frequency distribution *)

Theorem C28_probabilities : forall diams slope, diams <> [] ->
  length (get_sfd_prob diams slope) = length diams /\
  Forall (fun p => 0 < p) (get_sfd_prob diams slope) /\
  Rsum (get_sfd_prob diams slope) = 1.
Proof. exact sfd_facts. Qed.

(** The ratio of two probabilities is the power law. *)
Theorem C28_power_law : forall diams slope i j d d' p p',
  nth_error diams i = Some d -> nth_error diams j = Some d' ->
  nth_error (get_sfd_prob diams slope) i = Some p -> nth_error (get_sfd_prob diams slope) j = Some p' ->
  p * Rpower d' slope = p' * Rpower d slope.
Proof.
  intros diams slope i j d d' p p' Hi Hj Hp Hp'. unfold get_sfd_prob in *.
  rewrite nth_error_map in Hp, Hp'. rewrite nth_error_map in Hp, Hp'.
  rewrite Hi in Hp. rewrite Hj in Hp'. cbn [option_map] in *. injection Hp as <-. injection Hp' as <-.
  unfold Rdiv. ring.
Qed.

Theorem C28_decreasing : forall diams slope i j d d' p p',
  slope < 0 -> Forall (fun x => 0 < x) diams ->
  nth_error diams i = Some d -> nth_error diams j = Some d' ->
  nth_error (get_sfd_prob diams slope) i = Some p -> nth_error (get_sfd_prob diams slope) j = Some p' ->
  d < d' -> p' < p.
Proof. exact sfd_decreasing. Qed.

(** Diameters: equally spaced from dmin to dmax; the spacing is at least [step] and
    less than [2 * step], and is [step] when [step] divides the range. *)
Theorem C28_diameters : forall dmin dmax step, 0 < step -> step <= dmax - dmin ->
  exists ds n gap, get_diam_array dmin dmax step = Ok ds /\ length ds = S n /\
    (forall i, (i <= n)%nat -> nth_error ds i = Some (dmin + INR i * gap)) /\
    nth_error ds 0 = Some dmin /\ nth_error ds n = Some dmax /\
    step <= gap < 2 * step /\
    (forall m : nat, dmax - dmin = INR m * step -> gap = step).
Proof.
  intros dmin dmax step Hs Hr.
  destruct (diam_array_spec dmin dmax step Hs Hr) as (ds & n & E & Hn & HL & HB & HN).
  exists ds, n, ((dmax - dmin) / INR n). assert (H1 : 1 <= INR n) by (change 1 with (INR 1); now apply le_INR).
  assert (Hg : INR n * ((dmax - dmin) / INR n) = dmax - dmin) by (field; lra).
  rewrite S_INR in HB. repeat split; auto.
  - rewrite (HN 0%nat) by lia. cbn [INR]. f_equal. lra.
  - rewrite (HN n) by lia. f_equal. lra.
  - nra.
  - nra.
  - intros m Hm. assert (m = n).
    { assert (INR n <= INR m < INR n + 1) by nra. assert (n <= m)%nat by (apply INR_le; lra).
      assert (m < S n)%nat by (apply INR_lt; rewrite S_INR; lra). lia. }
    subst m. rewrite Hm. field. lra.
Qed.

(** A step longer than the range gives dmin only, so the array does not end at dmax. *)
Theorem C28_coarse_step : forall dmin dmax step, 0 < step -> 0 <= dmax - dmin < step ->
  get_diam_array dmin dmax step = Ok [dmin].
Proof.
  intros dmin dmax step Hs Hr. unfold get_diam_array.
  assert (E0 : Reqb step 0 = false) by (apply Reqb_false; lra). rewrite E0.
  assert (Hq : 0 <= (dmax - dmin) / step < 1).
  { split; [apply Rmult_le_pos; [lra|left; now apply Rinv_0_lt_compat]|].
    apply Rmult_lt_reg_r with step; auto. replace ((dmax - dmin) / step * step) with (dmax - dmin) by (field; lra). lra. }
  rewrite truncZ_pos by lra. replace (Int_part ((dmax - dmin) / step)) with 0%Z; [reflexivity|].
  symmetry. apply Int_part_unique. lra.
Qed.

Example C28_case : get_diam_array 100 300 100 = Ok [100; 200; 300] /\
  get_sfd_prob [1; 2] (- (1)) = [2 / 3; 1 / 3].
Proof.
  split.
  - destruct (C28_diameters 100 300 100) as (ds & n & gap & E & HL & HN & _ & H2 & _ & H3); try lra.
    rewrite E. specialize (H3 2%nat ltac:(simpl; lra)). subst gap.
    rewrite HN in H2 by lia. injection H2 as H2. assert (INR n = 2) by lra.
    assert (n = 2)%nat by (apply INR_eq; simpl; lra). subst n.
    pose proof (HN 0%nat ltac:(lia)) as A0. pose proof (HN 1%nat ltac:(lia)) as A1. pose proof (HN 2%nat ltac:(lia)) as A2.
    destruct ds as [|x [|y [|z [|? ?]]]]; try discriminate. cbn [nth_error] in *.
    injection A0 as ->. injection A1 as ->. injection A2 as ->. f_equal. f_equal; [simpl; lra|f_equal; [simpl; lra|f_equal; simpl; lra]].
  - unfold get_sfd_prob. cbn [map]. rewrite !Rpower_Ropp, !Rpower_1 by lra. unfold Rsum. cbn [fold_right].
    f_equal; [lra|f_equal; lra].
Qed.

(** ** C29: impact flux *)

Theorem C29_positive : forall t, 0 < impact_flux t.
Proof. exact flux_pos. Qed.
Theorem C29_increasing : forall t t', t < t' ->
  impact_flux t < impact_flux t' /\ impact_flux_scaling t < impact_flux_scaling t'.
Proof. intros t t' H. split; [now apply flux_incr|now apply scaling_incr]. Qed.
Theorem C29_present : impact_flux_scaling 0 = 1 /\ forall t, 0 <= t -> 1 <= impact_flux_scaling t.
Proof. split; [exact scaling_0|exact scaling_ge1]. Qed.
Example C29_case : impact_flux_scaling 1000000000 < impact_flux_scaling 4000000000.
Proof. apply C29_increasing. lra. Qed.

(** ** C33: ice at each cold trap *)

Theorem C33_values : forall c bhop names polar volc,
  length volc = length polar ->
  (hop_moores c = true -> forall n, In n names -> exists h, bhop n = Some h) ->
  exists rows, distribute_ice c bhop names polar volc = Ok rows /\ length rows = length polar /\
    forall i j p v n, nth_error polar i = Some p -> nth_error volc i = Some v -> nth_error names j = Some n ->
      exists row x, nth_error rows i = Some row /\ length row = length names /\ nth_error row j = Some x /\
        (hop_moores c = true -> use_volc_dep c = true -> forall h, bhop n = Some h ->
           x = p * (h / hop_effcy c) + v * (volc_dep_effcy c / hop_effcy c)) /\
        (hop_moores c = true -> use_volc_dep c = false -> forall h, bhop n = Some h ->
           x = (p + v) * (h / hop_effcy c)) /\
        (hop_moores c = false -> use_volc_dep c = true ->
           x = p + v * (volc_dep_effcy c / hop_effcy c)) /\
        (hop_moores c = false -> use_volc_dep c = false -> x = p + v).
Proof.
  intros c bhop names polar volc HL Hb.
  destruct (distribute_spec c bhop names polar volc HL Hb) as (rows & E & HLr & H).
  exists rows. split; auto. split; auto. intros i j p v n Hp Hv Hn.
  destruct (H i j p v n Hp Hv Hn) as (row & x & H1 & H2 & H3 & H4). exists row, x. repeat split; auto;
    cbv zeta in H4; rewrite H4; intros Hm Hu; rewrite Hm, Hu; try (intros h ->); ring.
Qed.

(** A cold trap missing from the table stops the run. *)
Theorem C33_unknown_coldtrap : forall c bhop names polar volc n,
  hop_moores c = true -> In n names -> bhop n = None ->
  distribute_ice c bhop names polar volc = Err KeyError.
Proof.
  intros c bhop names polar volc n Hm Hin Hn. unfold distribute_ice.
  destruct (if use_volc_dep c then _ else _) as [P V]. rewrite Hm.
  assert (E : get_ballistic_hop_coldtraps bhop names = Err KeyError).
  { unfold get_ballistic_hop_coldtraps. clear - Hin Hn. induction names as [|m l IH]; [destruct Hin|].
    cbn [mapM]. destruct (bhop m) eqn:Em; [|reflexivity]. cbn [bind].
    destruct Hin as [->|Hin]; [congruence|]. rewrite IH by auto. reflexivity. }
  rewrite E. reflexivity.
Qed.

Example C33_case : exists rows,
  distribute_ice ICFG0 (fun _ => Some (54 / 1000)) ["Haworth"; "Faustini"]%string [10; 20] [1; 0] = Ok rows /\
  nth_error rows 1 = Some [20; 20].
Proof.
  destruct (C33_values ICFG0 (fun _ => Some (54 / 1000)) ["Haworth"; "Faustini"]%string [10; 20] [1; 0])
    as (rows & E & HL & H); [reflexivity|eauto|].
  exists rows. split; auto.
  destruct (H 1%nat 0%nat 20 0 "Haworth"%string) as (row & x & H1 & H2 & H3 & H4 & _); auto.
  destruct (H 1%nat 1%nat 20 0 "Faustini"%string) as (row' & y & G1 & G2 & G3 & G4 & _); auto.
  rewrite H1 in G1. injection G1 as <-. rewrite H1. f_equal.
  destruct row as [|a [|b [|? ?]]]; try discriminate. cbn [nth_error] in *.
  injection H3 as ->. injection G3 as ->.
  rewrite (H4 eq_refl eq_refl _ eq_refl), (G4 eq_refl eq_refl _ eq_refl). cbn [hop_effcy volc_dep_effcy ICFG0].
  f_equal; [lra|f_equal; lra].
Qed.

(** ** C55: overturn depth *)

Theorem C55_costello : forall c time i t d,
  costello c = true -> 0 <= overturn_present c -> 0 <= overturn_slope c ->
  nth_error time i = Some t -> nth_error (overturn_depth_time c time) i = Some d ->
  overturn_present c <= d /\
  (t <= overturn_t0 c -> d = overturn_present c) /\
  (overturn_t0 c <= t -> d = overturn_present c * (1 + overturn_slope c * (t - overturn_t0 c))).
Proof. exact overturn_shape. Qed.

(** Deeper at older times, by no more than the slope (so no jump at t0). *)
Theorem C55_increasing : forall c time i j t t' d d',
  costello c = true -> 0 <= overturn_present c -> 0 <= overturn_slope c ->
  nth_error time i = Some t -> nth_error time j = Some t' ->
  nth_error (overturn_depth_time c time) i = Some d -> nth_error (overturn_depth_time c time) j = Some d' ->
  t <= t' ->
  0 <= d' - d <= overturn_present c * overturn_slope c * (t' - t) /\
  (overturn_t0 c <= t -> t < t' -> 0 < overturn_present c -> 0 < overturn_slope c -> d < d').
Proof.
  intros c time i j t t' d d' Hc Hp Hs Ht Ht' Hd Hd' Htt.
  destruct (overturn_shape c time i t d Hc Hp Hs Ht Hd) as (A & B & C).
  destruct (overturn_shape c time j t' d' Hc Hp Hs Ht' Hd') as (A' & B' & C').
  assert (H0 : 0 <= overturn_present c * overturn_slope c) by now apply Rmult_le_pos.
  split.
  - destruct (Rle_or_lt t' (overturn_t0 c)) as [H1|H1].
    + rewrite B, B' by lra. split; [lra|]. replace (overturn_present c - overturn_present c) with 0 by lra.
      apply Rmult_le_pos; lra.
    + rewrite C' by lra. destruct (Rle_or_lt t (overturn_t0 c)) as [H2|H2].
      * rewrite B by lra. nra.
      * rewrite C by lra. nra.
  - intros H1 H2 H3 H4. rewrite C, C' by lra. assert (0 < overturn_present c * overturn_slope c) by now apply Rmult_lt_0_compat. nra.
Qed.

Theorem C55_cannon : forall c time i t, costello c = false -> nth_error time i = Some t ->
  nth_error (overturn_depth_time c time) i = Some (ice_erosion_rate c * (timestep c / 10000000)).
Proof. intros c time i t Hc Ht. rewrite (overturn_nth c time i t Ht), Hc. f_equal. ring. Qed.

Example C55_case : overturn_depth_time ICFG0 [4000000000; 1000000000] = [18 / 100; 9 / 100].
Proof.
  assert (H : forall x y, overturn_depth_time ICFG0 [4000000000; 1000000000] = [x; y] ->
              [x; y] = [18 / 100; 9 / 100]).
  { intros x y E.
    destruct (C55_costello ICFG0 [4000000000; 1000000000] 0 4000000000 x) as (_ & _ & A);
      [reflexivity|cbn; lra|cbn; lra|reflexivity|rewrite E; reflexivity|].
    destruct (C55_costello ICFG0 [4000000000; 1000000000] 1 1000000000 y) as (_ & B & _);
      [reflexivity|cbn; lra|cbn; lra|reflexivity|rewrite E; reflexivity|].
    cbn [overturn_present overturn_slope overturn_t0 ICFG0] in A, B. rewrite A, B by lra.
    f_equal. lra. }
  etransitivity; [|eapply H]; reflexivity.
Qed.

(** ** C62: the default chronology *)

(** The default crater production function decreases between the bounds of regimes c,
    d and e, so every regime has a positive number of craters per timestep at any time. *)
Theorem C62_counts_positive : forall r t, In r ["c"; "d"; "e"]%string ->
  exists diams n prob, get_crater_pop ICFG0 [t] r = Ok (diams, [n], prob) /\ 0 < n.
Proof.
  intros r t Hr.
  destruct (crater_pop_ok ICFG0 [t] r sane_default Hr)
    as (diams & nt & prob & dmin & dmax & step & slope & E & Er & HL & _).
  destruct nt as [|n [|? ?]]; try discriminate. exists diams, n, prob. split; auto.
  assert (Hneu : neukum ICFG0 dmax < neukum ICFG0 dmin).
  { destruct Hr as [<-|[<-|[<-|[]]]]; injection Er as <- <- _ _;
      [exact neukum_c|exact neukum_d|exact neukum_e]. }
  unfold get_crater_pop, regime_of in E. rewrite Er in E. cbn [bind] in E.
  destruct (get_crater_sfd dmin dmax step slope) as [[ds p]|]; [|discriminate]. cbn [bind map] in E.
  injection E as _ <- _. unfold share, num_craters_chronology.
  cbn [is_comet comets_on comet_ast_frac sa_moon timestep ICFG0]. pose proof PI_RGT_0.
  pose proof (scaling_pos t) as Hsc. set (f := impact_flux_scaling t) in *. clearbody f.
  set (pi := PI) in *. clearbody pi. repeat apply Rmult_lt_0_compat; lra.
Qed.
Example C62_case : exists diams n prob, get_crater_pop ICFG0 [4250000000] "e" = Ok (diams, [n], prob) /\ 0 < n.
Proof. apply C62_counts_positive. simpl. auto. Qed.

Print Assumptions C22_conserves_mass.
Print Assumptions C22_linear.
Print Assumptions C22_monotone.
Print Assumptions C22_other_species.
Print Assumptions C23_values.
Print Assumptions C23_total.
Print Assumptions C61_head_only.
Print Assumptions C61_nk_refuted.
Print Assumptions C61_unknown.
Print Assumptions C24_modes.
Print Assumptions C24_range.
Print Assumptions C24_at_table_times.
Print Assumptions C26_craters.
Print Assumptions C26_small_impactors.
Print Assumptions C26_micrometeorites.
Print Assumptions C26_comet_fraction_twice_refuted.
Print Assumptions C27_nonnegative.
Print Assumptions C27_slow.
Print Assumptions C27_decreasing.
Print Assumptions C27_fits.
Print Assumptions C27_fraction_refuted.
Print Assumptions C28_probabilities.
Print Assumptions C28_power_law.
Print Assumptions C28_decreasing.
Print Assumptions C28_diameters.
Print Assumptions C28_coarse_step.
Print Assumptions C29_positive.
Print Assumptions C29_increasing.
Print Assumptions C29_present.
Print Assumptions C33_values.
Print Assumptions C33_unknown_coldtrap.
Print Assumptions C55_costello.
Print Assumptions C55_increasing.
Print Assumptions C55_cannon.
Print Assumptions C62_counts_positive.
