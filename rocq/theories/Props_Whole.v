(** C74: what a cold trap's results owe to the other cold traps of the run. *)
From Coq Require Import String List ZArith Reals Lia Lra Bool Permutation Sorted.
From Verif Require Import Base Arith Model_Column Model_Time Model_Geo Model_Interp Model_Crater
  Model_Ice Model_Rng Model_Strat Model_Melt Model_Main Spec_Column Spec_Time Spec_Geo Spec_Ice Spec_Strat Spec_Melt Spec_Main
  Proofs_Base Proofs_Time Proofs_Geo Proofs_Ice Proofs_Rng Proofs_ColumnP Proofs_Melt Proofs_Bsed Proofs_Main Proofs_Whole Proofs_Crater Proofs_Scaling
  Props_Rng Props_Melt Props_Main.
Import ListNotations.
Open Scope R_scope.

(** Without ballistic sedimentation, a cold trap's stratigraphy, ice and ejecta are the same
    whatever other cold traps are simulated with it, and so is the use of random numbers. *)
Theorem C74_unaffected : forall c names names' ppf sort craters basins u k out k1 out' k1' n,
  sorts_by_age sort -> NoDup names -> NoDup names' -> NoDup (map w_name (craters ++ basins)) ->
  bsed_on (r_bsed c) = false ->
  main (with_names c names) ppf sort craters basins u k = Ok (out, k1) ->
  main (with_names c names') ppf sort craters basins u k = Ok (out', k1') ->
  In n names -> In n names' -> k1 = k1' /\ same_for n out out'.
Proof.
  intros c names names' ppf sort craters basins u k out k1 out' k1' n So N N' Nr Off H H' I I'.
  apply In_nth_error in I as [j J]. apply In_nth_error in I' as [j' J'].
  apply (runs_agree c names names' ppf sort craters basins u k out k1 out' k1' j j' n); auto. intros On. rewrite Off in On. discriminate.
Qed.

(** With it, the depths of sedimentation at a cold trap still do not depend on the other
    cold traps. *)
Theorem C74_depths : forall c b t thick_min tol time sites thr bthr names names' dists dists' bd bf bd' bf' j j' n i,
  get_coldtrap_dists thr bthr names sites = Ok dists ->
  get_coldtrap_dists thr bthr names' sites = Ok dists' ->
  get_bsed_depth c b t thick_min tol (length names) time sites dists = Ok (bd, bf) ->
  get_bsed_depth c b t thick_min tol (length names') time sites dists' = Ok (bd', bf') ->
  nth_error names j = Some n -> nth_error names' j' = Some n ->
  forall x, cell_is bd i j x <-> cell_is bd' i j' x.
Proof.
  intros c b t tm tol time sites thr bthr names names' dists dists' bd bf bd' bf' j j' n i D D' B B' J J'.
  assert (Lj : (j < length names)%nat) by (apply nth_error_Some; congruence).
  assert (Lj' : (j' < length names')%nat) by (apply nth_error_Some; congruence).
  destruct (bsed_colj _ _ _ _ _ _ _ _ _ _ _ _ _ _ _ _ _ Lj Lj' (dists_colj _ _ _ _ _ _ _ _ _ _ J J' D D') B B') as [C _].
  apply (f_equal (fun l => nth_error l i)) in C. unfold colj in C. rewrite !nth_error_map in C. unfold cell_is.
  destruct (nth_error bd i) as [r|], (nth_error bd' i) as [r'|]; cbn [option_map] in C; try discriminate.
  - injection C as C. intros x. split; intros (q & [= <-] & Q); [exists r'|exists r]; split; auto; congruence.
  - intros x. split; intros (q & A & _); discriminate.
Qed.

(** Only the melt fractions can. *)
Theorem C74_given_melt : forall c names names' ppf sort craters basins u k out k1 out' k1' j j' n,
  sorts_by_age sort -> NoDup names -> NoDup names' -> NoDup (map w_name (craters ++ basins)) ->
  main (with_names c names) ppf sort craters basins u k = Ok (out, k1) ->
  main (with_names c names') ppf sort craters basins u k = Ok (out', k1') ->
  nth_error names j = Some n -> nth_error names' j' = Some n ->
  (forall df k0 d d' bd bf bd' bf' i x,
     get_crater_basin_list c ppf sort craters basins u k = Ok (df, k0) ->
     get_coldtrap_dists (r_ejthr c) (r_basinthr c) names (map site_of df) = Ok d ->
     get_coldtrap_dists (r_ejthr c) (r_basinthr c) names' (map site_of df) = Ok d' ->
     get_bsed_depth (crat (r_i c)) (r_bsed c) (r_melt c) (r_min c) (r_tol c) (length names) (o_time out) (map site_of df) d = Ok (bd, bf) ->
     get_bsed_depth (crat (r_i c)) (r_bsed c) (r_melt c) (r_min c) (r_tol c) (length names') (o_time out) (map site_of df) d' = Ok (bd', bf') ->
     (cell_is bf i j x <-> cell_is bf' i j' x)) ->
  k1 = k1' /\ same_for n out out'.
Proof.
  intros c names names' ppf sort craters basins u k out k1 out' k1' j j' n So N N' Nr H H' J J' HB.
  apply (runs_agree c names names' ppf sort craters basins u k out k1 out' k1' j j' n); auto. intros _ df k0 d d' bd bf bd' bf' A B C D D'.
  apply colj_cells; [apply bsed_length in D, D'; congruence|].
  intros i x. exact (HB df k0 d d' bd bf bd' bf' i x A B C D D').
Qed.

(** ** Adding a cold trap changes the ice of another one *)

(** Default values, except steps of 1 Gyr, a volcanic volume [vol], and Cannon's erosion with
    rate 0. *)
Definition icfg1 (vol : R) : icfg :=
  mk_icfg
    (crat ICFG0) (mode ICFG0) (is_comet ICFG0) (comets_on ICFG0) (basins_on ICFG0)
    (ice_species ICFG0) (area_H2O ICFG0) (area_CO2 ICFG0) (hop_effcy ICFG0) (ice_density ICFG0)
    (solar_wind_on ICFG0) (solar_wind_mode ICFG0) (faint_young_sun ICFG0) 1000000000
    (volc_mode ICFG0) vol (volc_magma_density ICFG0) (volc_ice_ppm ICFG0) (volc_early ICFG0)
    (volc_early_pct ICFG0) (volc_late ICFG0) (volc_late_pct ICFG0) (use_volc_dep ICFG0)
    (volc_dep_effcy ICFG0) (hop_moores ICFG0) (mm_mass_rate ICFG0) (ctype_frac ICFG0)
    (ctype_hydrated ICFG0) (hydrated_wt_pct ICFG0) (impact_mass_retained ICFG0)
    (comet_ast_frac ICFG0) (comet_density ICFG0) (comet_hydrated_wt_pct ICFG0)
    (comet_mass_retained ICFG0) (brown_c0 ICFG0) (brown_d0 ICFG0) (earth_moon_ratio ICFG0)
    (sa_moon ICFG0) (neukum_new ICFG0) (neukum_2001 ICFG0) (neukum_1983 ICFG0)
    (impact_speed_mean ICFG0) (impact_speed_sd ICFG0) (escape_vel ICFG0) (comet_speed_min ICFG0)
    (comet_speed_max ICFG0) (jfc_mean ICFG0) (jfc_sd ICFG0) (jfc_frac ICFG0) (lpc_mean ICFG0)
    (lpc_sd ICFG0) (lpc_frac ICFG0) false 0 (overturn_present ICFG0) (overturn_slope ICFG0)
    (overturn_t0 ICFG0) (regimes ICFG0).

(** All ice melts at a mixing ratio of 39 and none at 0; B gets volcanic ice only; ejecta
    reach the whole Moon. *)
Definition melt1 : table := mk_table [0; 39] [110; 510] [[0; 0]; [1; 1]].
Definition rcfg1 (vol : R) : rcfg :=
  mk_rcfg (icfg1 vol) [] 3000000000 0 1000000000 (1 / 1000000) (1 / 10) (- 1) (- 1) bcfg0 melt1
    1 false true [(0, 7 / 10); (457 / 100, 1)] (fun _ => Some 0) (fun x => x).
Definition raw_b : raw := mk_raw "B" (- 90) 0 (- 90) 0 41 3 (1 / 1000) (1 / 1000).
Definition raw_c : raw := mk_raw "C" 0 0 (- 45) 0 10 2 (1 / 1000) (1 / 1000).

Lemma icfg1_sane vol : sane (icfg1 vol).
Proof. destruct C63_default_sane as [[] _]. constructor; try assumption. cbn. lra. Qed.
Lemma rcfg1_ice vol names : 0 <= vol -> ice_sane (with_names (rcfg1 vol) names).
Proof.
  intros V. destruct C63_default_sane as (_ & (B1 & B2 & B3 & B4 & B5 & B6 & B7) & C). constructor.
  - apply icfg1_sane.
  - apply C; [discriminate| |]; repeat constructor; cbn; lra.
  - repeat split; assumption.
  - intros _ n _. exists 0. split; [reflexivity|lra].
Qed.
Lemma melt1_good : good_table melt1.
Proof.
  unfold good_table, melt1; cbn [t_mrs t_temps t_vals].
  repeat split; try congruence; repeat constructor; lra.
Qed.
Lemma rcfg1_bsed vol names : bsed_sane (with_names (rcfg1 vol) names).
Proof.
  intros _. cbv zeta. split; [exact melt1_good|]. split; [|split; [cbn; lra|split; [|split]]].
  - intros mr temp v H. unfold value_at in H.
    destruct H as (i & j & row & _ & _ & H1 & H2). cbn in H1.
    destruct i as [|[|i]]; cbn in H1; [| |destruct i; discriminate]; injection H1 as <-;
      (destruct j as [|[|j]]; cbn in H2; [| |destruct j; discriminate]; injection H2 as <-; lra).
  - intros d Hd. cbn [with_names rcfg1 r_bsed r_melt melt1 t_mrs bcfg0 mr_a mr_b mr_petro].
    pose proof (mr_default_bound d Hd). exists 0, 39. cbn [In]. repeat split; auto; lra.
  - exists 110, 510. cbn. repeat split; auto; lra.
  - exists 110, 510. cbn. repeat split; auto; lra.
Qed.
Lemma rcfg1_data vol names : names = ["B"%string] \/ names = ["B"; "C"]%string ->
  data_sane (with_names (rcfg1 vol) names) ([raw_b; raw_c] ++ []) /\ time_sane (with_names (rcfg1 vol) names) ([raw_b; raw_c] ++ []).
Proof.
  intros H. split.
  - constructor.
    + destruct H as [-> | ->]; repeat constructor; cbn; intuition discriminate.
    + repeat constructor; cbn; intuition discriminate.
    + intros n Hn. destruct H as [-> | ->]; cbn in *; tauto.
    + repeat constructor; cbn; lra.
  - constructor; [reflexivity|cbn; lia|]. discriminate.
Qed.

Definition row_b : crater info := set_age (read_row false "no" raw_b) 3000000000.
Definition row_c : crater info := set_age (read_row false "no" raw_c) 2000000000.
Definition times1 : list R := [3000000000; 2000000000; 1000000000].

Lemma time1 vol names : get_time_array (r_rnd (with_names (rcfg1 vol) names)) (r_start (with_names (rcfg1 vol) names))
  (r_end (with_names (rcfg1 vol) names)) (r_step (with_names (rcfg1 vol) names)) = Ok times1.
Proof.
  cbn [with_names rcfg1 r_rnd r_start r_end r_step]. unfold get_time_array.
  change (1000000000 =? 0)%Z with false. change (Z.quot (3000000000 - 0) 1000000000) with 3%Z.
  change (3 <? 0)%Z with false. change (Z.to_nat 3) with 3%nat. cbv iota. unfold linspace. cbn [seq map]. unfold times1.
  replace (INR 3) with 3 by (cbn; lra). replace (INR 2) with 2 by (cbn; lra). change (INR 1) with 1. change (INR 0) with 0.
  f_equal. f_equal; [|f_equal; [|f_equal]]; field.
Qed.
Lemma age_mid w z : w_age w = IZR z -> w_low w = 1 / 1000 -> w_upp w = 1 / 1000 ->
  new_age 1000000000 (read_row false "no" w)
    (lin_ppf (trunc_a (read_row false "no" w)) (Some (trunc_b (read_row false "no" w))) (1 / 2)) = IZR z * 1000000000.
Proof.
  intros A L U. unfold new_age, round_to_ts, lin_ppf, trunc_a, trunc_b, age_sig. cbn [read_row c_age c_low c_upp].
  rewrite A, L, U. do 2 f_equal. rewrite <- (rint_int z) at 2. f_equal. field.
Qed.
Lemma list1 vol names u : (forall i, u i = 1 / 2) ->
  get_crater_basin_list (with_names (rcfg1 vol) names) lin_ppf isort_age [raw_b; raw_c] [] u 0%nat = Ok ([row_b; row_c], 2%nat).
Proof.
  intros U. unfold get_crater_basin_list, random_icy_basins, get_random_hydrated_basins, draw_ages, random, rbind, ret.
  cbn [bind length seq map combine app Nat.add]. do 2 f_equal. unfold randomize_crater_ages. cbn [combine map]. rewrite !U.
  change (IZR (r_step (with_names (rcfg1 vol) names))) with 1000000000.
  rewrite (age_mid raw_b 3), (age_mid raw_c 2) by reflexivity. unfold row_b, row_c.
  replace (3 * 1000000000) with 3000000000 by lra. replace (2 * 1000000000) with 2000000000 by lra.
  unfold isort_age. cbn [fold_right insert_age c_age set_age].
  destruct (Rleb 2000000000 3000000000) eqn:E; [reflexivity|]. apply Rleb_false in E. lra.
Qed.

Definition d1 : R := PI * 1737400 / 2.
Definition d2 : R := PI * 1737400 / 4.
Lemma dist_cb : gc_dist default_rp 0 0 0 (- 90) = d1.
Proof. exact quarter. Qed.
Lemma dist_bc : gc_dist default_rp 0 (- 90) 0 (- 45) = d2.
Proof.
  unfold default_rp, d2. symmetry. apply gc_dist_unique; [lra|pose proof PI_RGT_0; lra|].
  replace (PI * 1737400 / 4 / 1737400) with (PI / 4) by field. rewrite cos_PI4. unfold dot, pos.
  replace (0 * PI / 180) with 0 by field. replace (-90 * PI / 180) with (- (PI / 2)) by field.
  replace (-45 * PI / 180) with (- (PI / 4)) by field.
  rewrite !cos_neg, !sin_neg, cos_PI2, cos_0, sin_0, sin_PI2, sin_PI4. field. apply sqrt2_neq_0.
Qed.
Lemma d_bounds : 0 < d2 < d1 /\ d1 <= PI * 1737400 /\ 2500000 < d1 /\ 1250000 < d2.
Proof. unfold d1, d2. pose proof PI2_3_2. pose proof PI_RGT_0. lra. Qed.

Definition sites1 : list site := map site_of [row_b; row_c].
Lemma dist_ok sites s n dst d : s_name s <> n -> filter (fun r => String.eqb (s_name r) n) sites = [dst] ->
  gc_dist default_rp (s_lon s) (s_lat s) (s_plon dst) (s_plat dst) = d -> s_rad s < d -> 0 < d ->
  coldtrap_dist (- 1) (- 1) sites s n = Ok (Some d).
Proof.
  intros N F G L P. unfold coldtrap_dist. destruct (String.eqb_spec (s_name s) n); [contradiction|]. rewrite F, G.
  assert (E : ej_limit (- 1) (- 1) s = None).
  { unfold ej_limit. destruct (s_basin s); (rcase (-1) 0 E; [reflexivity|lra]). }
  rewrite E. cbn [below_limit]. rcase (s_rad s) d E'; [|lra]. cbn [andb].
  destruct (Rleb d 0) eqn:Q; [apply Rleb_true in Q; lra|reflexivity].
Qed.
Lemma dists1 : get_coldtrap_dists (- 1) (- 1) ["B"%string] sites1 = Ok [[None]; [Some d1]].
Proof.
  destruct d_bounds as (A & B & C & D). unfold get_coldtrap_dists, sites1. cbn [map mapM].
  replace (coldtrap_dist (- 1) (- 1) [site_of row_b; site_of row_c] (site_of row_b) "B") with (Ok (@None R)) by reflexivity. cbn [bind].
  rewrite (dist_ok _ _ _ (site_of row_b) d1); [reflexivity|discriminate|reflexivity| | |lra].
  - exact dist_cb.
  - cbn. lra.
Qed.
Lemma dists2 : get_coldtrap_dists (- 1) (- 1) ["B"; "C"]%string sites1 = Ok [[None; Some d2]; [Some d1; None]].
Proof.
  destruct d_bounds as (A & B & C & D). unfold get_coldtrap_dists, sites1. cbn [map mapM].
  replace (coldtrap_dist (- 1) (- 1) [site_of row_b; site_of row_c] (site_of row_b) "B") with (Ok (@None R)) by reflexivity.
  replace (coldtrap_dist (- 1) (- 1) [site_of row_b; site_of row_c] (site_of row_c) "C") with (Ok (@None R)) by reflexivity. cbn [bind].
  rewrite (dist_ok _ (site_of row_c) _ (site_of row_b) d1); [|discriminate|reflexivity| | |lra].
  - rewrite (dist_ok _ (site_of row_b) _ (site_of row_c) d2); [reflexivity|discriminate|reflexivity| | |lra].
    + exact dist_bc.
    + cbn. lra.
  - exact dist_cb.
  - cbn. lra.
Qed.

(** Events at the first two of the three times. *)
Lemma place1 {V} (agg : V -> V -> V) fill a b :
  ages2time agg fill (1 / 1000000) times1 [(3000000000, a); (2000000000, b)] = Ok [agg fill a; agg fill b; fill].
Proof.
  unfold ages2time, minmax_rtol, times1, list_min, list_max, rtol. cbn [fold_left bind].
  rewrite (Rmin_right 3000000000) by lra. rewrite (Rmin_right 2000000000) by lra.
  rewrite (Rmax_left 3000000000 2000000000) by lra. rewrite (Rmax_left 3000000000 1000000000) by lra.
  rewrite !(Rabs_pos_eq _) by lra. cbn [filter fst].
  assert (L : forall x y, x <= y -> Rleb x y = true) by (intros; now apply Rleb_true).
  rewrite !L by lra. cbn [andb].
  assert (N : forall x y, ~ x < y -> Rltb x y = false) by (intros x y H; apply Rltb_false; lra).
  assert (T : forall x y, x < y -> Rltb x y = true) by (intros; now apply Rltb_true).
  unfold place, nearest_idx, argmin_from. cbn [fold_left map fst snd length repeat].
  replace (3000000000 - 3000000000) with 0 by ring. replace (2000000000 - 2000000000) with 0 by ring.
  replace (2000000000 - 3000000000) with (- 1000000000) by ring. replace (1000000000 - 3000000000) with (- 2000000000) by ring.
  replace (3000000000 - 2000000000) with 1000000000 by ring. replace (1000000000 - 2000000000) with (- 1000000000) by ring.
  rewrite Rabs_R0, (Rabs_left (- 1000000000)), (Rabs_left (- 2000000000)), (Rabs_pos_eq 1000000000) by lra.
  rewrite (N (- - 1000000000) 0), (N (- - 2000000000) 0), (T 0 1000000000) by lra. reflexivity.
Qed.

Definition mr1 (d : R) : R := mixing_ratio (183 / 10000) (87 / 100) true d.
(** Thickness of C's ejecta at B, and the depth they stir. *)
Definition th1 : R := get_ejecta_thickness (crat ICFG0) (Some d1) (10 * 1000 / 2).
Definition D1 : R := th1 * mr1 d1.
(** Volcanic ice of a cold trap at the first time, for a volume of 1. *)
Definition kap : R := 7500000 * (26 / 100) / 934 / (13000 * 1000000).

Lemma ice_col1 vol names df u k ice k' j n : 0 <= vol -> draws u ->
  get_ice_cols_time (icfg1 vol) lin_ppf (1 / 1000000) [(0, 7 / 10); (457 / 100, 1)] (fun _ => Some 0) names df times1 u k = Ok (ice, k') ->
  nth_error names j = Some n -> column ice j = Ok [vol * kap; 0; 0].
Proof.
  intros V U H J.
  destruct (ice_rows (with_names (rcfg1 vol) names) lin_ppf df times1 u k (rcfg1_ice vol names V) lin_support U ltac:(discriminate))
    as (rows & k2 & R1 & R2 & _).
  cbn [with_names rcfg1 r_i r_tol r_lum r_bhop r_names] in R1. rewrite H in R1. injection R1 as <- _.
  unfold get_ice_cols_time in H.
  apply rbind_ok in H as (p & k3 & H1 & H). apply rbind_ok in H as (v & k4 & H2 & H).
  apply lift_ok in H2 as [H2 ->]. apply lift_ok in H as [H ->]. clear H1.
  assert (Vv : v = [vol * kap * (54 / 1000 / (26 / 100)); 0; 0]).
  { unfold get_volcanic_ice in H2. cbn [icfg1 volc_mode ICFG0] in H2.
    change (String.eqb "Head" "NK") with false in H2. change (String.eqb "Head" "Head") with true in H2. cbv iota in H2. cbn [bind] in H2.
    unfold volcanic_ice_head, times1, in_epoch, volc_rate_late, volc_ice_total, get_ice_thickness in H2.
    cbn [map mapM icfg1 volc_early volc_late fst snd ICFG0 ice_species area_H2O hop_effcy ice_density timestep volc_total_vol
         volc_magma_density volc_ice_ppm volc_late_pct] in H2.
    change (String.eqb "H2O" "H2O") with true in H2. cbv iota in H2. cbn [bind] in H2.
    assert (N : forall x y, ~ x < y -> Rltb x y = false) by (intros x y Q; apply Rltb_false; lra).
    assert (T : forall x y, x < y -> Rltb x y = true) by (intros; now apply Rltb_true).
    assert (L : forall x y, x <= y -> Rleb x y = true) by (intros; now apply Rleb_true).
    rewrite (N 3000000000 3000000000), (N 3000000000 2000000000), (N 3000000000 1000000000), (T 2000000000 3000000000),
      (N 2000000000 2000000000), (N 2000000000 1000000000), (L 3000000000 3000000000), (L 2000000000 3000000000), (L 1000000000 3000000000) in H2 by lra.
    rewrite !Bool.andb_false_r in H2. cbn [andb] in H2. injection H2 as <-. unfold kap. f_equal; [field|]. f_equal; [field|]. f_equal. field. }
  subst v. unfold distribute_ice in H. cbn [icfg1 use_volc_dep ICFG0 volc_dep_effcy hop_effcy hop_moores map] in H. 
  destruct (get_ballistic_hop_coldtraps _ names) as [hs|] eqn:B; [|discriminate]. cbn [bind] in H. injection H as <-.
  destruct (mapM_nth _ _ _ B) as [_ M]. destruct (M j n J) as (x & X & F). injection F as <-.
  destruct p as [|p0 [|p1 [|p2 p]]]; cbn [map combine length times1] in R2; try discriminate.
  cbn [map combine]. destruct p; cbn [map combine]; unfold column; cbn [mapM]; unfold get; rewrite !nth_error_map, X; cbn [option_map bind];
    (f_equal; f_equal; [field|f_equal; [field|f_equal; field]]).
Qed.

Lemma ej1 m r0 r1 ej src :
  get_ejecta_thickness_time (crat ICFG0) (1 / 10) (1 / 1000000) (S m) times1 sites1 [None :: r0; Some d1 :: r1] = Ok (ej, src) ->
  colj ej 0 = [Some 0; Some th1; Some 0].
Proof.
  intros H. unfold get_ejecta_thickness_time, sites1 in H. cbn [map site_of row_b row_c set_age c_rest c_age s_age] in H.
  unfold get_ejecta_thickness_matrix in H. cbn [combine map] in H.
  destruct (ages2time (zipw Rplus) _ _ _ _) as [e|] eqn:E in H; [|discriminate]. cbn [bind] in H.
  destruct (ages2time (zipw String.append) _ _ _ _) as [s|] eqn:S1 in H; [|discriminate]. cbn [bind] in H.
  assert (ej = e) as -> by congruence. clear H S1. rewrite place1 in E. injection E as <-.
  unfold colj. cbn [repeat map zipw combine nth_error].
  replace (get_ejecta_thickness (crat ICFG0) None _) with 0.
  - unfold th1. cbn [read_row raw_c s_rad d_rad c_rest w_diam]. rewrite !Rplus_0_l. reflexivity.
  - unfold get_ejecta_thickness. repeat match goal with |- context [if ?b then _ else _] => destruct b end; reflexivity.
Qed.
Lemma bsed1 m r0 r1 q0 q1 f bd bf : 0 <= f ->
  get_melt_frac melt1 (ejecta_temp bcfg0 (S m) sites1) (get_mixing_ratio_oberbeck bcfg0 [None :: r0; Some d1 :: r1])
    = Ok [Some 0 :: q0; Some f :: q1] ->
  get_bsed_depth (crat ICFG0) bcfg0 melt1 (1 / 10) (1 / 1000000) (S m) times1 sites1 [None :: r0; Some d1 :: r1] = Ok (bd, bf) ->
  colj bd 0 = [Some (Some 0); Some (Some D1); Some (Some 0)] /\ colj bf 0 = [Some (Some 0); Some (Some f); Some (Some 0)].
Proof.
  intros F M H. unfold get_bsed_depth in H. cbn [bsed_on bcfg0] in H. rewrite M in H. cbn [bind] in H. clear M.
  destruct (get_ejecta_thickness_time _ _ _ _ _ _ _) as [[ej src]|] eqn:E; [|discriminate]. cbn [bind] in H. apply ej1 in E.
  unfold sites1 in H. cbn [map site_of row_b row_c set_age c_rest c_age s_age] in H.
  unfold get_mixing_ratio_oberbeck in H. cbn [combine map] in H. rewrite !place1 in H. cbn [bind] in H.
  assert (Q : forall (x x' : list (list (option R))) (y y' : list (list (option R))), Ok (x, y) = Ok (x', y') -> x = x' /\ y = y').
  { intros x x' y y' [= -> ->]. auto. }
  apply Q in H as [<- <-]. split.
  - unfold colj in *. destruct ej as [|e0 [|e1 [|e2 [|]]]]; cbn [map] in E; try discriminate. injection E as E0' E1' E2'.
    destruct e0 as [|x0 e0], e1 as [|x1 e1], e2 as [|x2 e2]; try discriminate. injection E0' as ->. injection E1' as ->. injection E2' as ->.
    cbn [repeat map zipw combine nth_error option_map omul nanmax]. unfold D1, mr1. cbn [bcfg0 mr_a mr_b mr_petro].
    destruct (mr_default_bound d1) as [P _]; [destruct d_bounds; lra|]. rewrite Rmax_right by lra.
    f_equal; [|f_equal; f_equal]; try reflexivity; do 2 f_equal; ring.
  - unfold colj. cbn [repeat map zipw combine nth_error option_map omul nanmax bcfg0 frac_lost].
    rewrite !(Rmax_right 0) by lra. f_equal; [|f_equal; [|f_equal]]; do 2 f_equal; ring.
Qed.

Lemma melt_at1 m r0 r1 M f : length r0 = m -> length r1 = m ->
  (forall d, In (Some d) (r0 ++ r1) -> 0 < d <= PI * 1737400) ->
  labels [0; 39] (fun y => y = mr1 d1 \/ exists d, In (Some d) (r0 ++ r1) /\ y = mr1 d) M ->
  rank_frac M 0 39 (mr1 d1) = f -> exists q0 q1,
  get_melt_frac melt1 (ejecta_temp bcfg0 (S m) sites1) (get_mixing_ratio_oberbeck bcfg0 [None :: r0; Some d1 :: r1])
    = Ok [Some 0 :: q0; Some f :: q1].
Proof.
  intros L0 L1 HD LM HF. destruct d_bounds as (Da & Db & Dc & Dd).
  assert (HD' : forall d, In (Some d) ((None :: r0) ++ Some d1 :: r1) -> 0 < d <= PI * 1737400).
  { intros d H. apply in_app_iff in H. cbn [In] in H. destruct H as [[H|H]|[[= <-]|H]]; [discriminate| | |]; [|lra|]; apply HD, in_app_iff; auto. }
  assert (V00 : value_at melt1 0 110 0) by (exists 0%nat, 0%nat, [0; 0]; auto).
  assert (V01 : value_at melt1 0 510 0) by (exists 0%nat, 1%nat, [0; 0]; auto).
  assert (V10 : value_at melt1 39 110 1) by (exists 1%nat, 0%nat, [1; 1]; auto).
  assert (V11 : value_at melt1 39 510 1) by (exists 1%nat, 1%nat, [1; 1]; auto).
  assert (HM : forall d, 0 < d <= PI * 1737400 -> 0 < mr1 d < 39) by exact mr_default_bound.
  destruct (melt_spec melt1 (ejecta_temp bcfg0 (S m) sites1) (get_mixing_ratio_oberbeck bcfg0 [None :: r0; Some d1 :: r1]))
    as (out & E & Sh & Z & B).
  - exact melt1_good.
  - unfold same_shape, get_mixing_ratio_oberbeck, ejecta_temp, sites1. cbn [map].
    repeat constructor; rewrite !repeat_length; cbn [length]; rewrite !map_length; lia.
  - apply on_table_within. split.
    + intros i j d (row & A & C). assert (I : In (Some d) ((None :: r0) ++ Some d1 :: r1)).
      { apply in_app_iff. destruct i as [|[|i]]; cbn in A; [| |destruct i; discriminate]; injection A as <-; apply nth_error_In in C; auto. }
      specialize (HM d (HD' d I)). change (mixing_ratio _ _ _ d) with (mr1 d). exists 0, 39. cbn [melt1 t_mrs In]. repeat split; auto; lra.
    + intros s _. exists 110, 510. destruct (s_basin s); cbn; repeat split; auto; lra.
  - assert (Z0 : cell_is out 0 0 (Some 0)).
    { apply Z. exists (None :: map (option_map mr1) r0). split; reflexivity. }
    destruct (B M [110; 510; 140] 1%nat 0%nat (mr1 d1) 140) as (v & C & Bi).
    + destruct LM as [N LM]. split; auto. intros y. cbn [melt1 t_mrs]. rewrite LM.
      assert (Q : (y = mr1 d1 \/ exists d, In (Some d) (r0 ++ r1) /\ y = mr1 d) <->
        In (Some y) (concat (get_mixing_ratio_oberbeck bcfg0 [None :: r0; Some d1 :: r1]))).
      { unfold get_mixing_ratio_oberbeck. cbn [map concat]. rewrite app_nil_r.
        split.
        - intros [->|(d & I & ->)]; apply in_app_iff; [right; left; reflexivity|].
          apply in_app_iff in I as [I|I]; [left; right|right; right]; apply in_map_iff; exists (Some d); auto.
        - intros I. apply in_app_iff in I. cbn [In option_map] in I. destruct I as [[I|I]|[I|I]]; [discriminate| |injection I as <-; auto|];
            right; apply in_map_iff in I as ([d|] & I & J); try discriminate; injection I as <-; exists d; (split; [apply in_app_iff; auto|reflexivity]). }
      rewrite Q. reflexivity.
    + split; [repeat constructor; cbn; intuition lra|]. intros y. cbn [melt1 t_temps In]. split.
      * intros [<-|[<-|[<-|[]]]]; auto. right. split; [|exists 110, 510; repeat split; auto; lra].
        unfold ejecta_temp, sites1. cbn. auto.
      * intros [H|(H & _)]; [tauto|]. right. right. left. unfold ejecta_temp, sites1 in H. cbn [map concat] in H.
        rewrite app_nil_r in H. apply in_app_iff in H as [H|H]; apply repeat_spec in H; cbn in H; congruence.
    + exists (repeat 140 (S m)). split; reflexivity.
    + exists (Some (mr1 d1) :: map (option_map mr1) r1). split; reflexivity.
    + assert (BM : bracket (t_mrs melt1) 0 39 (mr1 d1)).
      { specialize (HM d1 ltac:(lra)). unfold bracket. cbn [melt1 t_mrs In]. repeat split; auto; try lra. intros y [<-|[<-|[]]]; lra. }
      assert (BT : bracket (t_temps melt1) 110 510 140).
      { repeat split; cbn; auto; try lra. intros y [<-|[<-|[]]]; lra. }
      rewrite (Bi 0 39 110 510 0 0 1 1 BM BT V00 V01 V10 V11) in C. rewrite HF in C. unfold mix in C.
      match type of C with cell_is _ _ _ (Some ?x) => replace x with f in C by ring end.
      destruct Z0 as (a & A1 & A2). destruct C as (a' & A1' & A2').
      assert (Lo : length out = 2%nat).
      { unfold same_shape in Sh. apply Forall2_nth_error in Sh as [Lo _]. cbn in Lo. lia. }
      destruct out as [|b [|b' [|]]]; try discriminate. injection A1 as ->. injection A1' as ->.
      destruct a as [|x a]; [discriminate|]. destruct a' as [|x' a']; [discriminate|]. injection A2 as ->. injection A2' as ->.
      exists a, a'. exact E.
Qed.

(** B's ice after the run, for the fraction [f] of C's ejecta at B. *)
Lemma run1 vol names r0 r1 q0 q1 f out k' : 0 <= f -> vol * kap = D1 -> 0 < D1 -> f <= 1 -> 0 <= vol ->
  NoDup ("B"%string :: names) ->
  get_coldtrap_dists (- 1) (- 1) ("B"%string :: names) sites1 = Ok [None :: r0; Some d1 :: r1] ->
  get_melt_frac melt1 (ejecta_temp bcfg0 (S (length names)) sites1) (get_mixing_ratio_oberbeck bcfg0 [None :: r0; Some d1 :: r1])
    = Ok [Some 0 :: q0; Some f :: q1] ->
  main (with_names (rcfg1 vol) ("B"%string :: names)) lin_ppf isort_age [raw_b; raw_c] [] tape0 0%nat = Ok (out, k') ->
  map fst (o_ice out) = "B"%string :: names /\ In ("B"%string, [D1 * (1 - f); 0; 0]) (o_ice out).
Proof.
  intros F V Dp F1 V0 N Di Me H.
  assert (Dr : draws tape0) by (intros i; unfold tape0; lra).
  apply main_ok in H as (time & df & k2 & d & d0 & bd & bf & d1' & T & L & Dd & I & B & U & Fo).
  rewrite time1 in T. injection T as <-. rewrite list1 in L by reflexivity. injection L as <- <-.
  cbn [with_names rcfg1 r_i r_names r_start r_end r_step r_tol r_min r_ejthr r_basinthr r_bsed r_melt r_shield r_after_age r_lum r_bhop r_rnd] in *.
  change (map site_of [row_b; row_c]) with sites1 in *. rewrite Di in Dd. injection Dd as <-.
  apply init_ok in I as (ej & src & ice & I1 & I2 & _ & I3); [|exact N].
  cbn [with_names rcfg1 r_i r_names r_tol r_min r_lum r_bhop length] in *.
  change (map site_of [row_b; row_c]) with sites1 in *.
  destruct (I3 0%nat "B"%string eq_refl) as (x & y & s & X & Y & _ & Lo).
  rewrite (ice_col1 vol _ _ _ _ _ _ 0 "B"%string V0 Dr I2 eq_refl) in X. injection X as <-. rewrite V in Lo.
  apply ej1 in I1.
  assert (y = [0; th1; 0]) as ->.
  { unfold column in Y. unfold colj in I1. destruct ej as [|e0 [|e1 [|e2 [|]]]]; cbn [map] in I1; try discriminate.
    destruct e0 as [|x0 e0], e1 as [|x1 e1], e2 as [|x2 e2]; try discriminate. injection I1 as -> -> ->.
    cbn [mapM get nth_error bind] in Y. now injection Y as <-. }
  apply (bsed1 (length names) r0 r1 q0 q1 f bd bf F Me) in B as [Bd Bf].
  set (evs := [mk_event D1 0 0 0 0; mk_event 0 th1 D1 f 0; mk_event 0 0 0 0 0]).
  assert (Ov : overturn_depth_time (icfg1 vol) times1 = map ev_overturn evs).
  { unfold overturn_depth_time, times1. cbn [icfg1 costello ice_erosion_rate map evs ev_overturn]. repeat f_equal; ring. }
  rewrite Ov in U.
  assert (G : forall (m : list (list (option R))) a b c, colj m 0 = [Some (Some a); Some (Some b); Some (Some c)] ->
    forall t e, nth_error [a; b; c] t = Some e -> get2 (map (map or_zero) m) t 0 = Ok e).
  { intros m a b c Hm t e He. unfold colj in Hm. destruct m as [|e0 [|e1 [|e2 [|]]]]; cbn [map] in Hm; try discriminate.
    destruct e0 as [|x0 e0], e1 as [|x1 e1], e2 as [|x2 e2]; try discriminate. injection Hm as -> -> ->.
    destruct t as [|[|[|t]]]; cbn in He; [| | |destruct t; discriminate]; injection He as <-; reflexivity. }
  pose proof (update_is_simulation exactR (costello (icfg1 vol)) 1 _ 0 "B"%string d0 d1' (map (map or_zero) bd) (map (map or_zero) bf) evs s N eq_refl Lo) as Si.
  assert (Si' := Si ltac:(
    intros t e He; split;
     [apply (G bd _ _ _ Bd)|apply (G bf _ _ _ Bf)];
     (destruct t as [|[|[|t]]]; cbn in He; [| | |destruct t; discriminate]; injection He as <-; reflexivity)) U). clear Si.
  apply format_ok in Fo as (F1' & F2' & F3 & F4 & F5); auto.
  2:{ cbn. repeat constructor; cbn; intuition discriminate. }
  split; [exact F3|]. destruct (F5 0%nat "B"%string eq_refl) as (r & st & la & _ & _ & Ls & _ & _ & O2 & _).
  rewrite Si' in Ls. injection Ls as <-. cbn [s_ice] in O2. apply nth_error_In in O2.
  match type of O2 with In (_, ?l) _ => assert (l = [D1 * (1 - f); 0; 0]) as Q end.
  { assert (G0 : forall e l, garden_stack exactR 0 0 e l = l).
    { intros e [|[a b] l]; cbn [garden_stack exactR ltb]; auto. rcase 0 0 Q; [lra|reflexivity]. }
    assert (O0 : forall sh l, erode_shielded exactR sh 0 l = l).
    { intros sh [|[a b] l]; cbn [erode_shielded exactR ltb]; auto. destruct (Rltb sh b); auto.
      cbn [erode_stack exactR ltb zero]. rcase 0 0 Q; [lra|reflexivity]. }
    unfold simulate, evs. cbn [fold_left]. unfold step, overturn_stack.
    cbn [icfg1 costello ev_ice ev_ej ev_overturn ev_bsed_depth ev_bsed_frac]. change (zero exactR) with 0. rewrite !O0, !G0.
    cbn [garden_stack exactR add sub mul store ltb]. rewrite Rplus_0_l. rcase 0 D1 Q; [|lra].
    rewrite Rplus_0_l. rcase D1 (D1 * f) Q'; [nra|]. cbn [ice_of map fst rev app]. f_equal. ring. }
  rewrite Q in O2. exact O2.
Qed.

Lemma th1_pos : 0 < th1.
Proof.
  destruct d_bounds as (A & _). unfold th1. apply thick_law; [cbn; lra| |lra]. split; cbn; lra.
Qed.
Lemma D1_pos : 0 < D1.
Proof.
  unfold D1. destruct d_bounds as (A & B & _). destruct (mr_default_bound d1 ltac:(lra)) as [P _].
  apply Rmult_lt_0_compat; [exact th1_pos|exact P].
Qed.

(** With the same random numbers, B ends with another amount of ice when C, whose ejecta
    reach B either way, is also simulated as a cold trap. *)
Theorem C74_unaffected_with_sedimentation_refuted : exists c u out k1 out' k1',
  let craters := [raw_b; raw_c] in
  let names := ["B"%string] in let names' := ["B"; "C"]%string in
  bsed_on (r_bsed c) = true /\
  (forall l, l = names \/ l = names' -> ice_sane (with_names c l) /\ bsed_sane (with_names c l) /\
     data_sane (with_names c l) craters /\ time_sane (with_names c l) craters) /\
  ppf_support lin_ppf /\ sorts_by_age (@isort_age info) /\ draws u /\
  main (with_names c names) lin_ppf isort_age craters [] u 0%nat = Ok (out, k1) /\
  main (with_names c names') lin_ppf isort_age craters [] u 0%nat = Ok (out', k1') /\
  ~ same_for "B" out out' /\
  exists d, 0 < d /\ In ("B"%string, [d * (1 / 2); 0; 0]) (o_ice out) /\ In ("B"%string, [d * (1 / 3); 0; 0]) (o_ice out').
Proof.
  set (vol := D1 / kap).
  assert (Kp : 0 < kap) by (unfold kap; lra). pose proof D1_pos as Dp.
  assert (V0 : 0 <= vol) by (unfold vol; apply Rlt_le, Rdiv_lt_0_compat; lra).
  assert (V : vol * kap = D1) by (unfold vol; field; lra).
  assert (Dr : draws tape0) by (intros i; unfold tape0; lra).
  destruct d_bounds as ((Da & Da') & Db & Dc & Dd).
  pose proof (mr_default_bound d1 ltac:(lra)) as X1. pose proof (mr_default_bound d2 ltac:(lra)) as X2.
  destruct (mr_spec (183 / 10000) (87 / 100) true d2 ltac:(lra) ltac:(lra) Da) as (_ & _ & _ & X). specialize (X d1 Da').
  fold (mr1 d1) in *. fold (mr1 d2) in *. 
  assert (So : sorts_by_age (@isort_age info)) by apply isort_age_ok.
  assert (Sane : forall l, l = ["B"%string] \/ l = ["B"; "C"]%string -> ice_sane (with_names (rcfg1 vol) l) /\ bsed_sane (with_names (rcfg1 vol) l) /\
     data_sane (with_names (rcfg1 vol) l) [raw_b; raw_c] /\ time_sane (with_names (rcfg1 vol) l) [raw_b; raw_c]).
  { intros l Hl. destruct (rcfg1_data vol l Hl) as [Q1 Q2].
    split; [now apply rcfg1_ice|]. split; [apply rcfg1_bsed|]. split; [exact Q1|exact Q2]. }
  destruct (Sane ["B"%string] (or_introl eq_refl)) as (S1 & S2 & S3 & S4).
  destruct (Sane ["B"; "C"]%string (or_intror eq_refl)) as (S1' & S2' & S3' & S4').
  destruct (C60_total (with_names (rcfg1 vol) ["B"%string]) lin_ppf isort_age [raw_b; raw_c] [] tape0 0%nat S1 S2 S3 S4 lin_support So Dr) as (out & k1 & R & _).
  destruct (C60_total (with_names (rcfg1 vol) ["B"; "C"]%string) lin_ppf isort_age [raw_b; raw_c] [] tape0 0%nat S1' S2' S3' S4' lin_support So Dr) as (out' & k1' & R' & _).
  destruct (melt_at1 0 [] [] [0; 39; mr1 d1] (1 / 2)) as (q0 & q1 & M); auto.
  { intros d []. }
  { split; [repeat constructor; cbn [In]; intuition lra|]. intros y. cbn [In app]. split.
    - intros [<-|[<-|[<-|[]]]]; auto. right. split; [auto|]. exists 0, 39. intuition.
    - intros [H|([->|(d & [] & _)] & _)]; tauto. }
  { count_tac. cbn. lra. }
  destruct (melt_at1 1 [Some d2] [None] [0; 39; mr1 d1; mr1 d2] (2 / 3)) as (q0' & q1' & M'); auto.
  { intros d [[= <-]|[H|[]]]; [lra|discriminate]. }
  { split; [repeat constructor; cbn [In]; intuition lra|]. intros y. cbn [In app]. split.
    - intros [<-|[<-|[<-|[<-|[]]]]]; auto; (right; split; [|exists 0, 39; intuition lra]); [auto|]. right. exists d2. auto.
    - intros [H|([->|(d & [[= <-]|[H|[]]] & ->)] & _)]; try tauto. discriminate. }
  { count_tac. cbn. lra. }
  destruct (run1 vol [] [] [] q0 q1 (1 / 2) out k1) as [K I]; auto; try lra; [repeat constructor; cbn; tauto|exact dists1|].
  destruct (run1 vol ["C"%string] [Some d2] [None] q0' q1' (2 / 3) out' k1') as [K' I']; auto; try lra; [repeat constructor; cbn; intuition discriminate|exact dists2|].
  exists (rcfg1 vol), tape0, out, k1, out', k1'. cbv zeta. split; [reflexivity|]. split; [exact Sane|].
  split; [exact lin_support|]. split; [exact So|]. split; [exact Dr|]. split; [exact R|]. split; [exact R'|]. split.
  - intros (_ & _ & H & _). apply H in I.
    assert (N : NoDup ["B"; "C"]%string) by (repeat constructor; cbn; intuition discriminate).
    apply In_nth_error in I' as [j J]. 
    assert (Q : forall x, In ("B"%string, x) (o_ice out') <-> x = [D1 * (1 - 2 / 3); 0; 0]).
    { destruct j as [|[|j]].
      - apply (in_nth_unique (o_ice out') _ 0 "B"%string _ N K' eq_refl J).
      - apply (f_equal (option_map fst)) in J. rewrite <- nth_error_map, K' in J. discriminate.
      - apply (f_equal (option_map fst)) in J. rewrite <- nth_error_map, K' in J. destruct j; discriminate. }
    apply Q in I. injection I as I. lra.
  - exists D1. split; [exact Dp|]. replace (D1 * (1 / 2)) with (D1 * (1 - 1 / 2)) by lra.
    replace (D1 * (1 / 3)) with (D1 * (1 - 2 / 3)) by lra. auto.
Qed.

(** Two runs to which [C74_unaffected] applies: the same without ballistic sedimentation. *)
Definition rcfg2 : rcfg :=
  mk_rcfg (icfg1 10000000) [] 3000000000 0 1000000000 (1 / 1000000) (1 / 10) (- 1) (- 1)
    (mk_bcfg false (183 / 10000) (87 / 100) true 140 false 420 260 1) melt1
    1 false true [(0, 7 / 10); (457 / 100, 1)] (fun _ => Some 0) (fun x => x).
Example C74_case : exists out k1 out' k1',
  main (with_names rcfg2 ["B"%string]) lin_ppf isort_age [raw_b; raw_c] [] tape0 0%nat = Ok (out, k1) /\
  main (with_names rcfg2 ["B"; "C"]%string) lin_ppf isort_age [raw_b; raw_c] [] tape0 0%nat = Ok (out', k1') /\
  k1 = k1' /\ same_for "B" out out' /\ map fst (o_ice out) = ["B"%string] /\ map fst (o_ice out') = ["B"; "C"]%string.
Proof.
  assert (Dr : draws tape0) by (intros i; unfold tape0; lra).
  assert (So : sorts_by_age (@isort_age info)) by apply isort_age_ok.
  assert (T : forall l, l = ["B"%string] \/ l = ["B"; "C"]%string -> exists out k1,
    main (with_names rcfg2 l) lin_ppf isort_age [raw_b; raw_c] [] tape0 0%nat = Ok (out, k1) /\ o_time out <> []).
  { intros l Hl. destruct (rcfg1_data 10000000 l Hl) as [Q1 Q2]. apply C60_total; auto.
    - destruct (rcfg1_ice 10000000 l ltac:(lra)). constructor; assumption.
    - discriminate.
    - destruct Q1. constructor; assumption.
    - destruct Q2. constructor; assumption.
    - exact lin_support. }
  assert (K : forall l out k1, l = ["B"%string] \/ l = ["B"; "C"]%string -> o_time out <> [] ->
    main (with_names rcfg2 l) lin_ppf isort_age [raw_b; raw_c] [] tape0 0%nat = Ok (out, k1) -> map fst (o_ice out) = l).
  { intros l out k1 Hl Ne H. destruct (rcfg1_data 10000000 l Hl) as [Q1 _].
    destruct (C60_ice_bounded (with_names rcfg2 l) lin_ppf isort_age [raw_b; raw_c] [] tape0 0%nat out k1) as (_ & _ & _ & _ & _ & _ & F & _); auto.
    - destruct (rcfg1_ice 10000000 l ltac:(lra)). constructor; assumption.
    - discriminate.
    - exact lin_support.
    - apply Q1.
    - apply Q1. }
  destruct (T ["B"%string] (or_introl eq_refl)) as (out & k1 & R & Ne).
  destruct (T ["B"; "C"]%string (or_intror eq_refl)) as (out' & k1' & R' & Ne').
  exists out, k1, out', k1'. split; [exact R|]. split; [exact R'|].
  destruct (C74_unaffected rcfg2 ["B"%string] ["B"; "C"]%string lin_ppf isort_age [raw_b; raw_c] [] tape0 0%nat out k1 out' k1' "B") as [A B]; auto.
  - repeat constructor; cbn; tauto.
  - repeat constructor; cbn; intuition discriminate.
  - repeat constructor; cbn; intuition discriminate.
  - left; auto.
  - left; auto.
  - split; [exact A|]. split; [exact B|]. split; eapply K; eauto.
Qed.

Print Assumptions C74_unaffected.
Print Assumptions C74_depths.
Print Assumptions C74_given_melt.
Print Assumptions C74_unaffected_with_sedimentation_refuted.
