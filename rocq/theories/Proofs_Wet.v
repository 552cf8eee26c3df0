(** Impact ice is linear in the water content of impactors. *)
From Coq Require Import String List ZArith Reals Lia Lra Bool.
From Verif Require Import Base Arith Model_Column Model_Time Model_Geo Model_Crater Model_Ice Model_Rng Model_Strat
  Model_Melt Model_Main Spec_Column Spec_Time Spec_Ice Spec_Strat Spec_Melt Spec_Main Spec_Mono Spec_Wet Proofs_Base
  Proofs_Ice Proofs_Rng Proofs_Main Proofs_Mono.
Import ListNotations.
Open Scope R_scope.

Definition sc (f : R) (l : list R) : list R := map (Rmult f) l.
Definition rsc (f : R) (r : result (list R)) : result (list R) := let* l := r in Ok (sc f l).
Definition ksc (f : R) (r : result (list R * nat)) : result (list R * nat) := let* (l, k) := r in Ok (sc f l, k).

Lemma thick_sc c f ms : mapM (get_ice_thickness c) (sc f ms) = rsc f (mapM (get_ice_thickness c) ms).
Proof.
  induction ms as [|m ms IH]; [reflexivity|]. unfold sc in *. cbn [map mapM]. rewrite IH. unfold get_ice_thickness at 1 3.
  destruct (if String.eqb (ice_species c) "H2O" then _ else _) as [a|]; [|reflexivity]. cbn [bind].
  unfold rsc. destruct (mapM (get_ice_thickness c) ms) as [ts|]; [|reflexivity]. cbn [bind]. unfold sc. cbn [map]. f_equal. f_equal.
  unfold Rdiv. ring.
Qed.

(** The same settings with all water fractions one. *)
Definition unit_water (c : icfg) : icfg := with_water c 1 1 1 1.
Lemma unit_sane c : sane c -> sane (unit_water c).
Proof. intros []. constructor; cbn; auto; lra. Qed.
Lemma own_water c : with_water c (hydrated_wt_pct c) (impact_mass_retained c) (comet_hydrated_wt_pct c) (comet_mass_retained c) = c.
Proof. destruct c. reflexivity. Qed.

Definition frac (c : icfg) : R :=
  if is_comet c then comet_hydrated_wt_pct c * comet_mass_retained c else hydrated_wt_pct c * impact_mass_retained c.

Lemma micro_sc c hw ret chw cret time :
  get_micrometeorite_ice (with_water c hw ret chw cret) time
  = rsc (frac (with_water c hw ret chw cret)) (get_micrometeorite_ice (unit_water c) time).
Proof.
  unfold get_micrometeorite_ice.
  change (get_ice_thickness (with_water c hw ret chw cret)) with (get_ice_thickness c).
  change (get_ice_thickness (unit_water c)) with (get_ice_thickness c). rewrite <- thick_sc. f_equal. unfold sc.
  rewrite map_map. apply map_ext. intros t. unfold ice_micrometeorites, frac, unit_water.
  cbn [is_comet comets_on with_water mm_mass_rate timestep comet_hydrated_wt_pct comet_mass_retained hydrated_wt_pct impact_mass_retained].
  destruct (is_comet c), (comets_on c); ring.
Qed.

Lemma water_sc c hw ret chw cret m :
  impactor_mass2water (with_water c hw ret chw cret) m
  = frac (with_water c hw ret chw cret) * impactor_mass2water (unit_water c) m.
Proof.
  unfold impactor_mass2water, frac, unit_water.
  cbn [is_comet with_water ctype_frac ctype_hydrated comet_hydrated_wt_pct comet_mass_retained hydrated_wt_pct impact_mass_retained].
  destruct (is_comet c); ring.
Qed.

Lemma small_imp_sc c hw ret chw cret time :
  get_small_impactor_ice (with_water c hw ret chw cret) time
  = rsc (frac (with_water c hw ret chw cret)) (get_small_impactor_ice (unit_water c) time).
Proof.
  unfold get_small_impactor_ice.
  change (get_small_impactor_pop (with_water c hw ret chw cret) time) with (get_small_impactor_pop c time).
  change (get_small_impactor_pop (unit_water c) time) with (get_small_impactor_pop c time).
  destruct (get_small_impactor_pop c time) as [[diams n]|]; [|reflexivity]. cbn [bind].
  change (get_ice_thickness (with_water c hw ret chw cret)) with (get_ice_thickness c).
  change (get_ice_thickness (unit_water c)) with (get_ice_thickness c). rewrite <- thick_sc. f_equal. unfold sc, ice_small_impactors.
  rewrite map_map. apply map_ext. intros row. exact (water_sc c hw ret chw cret _).
Qed.

Lemma small_crater_sc c hw ret chw cret time :
  get_small_simple_crater_ice (with_water c hw ret chw cret) time
  = rsc (frac (with_water c hw ret chw cret)) (get_small_simple_crater_ice (unit_water c) time).
Proof.
  unfold get_small_simple_crater_ice.
  change (get_crater_pop (with_water c hw ret chw cret) time "c") with (get_crater_pop c time "c").
  change (get_crater_pop (unit_water c) time "c") with (get_crater_pop c time "c").
  destruct (get_crater_pop c time "c") as [[[diams nt] prob]|]; [|reflexivity]. cbn [bind].
  unfold ice_small_craters.
  change (diam2len (crat (with_water c hw ret chw cret)) diams [impact_speed_mean (with_water c hw ret chw cret)] "c")
    with (diam2len (crat c) diams [impact_speed_mean c] "c").
  change (diam2len (crat (unit_water c)) diams [impact_speed_mean (unit_water c)] "c")
    with (diam2len (crat c) diams [impact_speed_mean c] "c").
  destruct (diam2len (crat c) diams [impact_speed_mean c] "c") as [lens|]; [|reflexivity]. cbn [bind].
  change (get_ice_thickness (with_water c hw ret chw cret)) with (get_ice_thickness c).
  change (get_ice_thickness (unit_water c)) with (get_ice_thickness c). rewrite <- thick_sc. f_equal. unfold sc.
  rewrite (map_map _ (Rmult _)). apply map_ext. intros row. exact (water_sc c hw ret chw cret _).
Qed.

Lemma large_sc c hw ret chw cret ds vs r :
  ice_large_craters (with_water c hw ret chw cret) ds vs r
  = (let* x := ice_large_craters (unit_water c) ds vs r in Ok (hw * x)).
Proof.
  unfold ice_large_craters.
  change (crat (with_water c hw ret chw cret)) with (crat c). change (crat (unit_water c)) with (crat c).
  destruct (diam2len (crat c) ds vs r) as [lens|]; [|reflexivity]. cbn [bind]. f_equal.
  generalize (combine (map (fun d => diam2vol d * impactor_density (crat c)) lens) vs).
  change (ice_retention_factor (with_water c hw ret chw cret)) with (ice_retention_factor c).
  change (ice_retention_factor (unit_water c)) with (ice_retention_factor c).
  cbn [hydrated_wt_pct with_water unit_water].
  induction l as [|[m v] l IH]; cbn [map Rsum fold_right] in *; [unfold Rsum; cbn; ring|].
  unfold Rsum in *. cbn [fold_right]. rewrite IH. ring.
Qed.

Lemma loop_sc c hw ret chw cret ppf r diams prob : forall counts u k,
  stochastic_loop (with_water c hw ret chw cret) ppf r diams prob counts u k
  = ksc hw (stochastic_loop (unit_water c) ppf r diams prob counts u k).
Proof.
  induction counts as [|n counts IH]; intros u k; [reflexivity|]. cbn [stochastic_loop]. cbv zeta. unfold rbind.
  destruct (choice diams n prob u k) as [[ds k1]|]; [|reflexivity]. cbn [bind].
  change (get_random_hydrated_craters (with_water c hw ret chw cret)) with (get_random_hydrated_craters c).
  change (get_random_hydrated_craters (unit_water c)) with (get_random_hydrated_craters c).
  destruct (get_random_hydrated_craters c (length ds) u k1) as [[hyd k2]|]; [|reflexivity]. cbn [bind].
  change (get_random_impactor_speeds (with_water c hw ret chw cret)) with (get_random_impactor_speeds c).
  change (get_random_impactor_speeds (unit_water c)) with (get_random_impactor_speeds c).
  destruct (get_random_impactor_speeds c ppf (length (mask ds hyd)) u k2) as [[sp k3]|]; [|reflexivity]. cbn [bind].
  rewrite large_sc. unfold lift.
  destruct (ice_large_craters (unit_water c) (mask ds hyd) sp r) as [m|]; [|reflexivity]. cbn [bind].
  rewrite IH. destruct (stochastic_loop (unit_water c) ppf r diams prob counts u k3) as [[rest k4]|]; reflexivity.
Qed.

Lemma stoch_sc c hw ret chw cret ppf time r u k :
  get_stochastic_thickness (with_water c hw ret chw cret) ppf time r u k
  = ksc hw (get_stochastic_thickness (unit_water c) ppf time r u k).
Proof.
  unfold get_stochastic_thickness, get_ice_stochastic, rbind, lift.
  change (get_crater_pop (with_water c hw ret chw cret)) with (get_crater_pop c).
  change (get_crater_pop (unit_water c)) with (get_crater_pop c).
  destruct (get_crater_pop c time r) as [[[diams nt] prob]|]; [|reflexivity]. cbn [bind].
  destruct (probabilistic_round nt u k) as [[counts k1]|]; [|reflexivity]. cbn [bind].
  rewrite loop_sc. destruct (stochastic_loop (unit_water c) ppf r diams prob counts u k1) as [[m k2]|]; [|reflexivity].
  cbn [bind ksc].
  change (get_ice_thickness (with_water c hw ret chw cret)) with (get_ice_thickness c).
  change (get_ice_thickness (unit_water c)) with (get_ice_thickness c). rewrite thick_sc.
  destruct (mapM (get_ice_thickness c) m); reflexivity.
Qed.

Lemma upd_sc f l i x : sc f (upd l i x) = upd (sc f l) i (f * x).
Proof. revert i. induction l as [|y l IH]; intros [|i]; cbn; auto. unfold sc in *. now rewrite IH. Qed.

Lemma ages_sc f tol time ages ms :
  ages2time Rplus 0 tol time (combine ages (sc f ms)) = rsc f (ages2time Rplus 0 tol time (combine ages ms)).
Proof.
  unfold ages2time. destruct (minmax_rtol time tol) as [[lo hi]|]; [|reflexivity]. cbn [bind]. unfold rsc. cbn [bind]. f_equal.
  assert (H0 : repeat 0 (length time) = sc f (repeat 0 (length time))).
  { induction (length time); cbn; auto. unfold sc in *. rewrite <- IHn. f_equal. ring. }
  rewrite H0 at 1. generalize (repeat 0 (length time)). revert ms.
  induction ages as [|a ages IH]; intros [|m ms] acc; try reflexivity. unfold sc in IH |- *. cbn [map combine filter fst].
  destruct (Rleb lo a && Rleb a hi); [|apply IH]. cbn [fold_left]. rewrite <- IH. f_equal.
  unfold place. cbn [fst snd]. rewrite nth_error_map. destruct (nth_error acc (nearest_idx time a)) as [old|]; [|reflexivity].
  cbn [option_map]. rewrite <- Rmult_plus_distr_l. symmetry. apply (upd_sc f).
Qed.

Lemma basin_sc c hw ret chw cret ppf tol df time u k :
  get_basin_ice (with_water c hw ret chw cret) ppf tol df time u k
  = ksc hw (get_basin_ice (unit_water c) ppf tol df time u k).
Proof.
  unfold get_basin_ice, ice_basins, rbind, lift. cbv zeta.
  change (is_comet (with_water c hw ret chw cret)) with (is_comet c). change (is_comet (unit_water c)) with (is_comet c).
  set (bdf := filter _ df).
  change (get_random_impactor_speeds (with_water c hw ret chw cret)) with (get_random_impactor_speeds c).
  change (get_random_impactor_speeds (unit_water c)) with (get_random_impactor_speeds c).
  destruct (get_random_impactor_speeds c ppf (length bdf) u k) as [[vs k1]|]; [|reflexivity]. cbn [bind].
  assert (HM : forall l, mapM (fun '(b, v) => ice_large_craters (with_water c hw ret chw cret) [2 * i_rad b] [v] "f") l
    = rsc hw (mapM (fun '(b, v) => ice_large_craters (unit_water c) [2 * i_rad b] [v] "f") l)).
  { induction l as [|[b v] l IH]; [reflexivity|]. cbn [mapM]. rewrite large_sc, IH.
    destruct (ice_large_craters (unit_water c) [2 * i_rad b] [v] "f") as [x|]; [|reflexivity]. cbn [bind].
    destruct (mapM (fun '(b, v) => ice_large_craters (unit_water c) [2 * i_rad b] [v] "f") l); reflexivity. }
  rewrite HM. destruct (mapM (fun '(b, v) => ice_large_craters (unit_water c) [2 * i_rad b] [v] "f") (combine bdf vs)) as [ms|]; [|reflexivity].
  cbn [bind rsc]. rewrite ages_sc.
  destruct (ages2time Rplus 0 tol time (combine (map i_age bdf) ms)) as [l|]; [|reflexivity]. cbn [bind rsc].
  change (get_ice_thickness (with_water c hw ret chw cret)) with (get_ice_thickness c).
  change (get_ice_thickness (unit_water c)) with (get_ice_thickness c). rewrite thick_sc.
  destruct (mapM (get_ice_thickness c) l); reflexivity.
Qed.

(** ** Wetter impactors *)
Lemma sc_mono f f2 l n : 0 <= f <= f2 -> good n l -> Forall2 (fun x y => 0 <= x <= y) (sc f l) (sc f2 l).
Proof.
  intros H [_ HF]. induction HF as [|x l Hx HF IH]; constructor; auto. cbv beta in *.
  split; [apply Rmult_le_pos; lra|apply Rmult_le_compat_r; lra].
Qed.

Lemma impact_wet c hw ret chw cret hw2 ret2 chw2 cret2 ppf tol df time u k :
  sane c -> ppf_support ppf -> time <> [] -> draws u ->
  0 <= hw <= hw2 -> 0 <= ret <= ret2 -> 0 <= chw <= chw2 -> 0 <= cret <= cret2 ->
  exists a b j, get_impact_ice (with_water c hw ret chw cret) ppf tol df time u k = Ok (a, j) /\
    get_impact_ice (with_water c hw2 ret2 chw2 cret2) ppf tol df time u k = Ok (b, j) /\
    Forall2 (fun x y => 0 <= x <= y) a b.
Proof.
  intros Hc Hp Hn Hu H1 H2 H3 H4. pose proof (unit_sane c Hc) as Hs.
  destruct (micro_ok (unit_water c) time Hs) as (mm & Em & Gm).
  destruct (small_imp_ok (unit_water c) time Hs) as (si & Ei & Gi).
  destruct (small_crater_ok (unit_water c) time Hs) as (ss & Es & Gs).
  destruct (stochastic_ok (unit_water c) ppf time "d" Hs Hp ltac:(simpl; auto) u k Hu) as (l & k1 & El & Gl).
  destruct (stochastic_ok (unit_water c) ppf time "e" Hs Hp ltac:(simpl; auto) u k1 Hu) as (cc & k2 & Ec & Gc).
  destruct (basin_ok (unit_water c) ppf tol df time Hs Hp Hn u k2 Hu) as (bb & k3 & Eb & Gb).
  assert (HE : forall hw ret chw cret, get_impact_ice (with_water c hw ret chw cret) ppf tol df time u k
    = Ok (let f := frac (with_water c hw ret chw cret) in
          let t := vadd (vadd (vadd (vadd (vadd (map (fun _ => 0) time) (sc f mm)) (sc f si)) (sc f ss)) (sc hw l)) (sc hw cc) in
          if basins_on c then vadd t (sc hw bb) else t, k3)).
  { intros. unfold get_impact_ice, rbind, lift. cbv zeta.
    rewrite micro_sc, Em. cbn [bind rsc]. rewrite small_imp_sc, Ei. cbn [bind rsc]. rewrite small_crater_sc, Es. cbn [bind rsc].
    rewrite stoch_sc, El. cbn [bind ksc]. rewrite stoch_sc, Ec. cbn [bind ksc]. rewrite basin_sc, Eb. cbn [bind ksc]. reflexivity. }
  rewrite !HE. eexists _, _, k3. split; [reflexivity|]. split; [reflexivity|]. cbv zeta.
  assert (HF : 0 <= frac (with_water c hw ret chw cret) <= frac (with_water c hw2 ret2 chw2 cret2)).
  { unfold frac. cbn [is_comet with_water comet_hydrated_wt_pct comet_mass_retained hydrated_wt_pct impact_mass_retained].
    destruct (is_comet c); (split; [apply Rmult_le_pos; lra|apply Rmult_le_compat; lra]). }
  pose proof (proj2 (zeros_good time)) as Z.
  destruct (basins_on c); repeat apply vadd_mono; eauto using sc_mono, le_same.
Qed.

Lemma sc_nth f l i z : nth_error (sc f l) i = Some z -> exists x, nth_error l i = Some x /\ z = f * x.
Proof.
  unfold sc. rewrite nth_error_map. destruct (nth_error l i) as [x|]; [|discriminate]. cbn. intros H.
  exists x. split; congruence.
Qed.
Lemma vadd_inv a b i z : nth_error (vadd a b) i = Some z -> exists x y, nth_error a i = Some x /\ nth_error b i = Some y /\ z = x + y.
Proof.
  revert b i. induction a as [|x a IH]; intros [|y b] [|i] H; try discriminate.
  - exists x, y. cbn in *. repeat split; congruence.
  - apply IH in H. exact H.
Qed.

Lemma impact_linear c ppf tol df time u k : sane c -> ppf_support ppf -> draws u -> time <> [] ->
  exists small large j, good (length time) small /\ good (length time) large /\
  forall hw ret chw cret, exists out,
    get_impact_ice (with_water c hw ret chw cret) ppf tol df time u k = Ok (out, j) /\ length out = length time /\
    let f := if is_comet c then chw * cret else hw * ret in
    forall i x y z, nth_error small i = Some x -> nth_error large i = Some y -> nth_error out i = Some z ->
      z = f * x + hw * y.
Proof.
  intros Hc Hp Hu Hn. pose proof (unit_sane c Hc) as Hs.
  destruct (micro_ok (unit_water c) time Hs) as (mm & Em & Gm).
  destruct (small_imp_ok (unit_water c) time Hs) as (si & Ei & Gi).
  destruct (small_crater_ok (unit_water c) time Hs) as (ss & Es & Gs).
  destruct (stochastic_ok (unit_water c) ppf time "d" Hs Hp ltac:(simpl; auto) u k Hu) as (l & k1 & El & Gl).
  destruct (stochastic_ok (unit_water c) ppf time "e" Hs Hp ltac:(simpl; auto) u k1 Hu) as (cc & k2 & Ec & Gc).
  destruct (basin_ok (unit_water c) ppf tol df time Hs Hp Hn u k2 Hu) as (bb & k3 & Eb & Gb).
  pose proof (zeros_good time) as Z.
  exists (vadd (vadd mm si) ss), (if basins_on c then vadd (vadd l cc) bb else vadd l cc), k3.
  split; [auto using vadd_good|]. split; [destruct (basins_on c); auto using vadd_good|].
  intros hw ret chw cret. eexists. split.
  { unfold get_impact_ice, rbind, lift. cbv zeta.
    rewrite micro_sc, Em. cbn [bind rsc]. rewrite small_imp_sc, Ei. cbn [bind rsc]. rewrite small_crater_sc, Es. cbn [bind rsc].
    rewrite stoch_sc, El. cbn [bind ksc]. rewrite stoch_sc, Ec. cbn [bind ksc]. rewrite basin_sc, Eb. cbn [bind ksc]. reflexivity. }
  cbv zeta. change (basins_on (with_water c hw ret chw cret)) with (basins_on c).
  change (frac (with_water c hw ret chw cret)) with (if is_comet c then chw * cret else hw * ret).
  set (f := if is_comet c then chw * cret else hw * ret). clearbody f.
  assert (LS : forall g q, good (length time) q -> length (sc g q) = length time) by (intros g q [Q _]; unfold sc; now rewrite map_length).
  assert (LV : forall a b, length a = length time -> length b = length time -> length (vadd a b) = length time)
    by (intros; rewrite vadd_length; congruence).
  split. { destruct Z as [Z _]. destruct (basins_on c); repeat apply LV; auto. }
  intros i x y z X Y H.
  assert (Z0 : forall t, nth_error (map (fun _ : R => 0) time) i = Some t -> t = 0).
  { intros t. rewrite nth_error_map. destruct (nth_error time i); [|discriminate]. cbn. congruence. }
  apply vadd_inv in X as (x12 & x3 & X & X3 & ->). apply vadd_inv in X as (x1 & x2 & X1 & X2 & ->).
  assert (HT : forall t, nth_error (vadd (vadd (vadd (vadd (vadd (map (fun _ => 0) time) (sc f mm)) (sc f si)) (sc f ss)) (sc hw l)) (sc hw cc)) i = Some t ->
    exists y4 y5, nth_error l i = Some y4 /\ nth_error cc i = Some y5 /\ t = f * (x1 + x2 + x3) + hw * (y4 + y5)).
  { intros t HT.
    apply vadd_inv in HT as (t1 & w5 & HT & W5 & ->). apply vadd_inv in HT as (t2 & w4 & HT & W4 & ->).
    apply vadd_inv in HT as (t3 & w3 & HT & W3 & ->). apply vadd_inv in HT as (t4 & w2 & HT & W2 & ->).
    apply vadd_inv in HT as (t5 & w1 & HT & W1 & ->). apply Z0 in HT. subst t5.
    apply sc_nth in W1 as (? & W1 & ->). apply sc_nth in W2 as (? & W2 & ->). apply sc_nth in W3 as (? & W3 & ->).
    apply sc_nth in W4 as (y4 & W4 & ->). apply sc_nth in W5 as (y5 & W5 & ->).
    rewrite W1 in X1. injection X1 as ->. rewrite W2 in X2. injection X2 as ->. rewrite W3 in X3. injection X3 as ->.
    exists y4, y5. repeat split; auto. ring. }
  destruct (basins_on c).
  - apply vadd_inv in H as (t & w6 & H & W6 & ->). apply sc_nth in W6 as (y6 & W6 & ->).
    apply HT in H as (y4 & y5 & Y4 & Y5 & ->).
    apply vadd_inv in Y as (y45 & y6' & Y & Y6 & ->). apply vadd_inv in Y as (y4' & y5' & Y4' & Y5' & ->).
    rewrite Y4 in Y4'. injection Y4' as <-. rewrite Y5 in Y5'. injection Y5' as <-. rewrite W6 in Y6. injection Y6 as <-. ring.
  - apply HT in H as (y4 & y5 & Y4 & Y5 & ->). apply vadd_inv in Y as (y4' & y5' & Y4' & Y5' & ->).
    rewrite Y4 in Y4'. injection Y4' as <-. rewrite Y5 in Y5'. injection Y5' as <-. reflexivity.
Qed.

Lemma polar_wet c hw ret chw cret ppf tol table df time u k p k1 p2 k2 :
  sane c -> sun_sane c table -> ppf_support ppf -> draws u -> time <> [] ->
  hydrated_wt_pct c <= hw -> impact_mass_retained c <= ret -> comet_hydrated_wt_pct c <= chw -> comet_mass_retained c <= cret ->
  get_polar_ice c ppf tol table df time u k = Ok (p, k1) ->
  get_polar_ice (with_water c hw ret chw cret) ppf tol table df time u k = Ok (p2, k2) ->
  Forall2 (fun x y => 0 <= x <= y) p p2 /\ k2 = k1.
Proof.
  intros Hs Hsun Hp Hu Hn H1 H2 H3 H4 E F. pose proof Hs as []. unfold get_polar_ice in E, F. cbv zeta in E, F.
  apply rbind_ok in E as (imp & j1 & A1 & E). apply rbind_ok in E as (com & j2 & A2 & E).
  apply rbind_ok in E as (sw & j3 & A3 & E). apply lift_ok in A3 as [A3 ->]. apply ret_ok in E as [-> ->].
  apply rbind_ok in F as (imp' & j1' & B1 & F). apply rbind_ok in F as (com' & j2' & B2 & F).
  apply rbind_ok in F as (sw' & j3' & B3 & F). apply lift_ok in B3 as [B3 ->]. apply ret_ok in F as [-> ->].
  change (get_solar_wind_ice (with_water c hw ret chw cret) table time) with (get_solar_wind_ice c table time) in B3.
  assert (sw' = sw) by congruence. subst sw'. clear B3.
  destruct (impact_wet c (hydrated_wt_pct c) (impact_mass_retained c) (comet_hydrated_wt_pct c) (comet_mass_retained c)
    hw ret chw cret ppf tol df time u k Hs Hp Hn Hu) as (x & y & j & X & Y & L); try lra.
  rewrite own_water in X. assert (x = imp /\ j = j1) as [-> ->] by (split; congruence).
  assert (y = imp' /\ j1' = j1) as [-> ->] by (split; congruence).
  destruct (impact_wet (get_comet_cfg c) (comet_hydrated_wt_pct c) (comet_mass_retained c) (comet_hydrated_wt_pct c) (comet_mass_retained c)
    chw cret chw cret ppf tol df time u j1 (sane_comet _ Hs) Hp Hn Hu) as (x & z & j & X2 & Y2 & L2); try lra.
  change (with_water (get_comet_cfg c) (comet_hydrated_wt_pct c) (comet_mass_retained c) (comet_hydrated_wt_pct c) (comet_mass_retained c))
    with (get_comet_cfg (with_water c (hydrated_wt_pct c) (impact_mass_retained c) (comet_hydrated_wt_pct c) (comet_mass_retained c))) in X2.
  rewrite own_water in X2. assert (x = com /\ j = j2) as [-> ->] by (split; congruence).
  change (with_water (get_comet_cfg c) chw cret chw cret) with (get_comet_cfg (with_water c hw ret chw cret)) in Y2.
  assert (z = com' /\ j2' = j2) as [-> ->] by (split; congruence). split; auto.
  change (comets_on (with_water c hw ret chw cret)) with (comets_on c).
  destruct (solar_ok c table time Hs Hsun) as (s & Es & _ & Gs). assert (s = sw) by congruence. subst s.
  destruct (comets_on c); repeat apply vadd_mono; auto using le_same.
Qed.

Lemma main_wet c hw ret chw cret ppf sort craters basins u k out k1 out2 k2 :
  let i2 := with_water (r_i c) hw ret chw cret in
  ice_sane c -> bsed_sane c -> ppf_support ppf -> sorts_by_age sort -> draws u ->
  NoDup (r_names c) -> NoDup (map w_name (craters ++ basins)) -> keeps_order (r_rnd c) ->
  hydrated_wt_pct (r_i c) <= hw -> impact_mass_retained (r_i c) <= ret ->
  comet_hydrated_wt_pct (r_i c) <= chw -> comet_mass_retained (r_i c) <= cret ->
  main c ppf sort craters basins u k = Ok (out, k1) ->
  main (with_settings c i2 (r_bsed c) (r_bhop c)) ppf sort craters basins u k = Ok (out2, k2) ->
  o_time out <> [] ->
  no_less_ice out out2 /\ k2 = k1.
Proof.
  intros i2 Hi Hb Hp Hs Hu N Nr Hk H1 H2 H3 H4 H K Ne.
  apply (main_mono_gen c i2 (r_bsed c) (r_bhop c) ppf sort craters basins u k out k1 out2 k2); auto; destruct Hi as [Si Su Sv Sh].
  - intros df time j ice l ice2 l2 Nt A B.
    apply (ice_mono_gen (r_i c) i2 ppf (r_tol c) (r_lum c) (r_bhop c) (r_bhop c) (r_names c) df time u j ice l ice2 l2); auto.
    + intros. eapply polar_wet; eauto.
    + intros v v2 V V2. destruct (volc_ok (r_i c) time Si Sv) as (w & W & _ & G).
      change (get_volcanic_ice i2 time) with (get_volcanic_ice (r_i c) time) in V2.
      assert (w = v) by congruence. subst w. assert (v2 = v) by congruence. subst v2. now apply le_same.
    + intros M n Hin. destruct (Sh M n Hin) as (h & P & ?). exists h, h. repeat split; auto. lra.
  - intros time. change (overturn_depth_time i2 time) with (overturn_depth_time (r_i c) time).
    induction (overturn_depth_time (r_i c) time); constructor; auto. lra.
Qed.
