(** Ejecta thickness, ballistics, interpolation, crater scaling and mixing ratio:
    properties C19-C21, C25, C30-C32, C52. *)
From Coq Require Import String List ZArith Reals Lia Lra Psatz Bool Sorted.
From Verif Require Import Base Model_Time Model_Geo Model_Interp Model_Crater Proofs_Base Proofs_Geo
  Proofs_Interp Proofs_Crater Proofs_Scaling.
Import ListNotations.
Open Scope R_scope.

(** ** C19: ejecta of simple and complex craters *)

(** Positive; scaling the distance by [m] scales the thickness by [m^exponent];
    decreasing for a negative exponent. *)
Theorem C19_power_law : forall c r d,
  simple2complex c <= complex2peakring c ->
  0 < r < complex2peakring c / 2 -> r <> simple2complex c / 2 -> 0 < d ->
  0 < get_ejecta_thickness c (Some d) r /\
  (forall m, 0 < m -> get_ejecta_thickness c (Some (m * d)) r
                      = Rpower m (ej_exp c) * get_ejecta_thickness c (Some d) r) /\
  (ej_exp c < 0 -> forall d', d < d' ->
     get_ejecta_thickness c (Some d') r < get_ejecta_thickness c (Some d) r).
Proof. intros c r d Hs Hr Hn Hd. apply thick_law; auto. split; auto. Qed.

(** Value at the rim, which with the power law fixes the whole profile. *)
Theorem C19_rim_value : forall c r,
  simple2complex c <= complex2peakring c -> 0 < r < complex2peakring c / 2 ->
  (r < simple2complex c / 2 -> get_ejecta_thickness c (Some r) r = 4 / 100 * r) /\
  (simple2complex c / 2 < r -> get_ejecta_thickness c (Some r) r = 14 / 100 * Rpower r (74 / 100)).
Proof.
  intros c r Hs Hr. split; intros H; rewrite thick_rim; try (split; [lra|lra]); auto.
  - rcase r (simple2complex c / 2) E1'; [reflexivity|lra].
  - rcase r (simple2complex c / 2) E1'; [lra|reflexivity].
Qed.

Theorem C19_nan_distance : forall c r, get_ejecta_thickness c None r = 0.
Proof. exact thick_nan. Qed.

(** The documented law fails at the transition: such a crater throws no ejecta at any
    distance. *)
Theorem C19_transition_refuted : forall c dist,
  simple2complex c < complex2peakring c -> get_ejecta_thickness c dist (simple2complex c / 2) = 0.
Proof. intros c dist H. apply thick_transition; auto. Qed.

(** The matrix has one row per crater and one entry per cold trap. *)
Theorem C19_matrix : forall c rads dists i j r row d,
  nth_error rads i = Some r -> nth_error dists i = Some row -> nth_error row j = Some d ->
  exists out, nth_error (get_ejecta_thickness_matrix c rads dists) i = Some out /\
    length out = length row /\ nth_error out j = Some (get_ejecta_thickness c d r).
Proof.
  intros c rads dists i j r row d Hr Hrow Hd. unfold get_ejecta_thickness_matrix.
  exists (map (fun d0 => get_ejecta_thickness c d0 r) row).
  rewrite nth_error_map, (combine_nth_error _ _ i r row) by auto. split; [reflexivity|].
  rewrite map_length, nth_error_map, Hd. auto.
Qed.

(** A 10 km simple crater at twice its radius, exponent -3: 200/8 = 25 m. *)
Example C19_case : get_ejecta_thickness CFG0 (Some 10000) 5000 = 25.
Proof.
  replace 10000 with (2 * 5000) by lra.
  destruct (C19_power_law CFG0 5000 5000) as (_ & H & _); try (cbn; lra).
  rewrite H by lra. destruct (C19_rim_value CFG0 5000) as [G _]; try (cbn; lra).
  rewrite G by (cbn; lra). cbn [ej_exp CFG0].
  replace (-3) with (- INR 3) by (rewrite INR_IZR_INZ; cbn; lra).
  rewrite Rpower_Ropp, Rpower_pow by lra. lra.
Qed.

(** A hypothetical exponent of zero: the same thickness everywhere. *)
Example C19_case_flat : forall d, 0 < d ->
  get_ejecta_thickness (mk_ccfg 18000 140000 0 1737400 (162 / 100) 45 1300 1500) (Some d) 5000 = 200.
Proof.
  intros d Hd. set (c := mk_ccfg _ _ _ _ _ _ _ _).
  destruct (C19_power_law c 5000 5000) as (_ & H & _); try (cbn; lra).
  replace d with (d / 5000 * 5000) by field. rewrite H by lra.
  destruct (C19_rim_value c 5000) as [G _]; try (cbn; lra). rewrite G by (cbn; lra).
  cbn [ej_exp c]. rewrite Rpower_O by lra. lra.
Qed.

(** ** C20: basins *)
Theorem C20_basin_defined_positive : forall c d tr,
  0 < rad_moon c -> 0 < grav_moon c -> 0 <= impact_angle c <= 90 ->
  0 < tr -> tr <= d -> d + tr / 8 < PI * rad_moon c -> d - tr < PI * 1737400 ->
  exists x, ej_thick_basin c d tr = Some x /\ 0 < x.
Proof. exact ej_basin_pos. Qed.

(** Default configuration, final radius, through the public function. *)
Theorem C20_basin_thickness_positive : forall d r,
  70000 <= r -> r <= d -> d + r / 8 < PI * 1737400 -> 0 < get_ejecta_thickness CFG0 (Some d) r.
Proof.
  intros d r Hr Hd Hm. unfold get_ejecta_thickness.
  assert (E : Rleb (complex2peakring CFG0 / 2) r = true) by (apply Rleb_true; cbn; lra).
  rewrite E. cbn [obind].
  destruct (f2t_range CFG0 (r * 2)) as [F1 F2]; try (cbn; lra).
  destruct (ej_basin_pos CFG0 d (final2transient CFG0 (r * 2) / 2)) as (x & -> & Hx); auto;
    cbn [rad_moon grav_moon impact_angle CFG0]; lra.
Qed.

(** The hypotheses hold for a basin of radius 200 km seen from 1000 km. *)
Example C20_case : 0 < get_ejecta_thickness CFG0 (Some 1000000) 200000.
Proof. apply C20_basin_thickness_positive; try lra. pose proof PI2_3_2. lra. Qed.

(** ** C21: ballistic velocity *)

(** The result is the launch speed whose ballistic range on a sphere is [d]: with
    half range angle [phi = d / 2R], [tan phi (gR - v^2 cos^2) = v^2 sin cos]. *)
Theorem C21_range_equation : forall c d,
  0 < grav_moon c -> 0 < rad_moon c -> 0 < impact_angle c < 90 -> 0 <= d < PI * rad_moon c ->
  let th := impact_angle c * (PI / 180) in
  exists v, ballistic_velocity c d = Some v /\ 0 <= v /\
    tan (d / (2 * rad_moon c)) * (grav_moon c * rad_moon c - v ^ 2 * cos th ^ 2)
    = v ^ 2 * (sin th * cos th).
Proof. intros c d H1 H2 H3 H4. apply velocity_range_equation; auto. Qed.

Theorem C21_bounds : forall c d v,
  0 < grav_moon c -> 0 < rad_moon c -> 0 < impact_angle c < 90 -> 0 < d < PI * rad_moon c ->
  ballistic_velocity c d = Some v ->
  0 < v < sqrt (grav_moon c * rad_moon c) / cos (impact_angle c * (PI / 180)).
Proof. intros c d v H1 H2 H3 H4 H5. apply (velocity_bound c H1 H2 H3 d v H4 H5). Qed.

Theorem C21_increasing : forall c d d' v v',
  0 < grav_moon c -> 0 < rad_moon c -> 0 < impact_angle c < 90 ->
  0 <= d -> d < d' -> d' < PI * rad_moon c ->
  ballistic_velocity c d = Some v -> ballistic_velocity c d' = Some v' -> v < v'.
Proof. intros c d d' v v' H1 H2 H3. apply velocity_increasing; auto. Qed.

(** At 45 degrees the bound is the escape speed. *)
Theorem C21_escape : forall c d v,
  0 < grav_moon c -> 0 < rad_moon c -> impact_angle c = 45 -> 0 < d < PI * rad_moon c ->
  ballistic_velocity c d = Some v -> v < sqrt (2 * grav_moon c * rad_moon c).
Proof.
  intros c d v H1 H2 H3 H4 H5.
  destruct (C21_bounds c d v H1 H2 ltac:(rewrite H3; lra) H4 H5) as [_ H].
  eapply Rlt_le_trans; [exact H|]. right. rewrite H3.
  replace (45 * (PI / 180)) with (PI / 4) by field. rewrite cos_PI4.
  replace (2 * grav_moon c * rad_moon c) with (2 * (grav_moon c * rad_moon c)) by ring.
  rewrite (sqrt_mult 2 (grav_moon c * rad_moon c)) by nra. pose proof (sqrt_lt_R0 2 ltac:(lra)).
  field. lra.
Qed.

(** A quarter of the circumference at 45 degrees: v^2 = g R. *)
Example C21_case : ballistic_velocity CFG0 (PI / 2 * 1737400) = Some (sqrt (162 / 100 * 1737400)).
Proof.
  destruct (C21_range_equation CFG0 (PI / 2 * 1737400)) as (v & Hv & H0 & HE);
    try (cbn; lra).
  { cbn [rad_moon CFG0]. pose proof PI_RGT_0. lra. }
  rewrite Hv. f_equal. cbn [rad_moon grav_moon impact_angle CFG0] in HE.
  replace (PI / 2 * 1737400 / (2 * 1737400)) with (PI / 4) in HE by field.
  rewrite tan_PI4 in HE. replace (45 * (PI / 180)) with (PI / 4) in HE by field.
  assert (Hs : sin (PI / 4) * cos (PI / 4) = 1 / 2).
  { rewrite sin_PI4, cos_PI4. pose proof (sqrt_lt_R0 2 ltac:(lra)).
    pose proof (sqrt_sqrt 2 ltac:(lra)). field_simplify; [|lra].
    replace (sqrt 2 ^ 2) with 2 by (simpl; lra). field. }
  assert (Hc : cos (PI / 4) ^ 2 = 1 / 2) by (rewrite <- Hs, sin_PI4, cos_PI4; ring).
  rewrite Hs, Hc in HE. symmetry. apply sqrt_lem_1; lra.
Qed.

(** ** C25: linear interpolation *)
Theorem C25_knots : forall knots i xk yk, StronglySorted (fun a b => fst a < fst b) knots ->
  nth_error knots i = Some (xk, yk) -> interp knots xk = Ok yk.
Proof. exact interp_at_knot. Qed.

(** Exactly the straight line between neighbouring knots. *)
Theorem C25_linear : forall knots i xa ya xb yb w,
  StronglySorted (fun a b => fst a < fst b) knots ->
  nth_error knots i = Some (xa, ya) -> nth_error knots (S i) = Some (xb, yb) -> 0 <= w <= 1 ->
  interp knots ((1 - w) * xa + w * xb) = Ok ((1 - w) * ya + w * yb).
Proof. exact interp_linear. Qed.

Theorem C25_neighbours : forall knots x y i xa ya xb yb,
  StronglySorted (fun a b => fst a < fst b) knots -> interp knots x = Ok y ->
  nth_error knots i = Some (xa, ya) -> nth_error knots (S i) = Some (xb, yb) ->
  xa <= x <= xb -> Rmin ya yb <= y <= Rmax ya yb.
Proof. exact interp_neighbours. Qed.

Theorem C25_monotone : forall knots x x' y y',
  StronglySorted (fun a b => fst a < fst b) knots ->
  StronglySorted (fun a b => snd a <= snd b) knots ->
  x <= x' -> interp knots x = Ok y -> interp knots x' = Ok y' -> y <= y'.
Proof. exact interp_mono. Qed.

Theorem C25_outside : forall knots x xf yf xl yl,
  StronglySorted (fun a b => fst a < fst b) knots ->
  nth_error knots 0 = Some (xf, yf) -> last knots (0, 0) = (xl, yl) ->
  (x <= xf -> interp knots x = Ok yf) /\ (xl <= x -> interp knots x = Ok yl).
Proof. exact interp_outside. Qed.

Theorem C25_total : forall knots x,
  (knots <> [] -> exists y, interp knots x = Ok y) /\ interp [] x = Err ValueError.
Proof. intros knots x. split; [apply interp_total|reflexivity]. Qed.

Example C25_case_sorted : StronglySorted (fun a b : R * R => fst a < fst b) [(0, 1); (2, 5); (3, 4)].
Proof. repeat (constructor; cbn; try lra). Qed.
Example C25_case : interp [(0, 1); (2, 5); (3, 4)] 1 = Ok 3.
Proof.
  replace 1 with ((1 - 1 / 2) * 0 + 1 / 2 * 2) at 2 by lra.
  rewrite (C25_linear _ 0 0 1 2 5 (1 / 2) C25_case_sorted eq_refl eq_refl) by lra. f_equal. lra.
Qed.

(** ** C30: final to transient diameter *)
Theorem C30_increasing : forall c d d', simple2complex c = 18000 ->
  18000 <= complex2peakring c <= 144000 -> 0 < d -> d < d' ->
  final2transient c d < final2transient c d'.
Proof. intros. now apply f2t_increasing. Qed.

Theorem C30_smaller_than_final : forall c d, 0 < d -> 18000 <= simple2complex c ->
  18700 <= complex2peakring c -> simple2complex c <= complex2peakring c ->
  0 < final2transient c d < d.
Proof. exact f2t_range. Qed.

(** Each diameter follows exactly one law, in logarithms. *)
Theorem C30_laws : forall c d, 0 < d -> simple2complex c <= complex2peakring c ->
  (d <= simple2complex c -> final2transient c d = 4 / 5 * d) /\
  (simple2complex c < d <= complex2peakring c ->
     final2transient c d = 4 / 5 * exp ((ln d + 13 / 100 * ln 18000) / (113 / 100))) /\
  (complex2peakring c < d ->
     final2transient c d = exp ((ln d + 18 / 100 * ln 18700) / (118 / 100))).
Proof.
  intros c d Hd Hs. destruct (f2t_cases c d Hd Hs) as [[A ->]|[[A ->]|[A ->]]];
    repeat split; intros; try lra; [apply fm_exp; lra|apply fc_exp; lra].
Qed.

(** Raising simple2complex, alone, makes the function decrease somewhere: the law
    inside keeps 18 km. *)
Theorem C30_other_transition_refuted : forall c, 18000 < simple2complex c < complex2peakring c ->
  exists d d', 0 < d /\ d < d' /\ final2transient c d' < final2transient c d.
Proof. exact f2t_refuted. Qed.

Example C30_case : final2transient CFG0 10000 = 8000 /\ final2transient CFG0 18000 = 14400
  /\ 14400 < final2transient CFG0 20000 < final2transient CFG0 300000.
Proof.
  destruct (C30_laws CFG0 10000 ltac:(lra) ltac:(cbn; lra)) as [A _].
  destruct (C30_laws CFG0 18000 ltac:(lra) ltac:(cbn; lra)) as [B _].
  assert (B' : final2transient CFG0 18000 = 14400) by (rewrite B by (cbn; lra); lra).
  split; [rewrite A by (cbn; lra); lra|]. split; [exact B'|]. rewrite <- B'.
  split; apply C30_increasing; cbn; lra.
Qed.

(** ** C31: impactor size *)
Theorem C31_errors : forall c ds vs regime, ds <> [] -> vs <> [] ->
  (diam2len c ds vs regime = Err ValueError <-> ~ In regime ["c"; "d"; "e"; "f"]%string).
Proof. exact diam2len_errors. Qed.

(** The length satisfies the Collins et al. (2005) scaling law for the transient
    diameter. *)
Theorem C31_regime_d : forall c ds vs i d v,
  nth_error ds i = Some d -> nth_error vs i = Some v ->
  simple2complex c <= complex2peakring c -> 0 < d -> 0 < v ->
  exists ls l, diam2len c ds vs "d" = Ok ls /\ nth_error ls i = Some l /\ 0 < l /\
    1161 / 1000 * Rpower (impactor_density c / target_density c) (1 / 3) * Rpower l (78 / 100)
      * Rpower v (44 / 100) * Rpower (grav_moon c) (- (22 / 100))
      * Rpower (sin (deg2rad (impact_angle c))) (1 / 3)
    = final2transient c d.
Proof. exact diam2len_d. Qed.

(** The length satisfies the Johnson et al. (2016) scaling law, but for the transient
    diameter. *)
Theorem C31_regime_e_f : forall c ds vs regime i d v,
  regime = "e"%string \/ regime = "f"%string ->
  nth_error ds i = Some d -> nth_error vs i = Some v ->
  simple2complex c <= complex2peakring c -> 0 < d -> 0 < v ->
  exists ls l, diam2len c ds vs regime = Ok ls /\ nth_error ls i = Some l /\ 0 < l /\
    152 / 100 * Rpower (impactor_density c / target_density c) (38 / 100) * Rpower l (88 / 100)
      * Rpower v (1 / 2) * Rpower (grav_moon c) (- (1 / 4)) * Rpower (simple2complex c) (- (13 / 100))
      * Rpower (sin (deg2rad (impact_angle c))) (38 / 100)
    = final2transient c d.
Proof. exact diam2len_ef. Qed.

(** The law is documented (2384-2388) for the final diameter; for every diameter the
    computed impactor is smaller than that law's. *)
Theorem C31_johnson_final_diameter_refuted : forall d v l, 0 < d -> 0 < v ->
  diam2len CFG0 [d] [v] "e" = Ok [l] ->
  l < diam2len_johnson d v (impactor_density CFG0) (target_density CFG0) (grav_moon CFG0)
        (impact_angle CFG0) (simple2complex CFG0).
Proof.
  intros d v l Hd Hv H. injection H as <-. unfold diam2len_johnson.
  destruct (f2t_range CFG0 d Hd) as [F1 F2]; try (cbn; lra).
  apply pow_law_t; auto; [apply johnson_pos|lra].
Qed.

Theorem C31_collins_monotone : forall t v ri rt g theta, 0 < t -> 0 < v ->
  (forall t', t < t' -> diam2len_collins t v ri rt g theta < diam2len_collins t' v ri rt g theta) /\
  (forall v', v < v' -> diam2len_collins t v' ri rt g theta < diam2len_collins t v ri rt g theta).
Proof.
  intros. unfold diam2len_collins. split; intros.
  - apply pow_law_t; auto; [apply collins_pos|lra].
  - apply pow_law_k; auto; [apply collins_pos|now apply collins_v|lra].
Qed.

Theorem C31_johnson_monotone : forall t v ri rt g theta s, 0 < t -> 0 < v ->
  (forall t', t < t' -> diam2len_johnson t v ri rt g theta s < diam2len_johnson t' v ri rt g theta s) /\
  (forall v', v < v' -> diam2len_johnson t v' ri rt g theta s < diam2len_johnson t v ri rt g theta s).
Proof.
  intros. unfold diam2len_johnson. split; intros.
  - apply pow_law_t; auto; [apply johnson_pos|lra].
  - apply pow_law_k; auto; [apply johnson_pos|now apply johnson_v|lra].
Qed.

Example C31_case : exists l, diam2len CFG0 [5000] [20000] "d" = Ok [l] /\ 0 < l
  /\ diam2len CFG0 [5000] [20000] "g" = Err ValueError.
Proof.
  destruct (C31_regime_d CFG0 [5000] [20000] 0 5000 20000 eq_refl eq_refl) as (ls & l & H1 & H2 & H3 & _);
    try (cbn; lra).
  injection H1 as <-. injection H2 as <-. eexists. split; [reflexivity|]. split; [exact H3|].
  apply C31_errors; try discriminate. intros [H|[H|[H|[H|[]]]]]; discriminate.
Qed.

(** ** C32: small craters *)

(** The tabulated crater diameter is a power law of the impactor length. *)
Theorem C32_table_law : forall v ri rt g, 0 < v -> 0 < ri -> 0 < rt -> 0 < g ->
  0 < prieur_diam v ri rt g 1 /\
  forall len, 0 < len -> prieur_diam v ri rt g len = prieur_diam v ri rt g 1 * Rpower len (78 / 100).
Proof. intros. split; [now apply prieur_1_pos|intros; now apply prieur_law]. Qed.

Theorem C32_table_increasing : forall v ri rt g l l', 0 < v -> 0 < ri -> 0 < rt -> 0 < g ->
  0 < l -> l < l' -> prieur_diam v ri rt g l < prieur_diam v ri rt g l'.
Proof. intros. now apply prieur_increasing. Qed.

(** Every length is inside the table and within one table step of the exact
    solution, and a larger crater never gets a smaller impactor. *)
Theorem C32_interpolated : forall v ri rt g lo rest,
  0 < v -> 0 < ri -> 0 < rt -> 0 < g -> 0 < lo -> lo <= last (lo :: rest) lo ->
  let ts := lo :: rest in let hi := last ts lo in
  exists ls, diam2len_prieur ts v ri rt g = Ok ls /\ length ls = length ts /\
    (forall i t l, nth_error ts i = Some t -> nth_error ls i = Some l ->
       lo / 100 <= l <= hi /\
       forall L, lo / 100 <= L <= hi -> t = prieur_diam v ri rt g L ->
         Rabs (l - L) <= (hi - lo / 100) / 999) /\
    (forall i j t t' l l', nth_error ts i = Some t -> nth_error ts j = Some t' ->
       nth_error ls i = Some l -> nth_error ls j = Some l' -> t <= t' -> l <= l').
Proof. exact prieur_spec. Qed.

(** How the tabulated diameter depends on the other parameters, and its value at one
    point: together with the law above this fixes it for all arguments. *)
Theorem C32_scaling : forall v ri rt g l m, 0 < v -> 0 < ri -> 0 < rt -> 0 < g -> 0 < l -> 0 < m ->
  prieur_diam (m * v) ri rt g l = Rpower m (44 / 100) * prieur_diam v ri rt g l /\
  prieur_diam v (m * ri) rt g l = Rpower m (1 / 3) * prieur_diam v ri rt g l /\
  prieur_diam v ri (m * rt) g l = Rpower m (- (1 / 3)) * prieur_diam v ri rt g l /\
  prieur_diam v ri rt (m * g) l = Rpower m (- (22 / 100)) * prieur_diam v ri rt g l.
Proof. exact prieur_scaling. Qed.
Theorem C32_anchor : prieur_diam 1 (6 / PI) 1 (100 / 161) 1 = 16 / 10.
Proof. exact prieur_anchor. Qed.

Example C32_case : exists ls, diam2len_prieur [80; 1200] 20000 1300 1500 (162 / 100) = Ok ls
  /\ length ls = 2%nat.
Proof.
  destruct (C32_interpolated 20000 1300 1500 (162 / 100) 80 [1200]) as (ls & H1 & H2 & _);
    cbn [last]; try lra. eauto.
Qed.

(** ** C52: mixing ratio *)
Theorem C52_mixing_ratio : forall a b petro d, 0 < a -> 0 < b -> 0 < d ->
  let raw := mixing_ratio a b false d in
  0 < mixing_ratio a b petro d <= raw /\
  (raw <= 5 -> mixing_ratio a b petro d = raw) /\
  (5 < raw -> 5 < mixing_ratio a b petro d) /\
  (forall d', d < d' ->
     0 < mixing_ratio a b petro d' - mixing_ratio a b petro d <= mixing_ratio a b false d' - raw).
Proof. exact mr_spec. Qed.

Theorem C52_power_law : forall a b d m, 0 < d -> 0 < m ->
  mixing_ratio a b false (m * d) = Rpower m b * mixing_ratio a b false d /\
  mixing_ratio a b false 1000 = a.
Proof.
  intros a b d m Hd Hm. unfold mixing_ratio.
  replace (m * d / 1000) with (m * (d / 1000)) by field.
  rewrite Rpower_mult_base by lra. replace (1000 / 1000) with 1 by field. rewrite Rpower_1_base.
  split; ring.
Qed.

(** Above 5 the adjustment halves the excess. *)
Theorem C52_petro : forall a b d, 5 < mixing_ratio a b false d ->
  mixing_ratio a b true d - 5 = (mixing_ratio a b false d - 5) / 2.
Proof.
  intros a b d. unfold mixing_ratio. intros H. rcase 5 (a * Rpower (d / 1000) b) E1'; lra.
Qed.

(** Default parameters, any two points of the Moon: inside the melt table (0 to 39). *)
Theorem C52_default_in_table : forall d, 0 < d <= PI * 1737400 ->
  0 < mixing_ratio (183 / 10000) (87 / 100) true d < 39.
Proof. exact mr_default_bound. Qed.

Example C52_case : mixing_ratio 3 1 true 3000 = 7.
Proof.
  unfold mixing_ratio. replace (3000 / 1000) with 3 by field. rewrite Rpower_1 by lra.
  rcase 5 (3 * 3) E1'; lra.
Qed.

Print Assumptions C19_power_law.
Print Assumptions C19_rim_value.
Print Assumptions C19_nan_distance.
Print Assumptions C19_transition_refuted.
Print Assumptions C19_matrix.
Print Assumptions C20_basin_defined_positive.
Print Assumptions C20_basin_thickness_positive.
Print Assumptions C21_range_equation.
Print Assumptions C21_bounds.
Print Assumptions C21_increasing.
Print Assumptions C21_escape.
Print Assumptions C25_knots.
Print Assumptions C25_linear.
Print Assumptions C25_neighbours.
Print Assumptions C25_monotone.
Print Assumptions C25_outside.
Print Assumptions C25_total.
Print Assumptions C30_increasing.
Print Assumptions C30_smaller_than_final.
Print Assumptions C30_laws.
Print Assumptions C30_other_transition_refuted.
Print Assumptions C31_errors.
Print Assumptions C31_regime_d.
Print Assumptions C31_regime_e_f.
Print Assumptions C31_johnson_final_diameter_refuted.
Print Assumptions C31_collins_monotone.
Print Assumptions C31_johnson_monotone.
Print Assumptions C32_table_law.
Print Assumptions C32_table_increasing.
Print Assumptions C32_interpolated.
Print Assumptions C32_scaling.
Print Assumptions C32_anchor.
Print Assumptions C52_mixing_ratio.
Print Assumptions C52_power_law.
Print Assumptions C52_petro.
Print Assumptions C52_default_in_table.
