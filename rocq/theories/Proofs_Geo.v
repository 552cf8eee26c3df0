From Coq Require Import String List ZArith Reals Lia Lra Psatz Bool Permutation Sorted.
From Verif Require Import Base Model_Geo Spec_Geo Proofs_Base.
Import ListNotations.
Open Scope R_scope.

(** * Trigonometry *)
Lemma sin2_cos2 x : sin x * sin x + cos x * cos x = 1.
Proof. generalize (sin2_cos2 x). unfold Rsqr. lra. Qed.

Lemma sin_half_sq x : sin (x / 2) ^ 2 = (1 - cos x) / 2.
Proof.
  replace x with (2 * (x / 2)) at 2 by field. rewrite cos_2a_sin. field.
Qed.

(** [atan2] inverts polar coordinates. *)
Lemma atan2_polar r t : 0 < r -> - PI < t <= PI -> atan2 (r * sin t) (r * cos t) = t.
Proof.
  intros Hr Ht. pose proof PI_RGT_0 as HPI. unfold atan2.
  destruct (Rlt_le_dec t (- (PI / 2))) as [A|A].
  { (* third quadrant *)
    assert (Hc : cos t < 0).
    { rewrite <- cos_neg. apply cos_lt_0; lra. }
    assert (Hs : sin t < 0).
    { assert (0 < sin (- t)) by (apply sin_gt_0; lra). rewrite sin_neg in H. lra. }
    rcase 0 (r * cos t) E1'; [nra|]. rcase (r * cos t) 0 E2'; [|nra].
    destruct (Rleb 0 (r * sin t)) eqn:E3; [apply Rleb_true in E3; nra|].
    replace (r * sin t / (r * cos t)) with (tan (t + PI)).
    2:{ unfold tan. rewrite neg_sin, neg_cos. field. split; lra. }
    rewrite atan_tan by lra. lra. }
  destruct (Rle_lt_dec t (PI / 2)) as [B|B].
  - destruct (Req_dec t (PI / 2)) as [->|B'].
    { rewrite cos_PI2, sin_PI2.
      rcase 0 (r * 0) E1'; [lra|]. rcase (r * 0) 0 E2'; [lra|].
      rcase 0 (r * 1) E3'; lra. }
    destruct (Req_dec t (- (PI / 2))) as [->|A'].
    { rewrite sin_neg, cos_neg, cos_PI2, sin_PI2.
      rcase 0 (r * 0) E1'; [lra|]. rcase (r * 0) 0 E2'; [lra|].
      rcase 0 (r * - (1)) E3'; [lra|]. rcase (r * - (1)) 0 E4'; lra. }
    assert (Hc : 0 < cos t) by (apply cos_gt_0; lra).
    rcase 0 (r * cos t) E1'; [|nra].
    replace (r * sin t / (r * cos t)) with (tan t) by (unfold tan; field; split; lra).
    apply atan_tan; lra.
  - assert (Hc : cos t < 0) by (apply cos_lt_0; lra).
    assert (Hs : 0 <= sin t) by (apply sin_ge_0; lra).
    rcase 0 (r * cos t) E1'; [nra|]. rcase (r * cos t) 0 E2'; [|nra].
    destruct (Rleb 0 (r * sin t)) eqn:E3; [|apply Rleb_false in E3; nra].
    replace (r * sin t / (r * cos t)) with (tan (t - PI)).
    2:{ unfold tan. replace (t - PI) with (- (PI - t)) by ring.
        rewrite sin_neg, cos_neg, sin_minus, cos_minus, sin_PI, cos_PI. field. split; lra. }
    rewrite atan_tan by lra. lra.
Qed.

(** Every point of the plane has polar coordinates. *)
Lemma polar_exists x y : exists t, - PI < t <= PI /\
  x = sqrt (x ^ 2 + y ^ 2) * sin t /\ y = sqrt (x ^ 2 + y ^ 2) * cos t.
Proof.
  pose proof PI_RGT_0 as HPI. set (r := sqrt (x ^ 2 + y ^ 2)).
  assert (Hr2 : r * r = x ^ 2 + y ^ 2) by (apply sqrt_sqrt; nra).
  assert (Hr0 : 0 <= r) by apply sqrt_pos.
  destruct (Req_dec r 0) as [E|E].
  { exists 0. assert (x ^ 2 + y ^ 2 = 0) by nra. assert (x = 0) by nra. assert (y = 0) by nra.
    subst. rewrite E. split; [lra|]. split; ring. }
  assert (Hr : 0 < r) by lra.
  assert (Hb : -1 <= y / r <= 1).
  { split; apply Rmult_le_reg_r with r; auto;
      replace (y / r * r) with y by (field; lra); nra. }
  pose proof (acos_bound (y / r)) as Hab.
  pose proof (cos_acos _ Hb) as Hc. set (t := acos (y / r)) in *.
  pose proof (sin2_cos2 t) as H1. rewrite Hc in H1.
  assert (Hs0 : 0 <= sin t) by (apply sin_ge_0; lra).
  assert (Hs : sin t * r = Rabs x).
  { assert (sin t * r * (sin t * r) = x * x).
    { replace (sin t * r * (sin t * r)) with (sin t * sin t * (r * r)) by ring.
      replace (sin t * sin t) with (1 - y / r * (y / r)) by lra.
      replace ((1 - y / r * (y / r)) * (r * r)) with (r * r - y * y) by (field; lra). rewrite Hr2. ring. }
    assert (0 <= sin t * r) by nra.
    rewrite <- (Rabs_right (sin t * r)) by lra. apply Rsqr_eq_abs_0. exact H. }
  destruct (Rle_lt_dec 0 x) as [Hx|Hx].
  - exists t. rewrite Rabs_right in Hs by lra.
    split; [lra|]. split; [lra|]. rewrite Hc. field. lra.
  - exists (- t). rewrite Rabs_left in Hs by lra. rewrite sin_neg, cos_neg.
    assert (t <> PI). { intros C. rewrite C, sin_PI in Hs. lra. }
    split; [lra|]. split; [lra|]. rewrite Hc. field. lra.
Qed.

Lemma atan2_unit a : 0 <= a <= 1 ->
  let c := 2 * atan2 (sqrt a) (sqrt (1 - a)) in 0 <= c <= PI /\ cos c = 1 - 2 * a.
Proof.
  intros Ha c. pose proof PI_RGT_0 as HPI.
  destruct (polar_exists (sqrt a) (sqrt (1 - a))) as (t & Ht & H1 & H2).
  assert (R1 : sqrt (sqrt a ^ 2 + sqrt (1 - a) ^ 2) = 1).
  { rewrite <- !Rsqr_pow2. rewrite !Rsqr_sqrt by lra. replace (a + (1 - a)) with 1 by ring. apply sqrt_1. }
  rewrite R1 in H1, H2. rewrite Rmult_1_l in H1, H2.
  assert (Hc : c = 2 * t).
  { unfold c. rewrite H1, H2. f_equal.
    pose proof (atan2_polar 1 t ltac:(lra) Ht) as G. rewrite !Rmult_1_l in G. exact G. }
  rewrite Hc.
  assert (S0 : 0 <= sin t) by (rewrite <- H1; apply sqrt_pos).
  assert (C0 : 0 <= cos t) by (rewrite <- H2; apply sqrt_pos).
  assert (0 <= t <= PI / 2).
  { destruct (Rlt_le_dec t 0) as [N|N].
    { exfalso. assert (0 < sin (- t)) by (apply sin_gt_0; lra). rewrite sin_neg in H. lra. }
    split; auto. destruct (Rle_lt_dec t (PI / 2)) as [P|P]; auto.
    exfalso. assert (cos t < 0) by (apply cos_lt_0; lra). lra. }
  split; [lra|]. rewrite cos_2a_sin. rewrite <- H1.
  replace (2 * sqrt a * sqrt a) with (2 * (sqrt a * sqrt a)) by ring. rewrite sqrt_sqrt by lra. ring.
Qed.

(** * Great-circle distance *)
Lemma deg2rad_eq x : x * PI / 180 = deg2rad x.
Proof. unfold deg2rad. field. Qed.

Lemma pos_unit lon lat : dot (pos lon lat) (pos lon lat) = 1.
Proof.
  unfold dot, pos. rewrite !deg2rad_eq. set (p := deg2rad lat). set (l := deg2rad lon).
  pose proof (sin2_cos2 p). pose proof (sin2_cos2 l).
  replace (cos p * cos l * (cos p * cos l) + cos p * sin l * (cos p * sin l) + sin p * sin p)
    with (cos p * cos p * (sin l * sin l + cos l * cos l) + sin p * sin p) by ring.
  rewrite H0. lra.
Qed.

Lemma haversine_dot lon1 lat1 lon2 lat2 :
  haversine lon1 lat1 lon2 lat2 = (1 - dot (pos lon1 lat1) (pos lon2 lat2)) / 2.
Proof.
  unfold haversine, dot, pos. rewrite !deg2rad_eq, !sin_half_sq, !cos_minus. field.
Qed.

Lemma dot_sym u v : dot u v = dot v u.
Proof. destruct u as [[a b] c], v as [[x y] z]. unfold dot. ring. Qed.

Lemma cauchy3 a b c x y z :
  (a * x + b * y + c * z) ^ 2 <= (a * a + b * b + c * c) * (x * x + y * y + z * z).
Proof.
  assert (H : (a * a + b * b + c * c) * (x * x + y * y + z * z) - (a * x + b * y + c * z) ^ 2
    = (a * y - b * x) ^ 2 + (a * z - c * x) ^ 2 + (b * z - c * y) ^ 2) by ring.
  assert (0 <= (a * y - b * x) ^ 2) by apply pow2_ge_0.
  assert (0 <= (a * z - c * x) ^ 2) by apply pow2_ge_0.
  assert (0 <= (b * z - c * y) ^ 2) by apply pow2_ge_0. lra.
Qed.

Lemma dot_bound u v : dot u u = 1 -> dot v v = 1 -> -1 <= dot u v <= 1.
Proof.
  destruct u as [[a b] c], v as [[x y] z]. unfold dot. intros Hu Hv.
  pose proof (cauchy3 a b c x y z) as H. rewrite Hu, Hv in H. nra.
Qed.

Lemma haversine_range lon1 lat1 lon2 lat2 : 0 <= haversine lon1 lat1 lon2 lat2 <= 1.
Proof.
  rewrite haversine_dot.
  pose proof (dot_bound _ _ (pos_unit lon1 lat1) (pos_unit lon2 lat2)). lra.
Qed.

Lemma gc_dist_angle rp lon1 lat1 lon2 lat2 :
  exists c, gc_dist rp lon1 lat1 lon2 lat2 = rp * c /\ 0 <= c <= PI /\
    cos c = dot (pos lon1 lat1) (pos lon2 lat2).
Proof.
  unfold gc_dist. eexists; split; [reflexivity|].
  destruct (atan2_unit _ (haversine_range lon1 lat1 lon2 lat2)) as [H1 H2].
  split; auto. rewrite H2, haversine_dot. field.
Qed.

Lemma cos_inj a b : 0 <= a <= PI -> 0 <= b <= PI -> cos a = cos b -> a = b.
Proof.
  intros Ha Hb H. destruct (Rtotal_order a b) as [C|[C|C]]; auto.
  - apply cos_decreasing_1 in C; lra.
  - apply cos_decreasing_1 in C; lra.
Qed.

Lemma cos_le_rev a b : 0 <= a <= PI -> 0 <= b <= PI -> cos b <= cos a -> a <= b.
Proof.
  intros Ha Hb H. destruct (Rle_lt_dec a b) as [C|C]; auto.
  apply cos_decreasing_1 in C; lra.
Qed.

Lemma gc_dist_sym rp lon1 lat1 lon2 lat2 :
  gc_dist rp lon1 lat1 lon2 lat2 = gc_dist rp lon2 lat2 lon1 lat1.
Proof. unfold gc_dist. rewrite !haversine_dot, dot_sym. reflexivity. Qed.

Lemma gc_dist_range rp lon1 lat1 lon2 lat2 : 0 <= rp ->
  0 <= gc_dist rp lon1 lat1 lon2 lat2 <= PI * rp.
Proof.
  intros H. destruct (gc_dist_angle rp lon1 lat1 lon2 lat2) as (c & -> & Hc & _). nra.
Qed.

Lemma gc_dist_cos rp lon1 lat1 lon2 lat2 : 0 < rp ->
  cos (gc_dist rp lon1 lat1 lon2 lat2 / rp) = dot (pos lon1 lat1) (pos lon2 lat2).
Proof.
  intros H. destruct (gc_dist_angle rp lon1 lat1 lon2 lat2) as (c & -> & _ & Hc).
  rewrite <- Hc. f_equal. field. lra.
Qed.

Lemma dot_one_eq u v : dot u u = 1 -> dot v v = 1 -> dot u v = 1 -> u = v.
Proof.
  destruct u as [[a b] c], v as [[x y] z]. unfold dot. intros Hu Hv H.
  assert ((a - x) ^ 2 + (b - y) ^ 2 + (c - z) ^ 2 = 0) by nra.
  assert (0 <= (a - x) ^ 2) by apply pow2_ge_0. assert (0 <= (b - y) ^ 2) by apply pow2_ge_0.
  assert (0 <= (c - z) ^ 2) by apply pow2_ge_0.
  assert (a = x) by nra. assert (b = y) by nra. assert (c = z) by nra. now subst.
Qed.

Lemma gc_dist_zero rp lon1 lat1 lon2 lat2 : 0 < rp ->
  (gc_dist rp lon1 lat1 lon2 lat2 = 0 <-> pos lon1 lat1 = pos lon2 lat2).
Proof.
  intros H. destruct (gc_dist_angle rp lon1 lat1 lon2 lat2) as (c & -> & Hc & Hd).
  split.
  - intros E. assert (c = 0) by nra. subst. rewrite cos_0 in Hd.
    apply dot_one_eq; auto using pos_unit.
  - intros E. rewrite E, pos_unit in Hd.
    assert (c = 0) by (apply cos_inj; try lra; rewrite cos_0; lra). subst. ring.
Qed.

(** Spherical triangle inequality for unit vectors. *)
Lemma sphere_triangle u v w a b c :
  dot u u = 1 -> dot v v = 1 -> dot w w = 1 ->
  0 <= a <= PI -> 0 <= b <= PI -> 0 <= c <= PI ->
  cos a = dot u v -> cos b = dot v w -> cos c = dot u w -> c <= a + b.
Proof.
  intros Hu Hv Hw Ha Hb Hc Ea Eb Ec.
  destruct (Rle_lt_dec PI (a + b)) as [G|G]; [lra|].
  apply cos_le_rev; try lra.
  rewrite cos_plus, Ec.
  assert (Sa : 0 <= sin a) by (apply sin_ge_0; lra).
  assert (Sb : 0 <= sin b) by (apply sin_ge_0; lra).
  pose proof (sin2_cos2 a) as Qa. pose proof (sin2_cos2 b) as Qb.
  rewrite Ea, Eb in *. destruct u as [[u1 u2] u3], v as [[v1 v2] v3], w as [[w1 w2] w3].
  unfold dot in *.
  set (p := u1 * v1 + u2 * v2 + u3 * v3) in *. set (q := v1 * w1 + v2 * w2 + v3 * w3) in *.
  pose proof (cauchy3 (u1 - p * v1) (u2 - p * v2) (u3 - p * v3)
                      (w1 - q * v1) (w2 - q * v2) (w3 - q * v3)) as CS.
  replace ((u1 - p * v1) * (u1 - p * v1) + (u2 - p * v2) * (u2 - p * v2) + (u3 - p * v3) * (u3 - p * v3))
    with ((u1 * u1 + u2 * u2 + u3 * u3) - 2 * p * p + p * p * (v1 * v1 + v2 * v2 + v3 * v3)) in CS
    by (unfold p; ring).
  replace ((w1 - q * v1) * (w1 - q * v1) + (w2 - q * v2) * (w2 - q * v2) + (w3 - q * v3) * (w3 - q * v3))
    with ((w1 * w1 + w2 * w2 + w3 * w3) - 2 * q * q + q * q * (v1 * v1 + v2 * v2 + v3 * v3)) in CS
    by (unfold q; ring).
  replace ((u1 - p * v1) * (w1 - q * v1) + (u2 - p * v2) * (w2 - q * v2) + (u3 - p * v3) * (w3 - q * v3))
    with ((u1 * w1 + u2 * w2 + u3 * w3) - 2 * p * q + p * q * (v1 * v1 + v2 * v2 + v3 * v3)) in CS
    by (unfold p, q; ring).
  rewrite Hu, Hv, Hw in CS.
  set (k := u1 * w1 + u2 * w2 + u3 * w3) in *.
  assert (CS' : (k - p * q) ^ 2 <= (sin a * sin b) ^ 2).
  { replace ((sin a * sin b) ^ 2) with ((sin a * sin a) * (sin b * sin b)) by ring.
    replace (sin a * sin a) with (1 - p * p) by lra. replace (sin b * sin b) with (1 - q * q) by lra.
    eapply Rle_trans; [|eapply Rle_trans; [exact CS|]]; right; ring. }
  assert (0 <= sin a * sin b) by nra.
  assert (- (sin a * sin b) <= k - p * q); [|lra].
  destruct (Rle_lt_dec (- (sin a * sin b)) (k - p * q)); auto. nra.
Qed.

Lemma gc_dist_triangle rp lon1 lat1 lon2 lat2 lon3 lat3 : 0 <= rp ->
  gc_dist rp lon1 lat1 lon3 lat3
  <= gc_dist rp lon1 lat1 lon2 lat2 + gc_dist rp lon2 lat2 lon3 lat3.
Proof.
  intros H.
  destruct (gc_dist_angle rp lon1 lat1 lon3 lat3) as (c & -> & Hc & Ec).
  destruct (gc_dist_angle rp lon1 lat1 lon2 lat2) as (a & -> & Ha & Ea).
  destruct (gc_dist_angle rp lon2 lat2 lon3 lat3) as (b & -> & Hb & Eb).
  assert (c <= a + b) by (eapply sphere_triangle; [apply pos_unit..| | | | | |]; eassumption).
  nra.
Qed.

(** The distance is fixed by its range and the angle between the positions. *)
Lemma gc_dist_unique rp lon1 lat1 lon2 lat2 d : 0 < rp -> 0 <= d <= PI * rp ->
  cos (d / rp) = dot (pos lon1 lat1) (pos lon2 lat2) -> d = gc_dist rp lon1 lat1 lon2 lat2.
Proof.
  intros Hr Hd Hc. destruct (gc_dist_angle rp lon1 lat1 lon2 lat2) as (c & -> & Hcr & Ec).
  assert (d / rp = c).
  { apply cos_inj; auto; [|congruence]. split.
    - apply Rmult_le_pos; [lra|]. left. now apply Rinv_0_lt_compat.
    - apply Rmult_le_reg_r with rp; auto. replace (d / rp * rp) with d by (field; lra). lra. }
  subst c. field. lra.
Qed.

(** * Cold trap distances *)
Lemma coldtrap_dist_spec ej_thr basin_thr sites s cname dst d :
  filter (fun r => String.eqb (s_name r) cname) sites = [dst] ->
  0 <= s_rad s ->
  (coldtrap_dist ej_thr basin_thr sites s cname = Ok (Some d) <->
   s_name s <> cname /\ d = gc_dist default_rp (s_lon s) (s_lat s) (s_plon dst) (s_plat dst) /\
   s_rad s < d /\
   let thr := if s_basin s then basin_thr else ej_thr in (thr < 0 \/ d < thr * s_rad s)) /\
  (coldtrap_dist ej_thr basin_thr sites s cname <> Ok (Some d) ->
   d = gc_dist default_rp (s_lon s) (s_lat s) (s_plon dst) (s_plat dst) ->
   coldtrap_dist ej_thr basin_thr sites s cname = Ok None).
Proof.
  intros HF Hr. unfold coldtrap_dist. rewrite HF.
  destruct (String.eqb_spec (s_name s) cname) as [E|E].
  { split; [split; [discriminate|intros [C _]; contradiction]|reflexivity]. }
  set (g := gc_dist _ _ _ _ _). unfold below_limit, ej_limit.
  set (thr := if s_basin s then basin_thr else ej_thr).
  rcase (s_rad s) g E1'; cbn [andb].
  2:{ split; [split; [discriminate|intros (_ & -> & C & _); lra]|reflexivity]. }
  assert (NL : Rleb g 0 = false) by (apply Rleb_false; lra). rewrite NL.
  rcase thr 0 E2'.
  - split; [split|]; intros.
    + injection H as <-. auto.
    + destruct H as (_ & -> & _). reflexivity.
    + subst d. now elim H.
  - rcase g (thr * s_rad s) E3'.
    + split; [split|]; intros.
      * injection H as <-. auto.
      * destruct H as (_ & -> & _). reflexivity.
      * subst d. now elim H.
    + split; [split; [discriminate|]|reflexivity].
      intros (_ & -> & _ & [C|C]); lra.
Qed.

Lemma mapM_nth {A B} (f : A -> result B) l l' : mapM f l = Ok l' ->
  length l' = length l /\
  forall i a, nth_error l i = Some a -> exists b, nth_error l' i = Some b /\ f a = Ok b.
Proof.
  revert l'. induction l as [|x l IH]; intros l' H; cbn [mapM] in H.
  - injection H as <-. split; auto. intros [|i] a Ha; discriminate.
  - destruct (f x) as [b|] eqn:E; [|discriminate]. cbn [bind] in H.
    destruct (mapM f l) as [bs|]; [|discriminate]. cbn [bind] in H. injection H as <-.
    destruct (IH bs eq_refl) as [H1 H2]. split; [cbn [length]; congruence|].
    intros [|i] a Ha; cbn [nth_error] in *; [injection Ha as <-; eauto|eauto].
Qed.

Lemma mapM_total {A B} (f : A -> result B) l :
  (forall a, In a l -> exists b, f a = Ok b) -> exists l', mapM f l = Ok l'.
Proof.
  induction l as [|x l IH]; intros H; [eexists; reflexivity|]. cbn [mapM].
  destruct (H x (or_introl eq_refl)) as [b ->].
  destruct IH as [bs ->]; [intros a Ha; apply H; now right|]. cbn [bind]. eauto.
Qed.

Lemma filter_name_nodup sites dst : NoDup (map s_name sites) -> In dst sites ->
  filter (fun r => String.eqb (s_name r) (s_name dst)) sites = [dst].
Proof.
  induction sites as [|s sites IH]; intros ND HI; [destruct HI|].
  cbn [map] in ND. inversion ND as [|? ? HN ND']; subst. cbn [filter].
  destruct HI as [->|HI].
  - rewrite String.eqb_refl. f_equal.
    assert (G : forall l, ~ In (s_name dst) (map s_name l) ->
      filter (fun r => String.eqb (s_name r) (s_name dst)) l = []).
    { induction l as [|a l IHl]; intros Hn; auto. cbn [filter map] in *.
      destruct (String.eqb_spec (s_name a) (s_name dst)) as [C|C].
      - elim Hn. left. auto.
      - apply IHl. intros D. apply Hn. now right. }
    auto.
  - destruct (String.eqb_spec (s_name s) (s_name dst)) as [C|C].
    + elim HN. rewrite C. now apply in_map.
    + auto.
Qed.

Lemma coldtrap_dists_spec ej_thr basin_thr names sites :
  NoDup (map s_name sites) -> Forall (fun s => 0 <= s_rad s) sites ->
  (forall c, In c names -> exists dst, In dst sites /\ s_name dst = c) ->
  exists m, get_coldtrap_dists ej_thr basin_thr names sites = Ok m /\
    length m = length sites /\
    forall i j s dst, nth_error sites i = Some s -> In dst sites ->
      nth_error names j = Some (s_name dst) ->
      let d := gc_dist default_rp (s_lon s) (s_lat s) (s_plon dst) (s_plat dst) in
      let thr := if s_basin s then basin_thr else ej_thr in
      exists row, nth_error m i = Some row /\ length row = length names /\
        (nth_error row j = Some (Some d) \/ nth_error row j = Some None) /\
        (nth_error row j = Some (Some d) <->
           s_name s <> s_name dst /\ s_rad s < d /\ (thr < 0 \/ d < thr * s_rad s)).
Proof.
  intros ND HR HC.
  assert (T : exists m, get_coldtrap_dists ej_thr basin_thr names sites = Ok m).
  { apply mapM_total. intros s Hs. apply mapM_total. intros c Hc.
    destruct (HC c Hc) as (dst & Hd & <-). unfold coldtrap_dist.
    rewrite (filter_name_nodup _ _ ND Hd).
    destruct (String.eqb _ _); eauto. destruct (_ && _); eauto. destruct (Rleb _ _); eauto. }
  destruct T as [m Hm]. exists m. split; auto.
  destruct (mapM_nth _ _ _ Hm) as [L N]. split; auto.
  intros i j s dst Hs Hd Hj d thr. destruct (N i s Hs) as (row & Hrow & HM).
  exists row. split; auto. destruct (mapM_nth _ _ _ HM) as [L' N']. split; auto.
  destruct (N' j _ Hj) as (b & Hb & HB).
  assert (Hsr : 0 <= s_rad s).
  { eapply Forall_nth_error in HR; eauto. }
  destruct (coldtrap_dist_spec ej_thr basin_thr sites s (s_name dst) dst d
              (filter_name_nodup _ _ ND Hd) Hsr) as [S1 S2].
  cbv zeta in S1. fold thr in S1.
  split.
  - destruct b as [d'|]; [|auto].
    left. rewrite Hb. destruct (coldtrap_dist_spec ej_thr basin_thr sites s (s_name dst) dst d'
              (filter_name_nodup _ _ ND Hd) Hsr) as [S3 _].
    apply S3 in HB. destruct HB as (_ & -> & _). reflexivity.
  - rewrite Hb. split.
    + intros [= ->]. apply S1 in HB. tauto.
    + intros (H1 & H2 & H3).
      assert (HB' : coldtrap_dist ej_thr basin_thr sites s (s_name dst) = Ok (Some d))
        by (apply S1; auto).
      rewrite HB in HB'. now injection HB' as ->.
Qed.

(** * Map projection *)
Lemma rad_deg x : rad2deg (deg2rad x) = x.
Proof. unfold rad2deg, deg2rad. field. apply PI_neq0. Qed.
Lemma deg_rad x : deg2rad (rad2deg x) = x.
Proof. unfold rad2deg, deg2rad. field. apply PI_neq0. Qed.

Lemma deg2rad_lt x y : x < y -> deg2rad x < deg2rad y.
Proof. unfold deg2rad. pose proof PI_RGT_0. intros. apply Rmult_lt_compat_r; lra. Qed.
Lemma deg2rad_le x y : x <= y -> deg2rad x <= deg2rad y.
Proof. unfold deg2rad. pose proof PI_RGT_0. intros. apply Rmult_le_compat_r; lra. Qed.
Lemma deg2rad_0 : deg2rad 0 = 0. Proof. unfold deg2rad; ring. Qed.
Lemma deg2rad_90 : deg2rad 90 = PI / 2. Proof. unfold deg2rad; field. Qed.
Lemma deg2rad_m90 : deg2rad (- (90)) = - (PI / 2). Proof. unfold deg2rad; field. Qed.
Lemma deg2rad_180 : deg2rad 180 = PI. Proof. unfold deg2rad; field. Qed.
Lemma deg2rad_m180 : deg2rad (- (180)) = - PI. Proof. unfold deg2rad; field. Qed.

Lemma xy2latlon_of_polar rp lat lon : 0 < rp -> -90 < lat < 90 -> -180 < lon <= 180 ->
  let (x, y) := latlon2xy rp lat lon in
  xy2latlon rp x y = (- Rabs lat, lon).
Proof.
  intros Hr Hlat Hlon. unfold latlon2xy. cbv zeta. unfold xy2latlon. cbv zeta.
  pose proof PI_RGT_0.
  assert (L1 : - (PI / 2) < deg2rad lat < PI / 2).
  { rewrite <- deg2rad_m90, <- deg2rad_90. split; apply deg2rad_lt; lra. }
  assert (L2 : - PI < deg2rad lon <= PI).
  { rewrite <- deg2rad_m180, <- deg2rad_180. split; [apply deg2rad_lt|apply deg2rad_le]; lra. }
  set (p := deg2rad lat) in *. set (l := deg2rad lon) in *.
  assert (Hc : 0 < cos p) by (apply cos_gt_0; lra).
  f_equal.
  - pose proof (sin2_cos2 p) as Qp. pose proof (sin2_cos2 l) as Ql.
    replace (rp ^ 2 - (rp * cos p * sin l) ^ 2 - (rp * cos p * cos l) ^ 2)
      with ((rp * Rabs (sin p)) * (rp * Rabs (sin p))).
    2:{ replace (rp * Rabs (sin p) * (rp * Rabs (sin p))) with (rp * rp * (Rabs (sin p) * Rabs (sin p))) by ring.
        rewrite <- Rabs_mult, Rabs_right by nra.
        replace (rp ^ 2 - (rp * cos p * sin l) ^ 2 - (rp * cos p * cos l) ^ 2)
          with (rp * rp * (1 - cos p * cos p * (sin l * sin l + cos l * cos l))) by ring.
        rewrite Ql. replace (sin p * sin p) with (1 - cos p * cos p) by lra. ring. }
    rewrite sqrt_square by (apply Rmult_le_pos; [lra|apply Rabs_pos]).
    replace (rp * Rabs (sin p) / rp) with (Rabs (sin p)) by (field; lra).
    assert (E : Rabs (sin p) = sin (Rabs p)).
    { unfold Rabs at 2. destruct (Rcase_abs p).
      - assert (0 <= sin (- p)) by (apply sin_ge_0; lra). rewrite sin_neg in *.
        apply Rabs_left1. lra.
      - apply Rabs_right. apply Rle_ge, sin_ge_0; lra. }
    rewrite E, asin_sin.
    2:{ unfold Rabs; destruct (Rcase_abs p); lra. }
    unfold p, rad2deg, deg2rad. rewrite Rabs_mult, (Rabs_right (PI / 180)) by lra. field. lra.
  - rewrite atan2_polar; auto; [apply rad_deg|nra].
Qed.

Lemma latlon_roundtrip rp lat lon : 0 < rp -> -90 < lat <= 0 -> -180 < lon <= 180 ->
  let (x, y) := latlon2xy rp lat lon in xy2latlon rp x y = (lat, lon).
Proof.
  intros Hr Hlat Hlon. pose proof (xy2latlon_of_polar rp lat lon Hr ltac:(lra) Hlon) as H.
  destruct (latlon2xy rp lat lon) as [x y]. rewrite H. f_equal. rewrite Rabs_left1; lra.
Qed.

Lemma latlon_north rp lat lon : 0 < rp -> 0 < lat < 90 -> -180 < lon <= 180 ->
  let (x, y) := latlon2xy rp lat lon in xy2latlon rp x y = (- lat, lon).
Proof.
  intros Hr Hlat Hlon. pose proof (xy2latlon_of_polar rp lat lon Hr ltac:(lra) Hlon) as H.
  destruct (latlon2xy rp lat lon) as [x y]. rewrite H. f_equal. rewrite Rabs_right; lra.
Qed.

Lemma xy_roundtrip rp x y : 0 < rp -> x ^ 2 + y ^ 2 <= rp ^ 2 ->
  let (lat, lon) := xy2latlon rp x y in latlon2xy rp lat lon = (x, y).
Proof.
  intros Hr Hxy. unfold xy2latlon. cbv zeta. unfold latlon2xy. cbv zeta. rewrite !deg_rad.
  set (z := sqrt (rp ^ 2 - x ^ 2 - y ^ 2)).
  assert (Hz2 : z * z = rp ^ 2 - x ^ 2 - y ^ 2) by (apply sqrt_sqrt; lra).
  assert (Hz0 : 0 <= z) by apply sqrt_pos.
  assert (Hzr : -1 <= z / rp <= 1).
  { split; apply Rmult_le_reg_r with rp; auto; replace (z / rp * rp) with z by (field; lra); nra. }
  rewrite cos_neg, cos_asin by auto.
  destruct (polar_exists x y) as (t & Ht & Hx & Hy).
  set (r := sqrt (x ^ 2 + y ^ 2)) in *.
  assert (Hr2 : r * r = x ^ 2 + y ^ 2) by (apply sqrt_sqrt; nra).
  assert (Hr0 : 0 <= r) by apply sqrt_pos.
  assert (HC : rp * sqrt (1 - Rsqr (z / rp)) = r).
  { replace (1 - Rsqr (z / rp)) with ((r / rp) * (r / rp)).
    2:{ unfold Rsqr. replace (z / rp * (z / rp)) with (z * z / (rp * rp)) by (field; lra).
        rewrite Hz2. replace (r / rp * (r / rp)) with (r * r / (rp * rp)) by (field; lra).
        rewrite Hr2. field. lra. }
    rewrite sqrt_square. field; lra.
    apply Rmult_le_pos; auto. left. now apply Rinv_0_lt_compat. }
  rewrite HC.
  destruct (Req_dec r 0) as [E|E].
  - assert (Ex : x = 0) by nra. assert (Ey : y = 0) by nra.
    rewrite E, !Rmult_0_l. f_equal; auto.
  - assert (Ea : atan2 x y = t).
    { transitivity (atan2 (r * sin t) (r * cos t)); [f_equal; auto|apply atan2_polar; lra]. }
    rewrite Ea. f_equal; auto.
Qed.

(** * Age grid *)
Lemma age_cell_cases timestart ej_thr basin_thr l lon lat :
  let cov s := gc_dist default_rp (s_lon s) (s_lat s) lon lat
               < s_rad s * (if s_basin s then basin_thr else ej_thr) in
  Sorted (fun a b => s_age b <= s_age a) l ->
  let v := age_cell timestart ej_thr basin_thr l lon lat in
  (v = timestart /\ (forall s, In s l -> ~ cov s)) \/
  (exists s, In s l /\ cov s /\ v = s_age s /\ forall s', In s' l -> cov s' -> s_age s <= s_age s').
Proof.
  intros cov HS. apply Sorted_StronglySorted in HS; [|intros a b c; lra].
  unfold age_cell.
  assert (G : forall l acc, StronglySorted (fun a b => s_age b <= s_age a) l ->
    let v := fold_left (fun acc s =>
      if Rltb (gc_dist default_rp (s_lon s) (s_lat s) lon lat)
              (s_rad s * (if s_basin s then basin_thr else ej_thr)) then s_age s else acc) l acc in
    (v = acc /\ (forall s, In s l -> ~ cov s)) \/
    (exists s, In s l /\ cov s /\ v = s_age s /\ forall s', In s' l -> cov s' -> s_age s <= s_age s')).
  { clear HS l. induction l as [|a l IH]; intros acc HS; cbn [fold_left].
    - left. split; auto.
    - inversion HS as [|? ? HS' HF]; subst.
      rcase (gc_dist default_rp (s_lon a) (s_lat a) lon lat)
            (s_rad a * (if s_basin a then basin_thr else ej_thr)) E1'.
      + right. destruct (IH (s_age a) HS') as [[-> HN]|(s & H1 & H2 & -> & H3)].
        * exists a. repeat split; [now left|exact E1'|].
          intros s' [<-|Hs'] Hc; [lra|]. elim (HN s' Hs' Hc).
        * exists s. repeat split; [now right|auto|].
          intros s' [<-|Hs'] Hc; [|auto].
          rewrite Forall_forall in HF. apply HF. auto.
      + destruct (IH acc HS') as [[-> HN]|(s & H1 & H2 & -> & H3)].
        * left. split; auto. intros s [<-|Hs]; [unfold cov; lra|auto].
        * right. exists s. repeat split; [now right|auto|].
          intros s' [<-|Hs'] Hc; [unfold cov in Hc; lra|auto]. }
  apply (G l timestart HS).
Qed.

Lemma age_grid_spec sort rp timestart ej_thr basin_thr xs ys sites g i j x y :
  sorts_sites sort ->
  get_age_grid sort rp timestart ej_thr basin_thr xs ys sites = Ok g ->
  sites <> [] -> x ^ 2 + y ^ 2 <= rp ^ 2 ->
  nth_error ys i = Some y -> nth_error xs j = Some x ->
  exists row v, nth_error g i = Some row /\ nth_error row j = Some v /\
    let (lat, lon) := xy2latlon rp x y in
    let cov s := gc_dist default_rp (s_lon s) (s_lat s) lon lat
               < s_rad s * (if s_basin s then basin_thr else ej_thr) in
    (v = timestart /\ (forall s, In s sites -> ~ cov s)) \/
    (exists s, In s sites /\ cov s /\ v = s_age s /\
       forall s', In s' sites -> cov s' -> s_age s <= s_age s').
Proof.
  intros HS HG HN Hr Hy Hx. unfold get_age_grid in HG.
  destruct sites as [|s0 rest]; [congruence|]. set (sites := s0 :: rest) in *.
  destruct (Nat.eqb _ _); [|discriminate]. assert (Inj : forall a b : list (list R), Ok a = Ok b -> a = b) by congruence. apply Inj in HG. subst g.
  rewrite nth_error_map, Hy. cbn [option_map]. eexists.
  exists (let (lat, lon) := xy2latlon rp x y in
          age_cell timestart ej_thr basin_thr (sort sites) lon lat).
  split; [reflexivity|]. split; [rewrite nth_error_map, Hx; cbn [option_map]; rcase (rp ^ 2) (x ^ 2 + y ^ 2) Q; [lra|reflexivity]|].
  cbv beta. destruct (xy2latlon rp x y) as [lat lon]. destruct (HS sites) as [HP HSo].
  destruct (age_cell_cases timestart ej_thr basin_thr (sort sites) lon lat HSo)
    as [[E HNo]|(s & H1 & H2 & E & H3)].
  - left. split; [exact E|]. intros s Hs. apply HNo. eapply Permutation_in; [symmetry; exact HP|auto].
  - right. exists s. repeat split; [|exact H2|exact E|].
    + eapply Permutation_in; [exact HP|auto].
    + intros s' Hs'. apply H3. eapply Permutation_in; [symmetry; exact HP|auto].
Qed.

Lemma age_grid_outside sort rp timestart ej_thr basin_thr xs ys sites g i j x y :
  get_age_grid sort rp timestart ej_thr basin_thr xs ys sites = Ok g ->
  sites <> [] -> rp ^ 2 < x ^ 2 + y ^ 2 ->
  nth_error ys i = Some y -> nth_error xs j = Some x ->
  exists row, nth_error g i = Some row /\ nth_error row j = Some timestart.
Proof.
  intros HG HN Hr Hy Hx. unfold get_age_grid in HG. destruct sites as [|s0 rest]; [congruence|].
  destruct (Nat.eqb _ _); [|discriminate]. assert (Inj : forall a b : list (list R), Ok a = Ok b -> a = b) by congruence. apply Inj in HG. subst g.
  rewrite nth_error_map, Hy. cbn [option_map]. eexists. split; [reflexivity|].
  rewrite nth_error_map, Hx. cbn [option_map]. rcase (rp ^ 2) (x ^ 2 + y ^ 2) Q; [reflexivity|lra].
Qed.

Lemma age_grid_square sort rp timestart ej_thr basin_thr xs ys sites :
  sites <> [] -> length xs <> length ys ->
  get_age_grid sort rp timestart ej_thr basin_thr xs ys sites = Err ValueError.
Proof.
  intros HN HL. unfold get_age_grid. destruct sites; [congruence|].
  apply Nat.eqb_neq in HL. now rewrite HL.
Qed.

Lemma negative_threshold_never_covers timestart ej_thr basin_thr l lon lat :
  ej_thr < 0 -> basin_thr < 0 -> Forall (fun s => 0 <= s_rad s) l ->
  age_cell timestart ej_thr basin_thr l lon lat = timestart.
Proof.
  intros H1 H2 HF. unfold age_cell. revert timestart.
  induction HF as [|s l Hs HF IH]; intros acc; cbn [fold_left]; auto.
  rcase (gc_dist default_rp (s_lon s) (s_lat s) lon lat)
        (s_rad s * (if s_basin s then basin_thr else ej_thr)) E1'; auto.
  exfalso. pose proof (gc_dist_range default_rp (s_lon s) (s_lat s) lon lat
    ltac:(unfold default_rp; lra)). destruct (s_basin s); nra.
Qed.

Lemma dist_cell_spec ej_thr basin_thr s lon lat :
  let d := gc_dist default_rp (s_lon s) (s_lat s) lon lat in
  let thr := if s_basin s then basin_thr else ej_thr in
  dist_cell ej_thr basin_thr s lon lat = Some d /\ s_rad s <= d <= thr * s_rad s \/
  dist_cell ej_thr basin_thr s lon lat = None /\ ~ s_rad s <= d <= thr * s_rad s.
Proof.
  unfold dist_cell. cbv zeta. set (d := gc_dist _ _ _ _ _).
  rcase d (s_rad s) E1'; [right; split; [auto|lra]|].
  rcase ((if s_basin s then basin_thr else ej_thr) * s_rad s) d E2'; [right|left]; split; auto; lra.
Qed.

Fixpoint insert_site (c : site) (l : list site) : list site :=
  match l with
  | [] => [c]
  | x :: r => if Rleb (s_age x) (s_age c) then c :: x :: r else x :: insert_site c r
  end.
Definition isort_site (l : list site) : list site := fold_right insert_site [] l.

Lemma isort_site_ok : sorts_sites isort_site.
Proof.
  intros l. induction l as [|c l [HP HS]]; cbn [isort_site fold_right]; [split; auto|].
  fold (isort_site l). set (s := isort_site l) in *. split.
  - eapply Permutation_trans; [|apply perm_skip; exact HP]. clear.
    induction s as [|x s IH]; cbn [insert_site]; auto.
    destruct (Rleb (s_age x) (s_age c)); auto.
    eapply Permutation_trans; [apply perm_skip, IH|]. apply perm_swap.
  - clear HP. induction HS as [|x s HS IH Hd]; cbn [insert_site]; [repeat constructor|].
    destruct (Rleb (s_age x) (s_age c)) eqn:E.
    + apply Rleb_true in E. constructor; [constructor; auto|constructor; lra].
    + apply Rleb_false in E. constructor; auto.
      destruct s as [|y s]; cbn [insert_site]; [constructor; lra|].
      destruct (Rleb (s_age y) (s_age c)); constructor; [lra|]. now inversion Hd.
Qed.
