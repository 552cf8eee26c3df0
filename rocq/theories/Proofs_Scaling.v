From Coq Require Import String List ZArith Reals Lia Lra Psatz Bool Sorted.
From Verif Require Import Base Model_Time Model_Geo Model_Interp Model_Crater Proofs_Base Proofs_Time
  Proofs_Geo Proofs_Interp Proofs_Crater.
Import ListNotations.
Open Scope R_scope.

(** * Final to transient *)
Definition fm (x : R) : R := f2t_melosh x false.

Lemma fm_pos x : 0 < fm x.
Proof. unfold fm, f2t_melosh. pose proof (Rpower_pos (x * Rpower 18000 (13 / 100)) (1 / (1 + 13 / 100))). lra. Qed.

Lemma fm_lt x y : 0 < x -> x < y -> fm x < fm y.
Proof.
  intros Hx Hxy. unfold fm, f2t_melosh. apply Rmult_lt_compat_l; [lra|].
  pose proof (Rpower_pos 18000 (13 / 100)). apply Rpower_lt_pos; [lra|nra|nra].
Qed.

(** [fm x] in logarithms: [ln (5/4 fm x) = (ln x + 0.13 ln 18000)/1.13]. *)
Lemma fm_exp x : 0 < x -> fm x = 4 / 5 * exp ((ln x + 13 / 100 * ln 18000) / (113 / 100)).
Proof.
  intros Hx. unfold fm, f2t_melosh. f_equal; [lra|].
  unfold Rpower at 1. f_equal. rewrite ln_mult by (auto; apply Rpower_pos).
  unfold Rpower. rewrite ln_exp. field.
Qed.

Lemma fm_s2c : fm 18000 = 18000 / (125 / 100).
Proof.
  rewrite fm_exp by lra.
  replace ((ln 18000 + 13 / 100 * ln 18000) / (113 / 100)) with (ln 18000) by field.
  rewrite exp_ln by lra. lra.
Qed.

Lemma fm_smaller x : 18000 <= x -> fm x < x.
Proof.
  intros Hx. rewrite fm_exp by lra.
  assert (exp ((ln x + 13 / 100 * ln 18000) / (113 / 100)) <= x).
  { rewrite <- (exp_ln x) at 2 by lra.
    assert (ln 18000 <= ln x) by (destruct Hx as [H|<-]; [left; apply ln_increasing; lra|lra]).
    assert (H0 : (ln x + 13 / 100 * ln 18000) / (113 / 100) <= ln x) by lra.
    destruct H0 as [H0| ->]; [left; now apply exp_increasing|lra]. }
  lra.
Qed.

Lemma fc_pos x : 0 < f2t_croft x.
Proof. apply Rpower_pos. Qed.
Lemma fc_lt x y : 0 < x -> x < y -> f2t_croft x < f2t_croft y.
Proof.
  intros Hx Hxy. unfold f2t_croft. pose proof (Rpower_pos 18700 (18 / 100)).
  apply Rpower_lt_pos; [lra|nra|nra].
Qed.
Lemma fc_exp x : 0 < x -> f2t_croft x = exp ((ln x + 18 / 100 * ln 18700) / (118 / 100)).
Proof.
  intros Hx. unfold f2t_croft. unfold Rpower at 1. f_equal.
  rewrite ln_mult by (auto; apply Rpower_pos). unfold Rpower. rewrite ln_exp. field.
Qed.
Lemma fc_smaller x : 18700 < x -> f2t_croft x < x.
Proof.
  intros Hx. rewrite fc_exp by lra. rewrite <- (exp_ln x) at 2 by lra.
  apply exp_increasing. assert (ln 18700 < ln x) by (apply ln_increasing; lra). lra.
Qed.

(** The peak ring law is above the complex law at every transition up to 144 km. *)
Lemma fm_fc C : 18000 <= C <= 144000 -> fm C < f2t_croft C.
Proof.
  intros HC. rewrite fm_exp, fc_exp by lra.
  assert (Ha : ln 18000 < ln 18700) by (apply ln_increasing; lra).
  assert (H8 : ln 8 <= 3).
  { replace 8 with (2 * (2 * 2)) by lra. rewrite !ln_mult by lra. pose proof (ln_upper 2 ltac:(lra)). lra. }
  assert (HL : ln C <= ln 18000 + 3).
  { apply Rle_trans with (ln 144000).
    - destruct (proj2 HC) as [H|<-]; [left; apply ln_increasing; lra|lra].
    - replace 144000 with (18000 * 8) by lra. rewrite ln_mult by lra. lra. }
  assert (HLl : ln 18000 <= ln C).
  { destruct (proj1 HC) as [H|<-]; [left; apply ln_increasing; lra|lra]. }
  assert (H54 : 1 / 5 <= ln (5 / 4)) by (pose proof (ln_lower (5 / 4) ltac:(lra)); lra).
  assert (E45 : 4 / 5 = exp (- ln (5 / 4))).
  { rewrite exp_Ropp, exp_ln by lra. lra. }
  rewrite E45, <- exp_plus. apply exp_increasing.
  set (L := ln C) in *. set (a := ln 18000) in *. set (b := ln 18700) in *.
  assert ((L - a) * (100 / 113 - 100 / 118) < 1 / 5) by lra. lra.
Qed.

Section F2T.
  Variable c : ccfg.

  Lemma f2t_cases d : 0 < d -> simple2complex c <= complex2peakring c ->
    (d <= simple2complex c /\ final2transient c d = d / (125 / 100)) \/
    (simple2complex c < d <= complex2peakring c /\ final2transient c d = fm d) \/
    (complex2peakring c < d /\ final2transient c d = f2t_croft d).
  Proof.
    intros Hd Hs. unfold final2transient.
    destruct (Rleb d (simple2complex c)) eqn:E1'.
    - apply Rleb_true in E1'. left. split; auto.
      rcase (simple2complex c) d E2'; [lra|]. cbn [andb].
      rcase (complex2peakring c) d E3'; [lra|]. reflexivity.
    - apply Rleb_false in E1'. rcase (simple2complex c) d E2'; [|lra].
      destruct (Rleb d (complex2peakring c)) eqn:E3'.
      + apply Rleb_true in E3'. right; left. cbn [andb]. split; auto.
        rcase (complex2peakring c) d E4'; [lra|]. reflexivity.
      + apply Rleb_false in E3'. right; right. cbn [andb]. split; auto.
        rcase (complex2peakring c) d E4'; [reflexivity|lra].
  Qed.

  Hypothesis Hs : simple2complex c = 18000.
  Hypothesis Hp : 18000 <= complex2peakring c <= 144000.

  Lemma f2t_increasing d d' : 0 < d -> d < d' -> final2transient c d < final2transient c d'.
  Proof.
    intros Hd Hdd.
    assert (Hle : simple2complex c <= complex2peakring c) by lra.
    pose proof fm_s2c as F0.
    destruct (f2t_cases d Hd Hle) as [[A ->]|[[A ->]|[A ->]]];
    destruct (f2t_cases d' ltac:(lra) Hle) as [[B ->]|[[B ->]|[B ->]]]; rewrite ?Hs in *; try lra.
    - assert (fm 18000 < fm d') by (apply fm_lt; lra). lra.
    - assert (G := fm_fc _ Hp).
      assert (f2t_croft (complex2peakring c) < f2t_croft d') by (apply fc_lt; lra).
      assert (fm 18000 <= fm (complex2peakring c)).
      { destruct (proj1 Hp) as [Hq|Hq]; [left; apply fm_lt; lra|rewrite <- Hq; lra]. }
      lra.
    - apply fm_lt; lra.
    - assert (G := fm_fc _ Hp).
      assert (f2t_croft (complex2peakring c) < f2t_croft d') by (apply fc_lt; lra).
      assert (fm d <= fm (complex2peakring c)).
      { destruct (proj2 A) as [Hq|Hq]; [left; apply fm_lt; lra|rewrite <- Hq; lra]. }
      lra.
    - apply fc_lt; lra.
  Qed.
End F2T.

Lemma f2t_range c d : 0 < d -> 18000 <= simple2complex c -> 18700 <= complex2peakring c ->
  simple2complex c <= complex2peakring c -> 0 < final2transient c d < d.
Proof.
  intros Hd H1 H2 H3. destruct (f2t_cases c d Hd H3) as [[A ->]|[[A ->]|[A ->]]].
  - lra.
  - split; [apply fm_pos|apply fm_smaller; lra].
  - split; [apply fc_pos|apply fc_smaller; lra].
Qed.

Lemma f2t_pos c d : 0 < d -> simple2complex c <= complex2peakring c -> 0 < final2transient c d.
Proof.
  intros Hd H3. destruct (f2t_cases c d Hd H3) as [[A ->]|[[A ->]|[A ->]]].
  - lra.
  - apply fm_pos.
  - apply fc_pos.
Qed.

(** Every other simple-to-complex transition above 18 km makes a larger final crater
    have a smaller transient crater. *)
Lemma f2t_refuted c : 18000 < simple2complex c < complex2peakring c ->
  exists d d', 0 < d /\ d < d' /\ final2transient c d' < final2transient c d.
Proof.
  intros H. set (s := simple2complex c) in *.
  set (k := exp (65 / 1000 * (ln s - ln 18000))).
  assert (Hln : ln 18000 < ln s) by (apply ln_increasing; lra).
  assert (Hk : 1 < k).
  { unfold k. rewrite <- exp_0. apply exp_increasing. nra. }
  set (d' := Rmin (complex2peakring c) (s * k)).
  assert (Hd' : s < d' <= complex2peakring c).
  { unfold d'. split; [apply Rmin_glb_lt; nra|apply Rmin_l]. }
  exists s, d'. split; [lra|]. split; [lra|].
  destruct (f2t_cases c s ltac:(lra) ltac:(fold s; lra)) as [[A ->]|[[A _]|[A _]]]; fold s in A; try lra.
  destruct (f2t_cases c d' ltac:(lra) ltac:(fold s; lra)) as [[B _]|[[B ->]|[B _]]]; fold s in B; try lra.
  rewrite fm_exp by lra. replace (s / (125 / 100)) with (4 / 5 * s) by lra.
  apply Rmult_lt_compat_l; [lra|]. rewrite <- (exp_ln s) at 1 by lra. apply exp_increasing.
  assert (ln d' <= ln s + 65 / 1000 * (ln s - ln 18000)).
  { assert (d' <= s * k) by (unfold d'; apply Rmin_r).
    apply Rle_trans with (ln (s * k)).
    - destruct H0 as [H0| ->]; [left; apply ln_increasing; lra|lra].
    - rewrite ln_mult by lra. unfold k. rewrite ln_exp. lra. }
  lra.
Qed.

(** * Collins and Johnson *)
Definition good_angle (theta : R) : Prop := 0 < theta <= 90.

Lemma sin_angle_pos theta : good_angle theta -> 0 < sin (deg2rad theta).
Proof.
  intros [H1 H2]. pose proof PI_RGT_0. apply sin_gt_0.
  - rewrite <- deg2rad_0. now apply deg2rad_lt.
  - apply Rle_lt_trans with (deg2rad 90); [|rewrite deg2rad_90; lra].
    destruct H2 as [H2| ->]; [left; now apply deg2rad_lt|lra].
Qed.

Lemma collins_pos v ri rt g theta : 0 < collins_denom v ri rt g theta.
Proof. unfold collins_denom. repeat apply Rmult_lt_0_compat; try apply Rpower_pos; lra. Qed.
Lemma johnson_pos v ri rt g theta s : 0 < johnson_denom v ri rt g theta s.
Proof. unfold johnson_denom. repeat apply Rmult_lt_0_compat; try apply Rpower_pos; lra. Qed.

Lemma pow_law_inverse t k e : 0 < t -> 0 < k -> e <> 0 ->
  k * Rpower (Rpower (t / k) (1 / e)) e = t.
Proof.
  intros. rewrite Rpower_inv_exp' by (auto; apply Rdiv_lt_0_compat; auto). field. lra.
Qed.

Lemma pow_law_t t t' k e : 0 < t -> t < t' -> 0 < k -> 0 < e ->
  Rpower (t / k) (1 / e) < Rpower (t' / k) (1 / e).
Proof.
  intros. apply Rpower_lt_pos.
  - apply Rdiv_lt_0_compat; lra.
  - apply Rdiv_lt_0_compat; lra.
  - apply Rmult_lt_compat_r; auto. now apply Rinv_0_lt_compat.
Qed.

Lemma pow_law_k t k k' e : 0 < t -> 0 < k -> k < k' -> 0 < e ->
  Rpower (t / k') (1 / e) < Rpower (t / k) (1 / e).
Proof.
  intros. apply Rpower_lt_pos.
  - apply Rdiv_lt_0_compat; lra.
  - apply Rdiv_lt_0_compat; lra.
  - apply Rmult_lt_compat_l; auto. apply Rinv_lt_contravar; auto. apply Rmult_lt_0_compat; lra.
Qed.

Lemma collins_v v v' ri rt g theta : 0 < v -> v < v' ->
  collins_denom v ri rt g theta < collins_denom v' ri rt g theta.
Proof.
  intros Hv Hvv. unfold collins_denom.
  pose proof (Rpower_lt_pos v v' (44 / 100) ltac:(lra) Hv Hvv).
  pose proof (Rpower_pos (ri / rt) (1 / 3)). pose proof (Rpower_pos g (- (22 / 100))).
  pose proof (Rpower_pos (sin (deg2rad theta)) (1 / 3)).
  apply Rmult_lt_compat_r; auto. apply Rmult_lt_compat_r; auto. apply Rmult_lt_compat_l; nra.
Qed.

Lemma johnson_v v v' ri rt g theta s : 0 < v -> v < v' ->
  johnson_denom v ri rt g theta s < johnson_denom v' ri rt g theta s.
Proof.
  intros Hv Hvv. unfold johnson_denom.
  pose proof (Rpower_lt_pos v v' (1 / 2) ltac:(lra) Hv Hvv).
  pose proof (Rpower_pos (ri / rt) (38 / 100)). pose proof (Rpower_pos g (- (1 / 4))).
  pose proof (Rpower_pos s (- (13 / 100))).
  pose proof (Rpower_pos (sin (deg2rad theta)) (38 / 100)).
  apply Rmult_lt_compat_r; auto. apply Rmult_lt_compat_r; auto.
  apply Rmult_lt_compat_r; auto. apply Rmult_lt_compat_l; nra.
Qed.

(** * Prieur *)
Section Prieur.
  Variables (v ri rt g : R).
  Hypothesis Hv : 0 < v.
  Hypothesis Hri : 0 < ri.
  Hypothesis Hrt : 0 < rt.
  Hypothesis Hg : 0 < g.

  Lemma diam2vol_cube len : diam2vol len = len ^ 3 * diam2vol 1.
  Proof. unfold diam2vol. field. Qed.
  Lemma diam2vol_1 : 0 < diam2vol 1.
  Proof. unfold diam2vol. pose proof PI_RGT_0. replace ((1 / 2) ^ 3) with (1 / 8) by field. lra. Qed.

  Lemma prieur_law len : 0 < len ->
    prieur_diam v ri rt g len = prieur_diam v ri rt g 1 * Rpower len (78 / 100).
  Proof.
    intros Hl. unfold prieur_diam. rewrite (diam2vol_cube len).
    pose proof diam2vol_1 as HV. set (V := diam2vol 1) in *.
    assert (Hv2 : 0 < v ^ 2) by nra.
    set (k := 161 / 100 * g * 1 / v ^ 2).
    assert (Hk : 0 < k) by (unfold k; apply Rdiv_lt_0_compat; lra).
    replace (161 / 100 * g * len / v ^ 2) with (k * len) by (unfold k; field; lra).
    rewrite Rpower_mult_base by auto.
    assert (Hl3 : 0 < len ^ 3) by (apply pow_lt; auto).
    set (q := rt / (ri * V)).
    assert (Hq : 0 < q) by (unfold q; apply Rdiv_lt_0_compat; nra).
    replace (rt / (ri * (len ^ 3 * V))) with (q / len ^ 3) by (unfold q; field; lra).
    rewrite Rpower_div_base by auto.
    assert (El : Rpower (len ^ 3) (1 / 3) = len).
    { rewrite <- (Rpower_pow 3 len) by auto. rewrite Rpower_mult.
      replace (INR 3 * (1 / 3)) with 1 by (simpl; field). now apply Rpower_1. }
    rewrite El.
    pose proof (Rpower_pos q (1 / 3)) as Hq3. set (Q := Rpower q (1 / 3)) in *.
    replace (Rpower len (78 / 100)) with (Rpower len (- (22 / 100)) * len).
    - field. lra.
    - rewrite <- (Rpower_1 len) at 2 by auto. rewrite <- Rpower_plus. f_equal. lra.
  Qed.

  Lemma prieur_1_pos : 0 < prieur_diam v ri rt g 1.
  Proof.
    unfold prieur_diam. apply Rdiv_lt_0_compat; [|apply Rpower_pos].
    pose proof (Rpower_pos (161 / 100 * g * 1 / v ^ 2) (- (22 / 100))). lra.
  Qed.

  Lemma prieur_increasing l l' : 0 < l -> l < l' ->
    prieur_diam v ri rt g l < prieur_diam v ri rt g l'.
  Proof.
    intros Hl Hll. rewrite (prieur_law l), (prieur_law l') by lra.
    apply Rmult_lt_compat_l; [apply prieur_1_pos|]. apply Rpower_lt_pos; lra.
  Qed.

  Lemma prieur_reflect l l' : 0 < l -> 0 < l' ->
    prieur_diam v ri rt g l <= prieur_diam v ri rt g l' -> l <= l'.
  Proof.
    intros Hl Hl' H. apply Rnot_lt_le. intros C.
    pose proof (prieur_increasing l' l Hl' C). lra.
  Qed.

  Variables (lo hi : R).
  Hypothesis Hlo : 0 < lo.
  Hypothesis Hhi : lo <= hi.
  Let T := prieur_table v ri rt g lo hi.
  Let step := (hi - lo / 100) / (INR 1000 - 1).

  Lemma INR_1000 : INR 1000 = 1000.
  Proof. rewrite INR_IZR_INZ. f_equal. Qed.

  Lemma step_eq : step = (hi - lo / 100) / 999.
  Proof. unfold step. rewrite INR_1000. f_equal. lra. Qed.
  Lemma step_pos : 0 < step.
  Proof. rewrite step_eq. lra. Qed.

  Lemma table_nth i : (i < 1000)%nat ->
    nth_error T i = Some (prieur_diam v ri rt g (lo / 100 + INR i * step), lo / 100 + INR i * step).
  Proof.
    intros Hi. unfold T, prieur_table. rewrite nth_error_map, linspace_nth by lia. reflexivity.
  Qed.

  Lemma table_length : length T = 1000%nat.
  Proof. unfold T, prieur_table. rewrite map_length. apply linspace_length. Qed.

  Lemma SS_from_nth {A} (P : A -> A -> Prop) l :
    (forall i j a b, (i < j)%nat -> nth_error l i = Some a -> nth_error l j = Some b -> P a b) ->
    StronglySorted P l.
  Proof.
    induction l as [|x l IH]; intros H; constructor.
    - apply IH. intros i j a b Hij Ha Hb. apply (H (S i) (S j)); auto. lia.
    - apply Forall_forall. intros y Hy. apply In_nth_error in Hy as [j Hj].
      apply (H 0%nat (S j)); auto. lia.
  Qed.

  Lemma table_len_pos i : 0 < lo / 100 + INR i * step.
  Proof. pose proof step_pos. pose proof (pos_INR i). nra. Qed.

  Lemma table_sorted : increasing_x T /\ nondecreasing_y T.
  Proof.
    pose proof step_pos as Hs.
    split; apply SS_from_nth; intros i j a b Hij Ha Hb.
    - assert (j < 1000)%nat by (rewrite <- table_length; apply nth_error_Some; congruence).
      rewrite table_nth in Ha, Hb by lia. injection Ha as <-. injection Hb as <-. cbn [fst].
      apply lt_INR in Hij. apply prieur_increasing; [apply table_len_pos|]. nra.
    - assert (j < 1000)%nat by (rewrite <- table_length; apply nth_error_Some; congruence).
      rewrite table_nth in Ha, Hb by lia. injection Ha as <-. injection Hb as <-. cbn [snd].
      apply lt_INR in Hij. nra.
  Qed.

  Lemma table_range : Forall (fun k => lo / 100 <= snd k <= hi) T.
  Proof.
    apply Forall_forall. intros k Hk. apply In_nth_error in Hk as [i Hi].
    assert (i < 1000)%nat by (rewrite <- table_length; apply nth_error_Some; congruence).
    rewrite table_nth in Hi by auto. injection Hi as <-. cbn [snd].
    pose proof step_pos as Hs. pose proof (pos_INR i).
    assert (INR i <= 999).
    { replace 999 with (INR 999) by (rewrite INR_IZR_INZ; f_equal). apply le_INR. lia. }
    split; [nra|]. pose proof step_eq. assert (INR i * step <= 999 * step) by nra. lra.
  Qed.

  (** Interpolation error: the true length and the interpolated one are within the
      same table cell. *)
  Lemma prieur_error L l : lo / 100 <= L <= hi ->
    interp T (prieur_diam v ri rt g L) = Ok l -> Rabs (l - L) <= step.
  Proof.
    intros HL Hl. destruct table_sorted as [SX SY]. pose proof step_pos as Hs.
    destruct (interp_cases T _ l SX Hl) as [(xf & yf & A & B & C)|[(xl & yl & A & B & C)|(i & xa & ya & xb & yb & A & B & C & D)]].
    - rewrite table_nth in A by lia. injection A as <- <-. simpl (INR 0) in *.
      replace (lo / 100 + 0 * step) with (lo / 100) in * by ring.
      destruct (proj1 HL) as [H|<-]; [|lra].
      pose proof (prieur_increasing (lo / 100) L ltac:(lra) H). lra.
    - assert (NE : T <> []) by (intros E; pose proof table_length as K; rewrite E in K; discriminate).
      pose proof (last_nth T (0, 0) NE) as G. rewrite table_length, A in G.
      replace (1000 - 1)%nat with 999%nat in G by reflexivity.
      rewrite table_nth in G by lia.
      assert (E999 : INR 999 = 999) by (rewrite INR_IZR_INZ; f_equal).
      assert (Ehi : lo / 100 + INR 999 * step = hi) by (rewrite E999, step_eq; field).
      rewrite Ehi in G. injection G as G1 G2. subst xl yl l.
      apply prieur_reflect in B; try lra. replace (hi - L) with 0 by lra. rewrite Rabs_R0. lra.
    - assert (Hi : (S i < 1000)%nat) by (rewrite <- table_length; apply nth_error_Some; congruence).
      pose proof (interp_neighbours T _ l i _ _ _ _ SX Hl A B ltac:(lra)) as N.
      rewrite table_nth in A, B by lia. rewrite S_INR in B.
      set (p := lo / 100 + INR i * step) in *.
      assert (Ep : lo / 100 + (INR i + 1) * step = p + step) by (unfold p; ring).
      rewrite Ep in B. injection A as <- <-. injection B as <- <-. rewrite Rmin_left, Rmax_right in N by lra.
      pose proof (table_len_pos i) as Hp. fold p in Hp.
      assert (p <= L) by (apply prieur_reflect; lra).
      assert (L <= p + step) by (apply prieur_reflect; lra).
      apply Rabs_le. lra.
  Qed.
End Prieur.

Lemma prieur_spec v ri rt g lo rest :
  0 < v -> 0 < ri -> 0 < rt -> 0 < g -> 0 < lo -> lo <= last (lo :: rest) lo ->
  let ts := lo :: rest in let hi := last ts lo in
  exists ls, diam2len_prieur ts v ri rt g = Ok ls /\ length ls = length ts /\
    (forall i t l, nth_error ts i = Some t -> nth_error ls i = Some l ->
       lo / 100 <= l <= hi /\
       forall L, lo / 100 <= L <= hi -> t = prieur_diam v ri rt g L ->
         Rabs (l - L) <= (hi - lo / 100) / 999) /\
    (forall i j t t' l l', nth_error ts i = Some t -> nth_error ts j = Some t' ->
       nth_error ls i = Some l -> nth_error ls j = Some l' -> t <= t' -> l <= l').
Proof.
  intros Hv Hri Hrt Hg Hlo Hhi ts hi. unfold diam2len_prieur, ts.
  fold ts. change (last ts lo) with hi in Hhi |- *. fold hi.
  destruct (table_sorted v ri rt g Hv Hri Hrt Hg lo hi Hlo Hhi) as [SX SY].
  pose proof (table_range v ri rt g lo hi Hlo Hhi) as HR.
  set (T := prieur_table v ri rt g lo hi) in *.
  assert (NE : T <> []).
  { intros E. pose proof (table_length v ri rt g lo hi) as K. fold T in K. rewrite E in K. discriminate. }
  destruct (mapM_total (interp T) ts) as [ls Hls].
  { intros a _. now apply interp_total. }
  exists ls. destruct (mapM_nth _ _ _ Hls) as [HL Hn]. split; [exact Hls|]. split; auto. split.
  - intros i t l Ht Hl. destruct (Hn i t Ht) as (l' & Hl' & Hi).
    rewrite Hl in Hl'. injection Hl' as <-. split.
    + apply (interp_in_range T t l _ _ SX Hi HR).
    + intros L HLr ->. rewrite <- (step_eq lo hi).
      apply (prieur_error v ri rt g Hv Hri Hrt Hg lo hi Hlo Hhi L l HLr Hi).
  - intros i j t t' l l' Ht Ht' Hl Hl' Htt.
    destruct (Hn i t Ht) as (x & Hx & Hi). rewrite Hl in Hx. injection Hx as <-.
    destruct (Hn j t' Ht') as (x & Hx & Hj). rewrite Hl' in Hx. injection Hx as <-.
    apply (interp_mono T t t' l l' SX SY Htt Hi Hj).
Qed.

(** * diam2len *)
Lemma diam2len_errors c ds vs regime : ds <> [] -> vs <> [] ->
  (diam2len c ds vs regime = Err ValueError <->
   ~ In regime ["c"; "d"; "e"; "f"]%string) .
Proof.
  intros Hd Hv. unfold diam2len. destruct vs as [|v vs]; [congruence|]. destruct ds as [|d ds]; [congruence|].
  destruct (String.eqb_spec regime "c") as [->|N1].
  { split; [|intros H; exfalso; apply H; simpl; auto]. unfold diam2len_prieur. cbn [map].
    intros H. exfalso.
    match type of H with mapM ?f ?l = _ => destruct (mapM_total f l) as [z Hz] end.
    - intros a _. apply interp_total. intros E. apply (f_equal (@length _)) in E.
      unfold prieur_table in E. rewrite map_length, linspace_length in E. discriminate.
    - rewrite Hz in H. discriminate. }
  destruct (String.eqb_spec regime "d") as [->|N2].
  { split; [discriminate|]. intros H; exfalso; apply H; simpl; auto. }
  destruct (String.eqb_spec regime "e") as [->|N3].
  { split; [discriminate|]. intros H; exfalso; apply H; simpl; auto. }
  destruct (String.eqb_spec regime "f") as [->|N4].
  { split; [discriminate|]. intros H; exfalso; apply H; simpl; auto. }
  cbn [orb]. split; auto. intros _ [H|[H|[H|[H|[]]]]]; congruence.
Qed.

Lemma combine_nth_error {A B} (l : list A) (l' : list B) i a b :
  nth_error l i = Some a -> nth_error l' i = Some b -> nth_error (combine l l') i = Some (a, b).
Proof.
  revert l' i. induction l as [|x l IH]; intros l' i Ha Hb; [destruct i; discriminate|].
  destruct l' as [|y l']; [destruct i; discriminate|]. destruct i as [|i]; cbn in *; [congruence|auto].
Qed.

Lemma diam2len_d c ds vs i d v : nth_error ds i = Some d -> nth_error vs i = Some v ->
  simple2complex c <= complex2peakring c -> 0 < d -> 0 < v ->
  exists ls l, diam2len c ds vs "d" = Ok ls /\ nth_error ls i = Some l /\ 0 < l /\
    1161 / 1000 * Rpower (impactor_density c / target_density c) (1 / 3) * Rpower l (78 / 100)
      * Rpower v (44 / 100) * Rpower (grav_moon c) (- (22 / 100))
      * Rpower (sin (deg2rad (impact_angle c))) (1 / 3)
    = final2transient c d.
Proof.
  intros Hd Hv Hs Hd0 Hv0. unfold diam2len. cbn [String.eqb Ascii.eqb Bool.eqb].
  eexists. eexists. split; [reflexivity|]. split.
  - rewrite nth_error_map. rewrite (combine_nth_error _ _ i (final2transient c d) v); auto.
    + reflexivity.
    + now rewrite nth_error_map, Hd.
  - split; [apply Rpower_pos|]. unfold diam2len_collins.
    pose proof (f2t_pos c d Hd0 Hs) as Ht.
    pose proof (pow_law_inverse _ _ (78 / 100) Ht
      (collins_pos v (impactor_density c) (target_density c) (grav_moon c) (impact_angle c)) ltac:(lra)) as P.
    rewrite <- P at 2. unfold collins_denom at 2. ring.
Qed.

Lemma diam2len_ef c ds vs regime i d v : regime = "e"%string \/ regime = "f"%string ->
  nth_error ds i = Some d -> nth_error vs i = Some v ->
  simple2complex c <= complex2peakring c -> 0 < d -> 0 < v ->
  exists ls l, diam2len c ds vs regime = Ok ls /\ nth_error ls i = Some l /\ 0 < l /\
    152 / 100 * Rpower (impactor_density c / target_density c) (38 / 100) * Rpower l (88 / 100)
      * Rpower v (1 / 2) * Rpower (grav_moon c) (- (1 / 4)) * Rpower (simple2complex c) (- (13 / 100))
      * Rpower (sin (deg2rad (impact_angle c))) (38 / 100)
    = final2transient c d.
Proof.
  intros Hr Hd Hv Hs Hd0 Hv0. unfold diam2len.
  assert (E : String.eqb regime "c" = false /\ String.eqb regime "d" = false
              /\ String.eqb regime "e" || String.eqb regime "f" = true)
    by (destruct Hr as [-> | ->]; auto).
  destruct E as (-> & -> & ->).
  eexists. eexists. split; [reflexivity|]. split.
  - rewrite nth_error_map. rewrite (combine_nth_error _ _ i (final2transient c d) v); auto.
    + reflexivity.
    + now rewrite nth_error_map, Hd.
  - split; [apply Rpower_pos|]. unfold diam2len_johnson.
    pose proof (f2t_pos c d Hd0 Hs) as Ht.
    pose proof (pow_law_inverse _ _ (88 / 100) Ht
      (johnson_pos v (impactor_density c) (target_density c) (grav_moon c) (impact_angle c) (simple2complex c))
      ltac:(lra)) as P.
    rewrite <- P at 2. unfold johnson_denom at 2. ring.
Qed.

(** * Mixing ratio *)
Lemma mr_base a b d d' : 0 < a -> 0 < b -> 0 < d -> d < d' ->
  0 < a * Rpower (d / 1000) b < a * Rpower (d' / 1000) b.
Proof.
  intros. pose proof (Rpower_pos (d / 1000) b). split; [nra|].
  apply Rmult_lt_compat_l; auto. apply Rpower_lt_pos; lra.
Qed.

Lemma mr_spec a b petro d : 0 < a -> 0 < b -> 0 < d ->
  let raw := mixing_ratio a b false d in
  0 < mixing_ratio a b petro d <= raw /\
  (raw <= 5 -> mixing_ratio a b petro d = raw) /\
  (5 < raw -> 5 < mixing_ratio a b petro d) /\
  (forall d', d < d' ->
     0 < mixing_ratio a b petro d' - mixing_ratio a b petro d <= mixing_ratio a b false d' - raw).
Proof.
  intros Ha Hb Hd raw. subst raw. unfold mixing_ratio. 
  pose proof (Rpower_pos (d / 1000) b) as P.
  assert (M : forall d', d < d' -> a * Rpower (d / 1000) b < a * Rpower (d' / 1000) b)
    by (intros; now apply mr_base).
  set (x := a * Rpower (d / 1000) b) in *.
  assert (0 < x) by (unfold x; nra).
  destruct petro.
  - rcase 5 x E1'; repeat split; intros; try lra.
    + specialize (M _ H0). rcase 5 (a * Rpower (d' / 1000) b) E2'; lra.
    + specialize (M _ H0). rcase 5 (a * Rpower (d' / 1000) b) E2'; lra.
    + specialize (M _ H0). rcase 5 (a * Rpower (d' / 1000) b) E2'; lra.
    + specialize (M _ H0). rcase 5 (a * Rpower (d' / 1000) b) E2'; lra.
  - repeat split; intros; try lra.
    + specialize (M _ H0). lra.
Qed.

Lemma mr_default_bound d : 0 < d <= PI * 1737400 ->
  0 < mixing_ratio (183 / 10000) (87 / 100) true d < 39.
Proof.
  intros Hd. destruct (mr_spec (183 / 10000) (87 / 100) true d ltac:(lra) ltac:(lra) ltac:(lra)) as [[H0 H1] _].
  split; auto. unfold mixing_ratio in *.
  assert (Hx : d / 1000 <= 7000) by (pose proof PI_4; nra).
  assert (HP : Rpower (d / 1000) (87 / 100) < 3980).
  { apply Rle_lt_trans with (Rpower 7000 (87 / 100)).
    - destruct Hx as [Hx| ->]; [left; apply Rpower_lt_pos; lra|lra].
    - apply Rle_lt_trans with (Rpower 7000 (7 / 8)).
      + apply Rle_Rpower; lra.
      + rewrite <- (Rpower_inv_exp 3980 8) by lra.
        replace (7 / 8) with (INR 7 * (1 / 8)) by (rewrite INR_IZR_INZ; cbn; lra).
        rewrite <- Rpower_mult. apply Rpower_lt_pos; [lra|apply Rpower_pos|].
        rewrite Rpower_pow by lra. replace 8 with (INR 8) by (rewrite INR_IZR_INZ; cbn; lra).
        rewrite Rpower_pow by lra. lra. }
  rcase 5 (183 / 10000 * Rpower (d / 1000) (87 / 100)) E1'; lra.
Qed.

Lemma prieur_scaling v ri rt g l m : 0 < v -> 0 < ri -> 0 < rt -> 0 < g -> 0 < l -> 0 < m ->
  prieur_diam (m * v) ri rt g l = Rpower m (44 / 100) * prieur_diam v ri rt g l /\
  prieur_diam v (m * ri) rt g l = Rpower m (1 / 3) * prieur_diam v ri rt g l /\
  prieur_diam v ri (m * rt) g l = Rpower m (- (1 / 3)) * prieur_diam v ri rt g l /\
  prieur_diam v ri rt (m * g) l = Rpower m (- (22 / 100)) * prieur_diam v ri rt g l.
Proof.
  intros Hv Hri Hrt Hg Hl Hm. unfold prieur_diam.
  assert (HV : 0 < diam2vol l).
  { rewrite diam2vol_cube. apply Rmult_lt_0_compat; [now apply pow_lt|apply diam2vol_1]. }
  set (V := diam2vol l) in *. assert (HM : 0 < ri * V) by now apply Rmult_lt_0_compat.
  assert (Hv2 : 0 < v ^ 2) by (apply pow_lt; auto). assert (Hm2 : 0 < m ^ 2) by (apply pow_lt; auto).
  set (x := 161 / 100 * g * l / v ^ 2).
  assert (Hx : 0 < x).
  { unfold x. apply Rdiv_lt_0_compat; auto. repeat apply Rmult_lt_0_compat; lra. }
  set (q := rt / (ri * V)). assert (Hq : 0 < q) by now apply Rdiv_lt_0_compat.
  pose proof (Rpower_pos q (1 / 3)) as Pq. pose proof (Rpower_pos m (1 / 3)) as Pm.
  assert (N : Rpower m (- (1 / 3)) = / Rpower m (1 / 3)) by apply Rpower_Ropp.
  repeat split.
  - replace (161 / 100 * g * l / (m * v) ^ 2) with (x / m ^ 2) by (unfold x; field; lra).
    rewrite Rpower_div_base by auto.
    replace (Rpower (m ^ 2) (- (22 / 100))) with (/ Rpower m (44 / 100)).
    + pose proof (Rpower_pos m (44 / 100)). field. split; lra.
    + rewrite <- Rpower_Ropp, <- (Rpower_pow 2 m) by auto. rewrite Rpower_mult. f_equal. cbn. lra.
  - replace (rt / (m * ri * V)) with (q / m) by (unfold q; field; lra).
    rewrite Rpower_div_base by auto. field. lra.
  - replace (m * rt / (ri * V)) with (m * q) by (unfold q; field; lra).
    rewrite Rpower_mult_base by auto. rewrite N. field. lra.
  - replace (161 / 100 * (m * g) * l / v ^ 2) with (m * x) by (unfold x; field; lra).
    rewrite Rpower_mult_base by auto. field. lra.
Qed.

Lemma prieur_anchor : prieur_diam 1 (6 / PI) 1 (100 / 161) 1 = 16 / 10.
Proof.
  pose proof PI_RGT_0. unfold prieur_diam, diam2vol.
  replace (161 / 100 * (100 / 161) * 1 / 1 ^ 2) with 1 by field.
  replace (1 / (6 / PI * (4 / 3 * PI * (1 / 2) ^ 3))) with 1 by (field; lra).
  rewrite !Rpower_1_base. field.
Qed.

(** * Basins *)
Lemma tan_le_2x x : 0 <= x <= PI / 3 -> 0 <= tan x <= 2 * x.
Proof.
  intros Hx. pose proof PI_RGT_0. destruct (tan_nonneg x ltac:(lra)) as [H1 H2]. split; auto.
  assert (Hc : 1 / 2 <= cos x).
  { rewrite <- cos_PI3. apply cos_decr_1; lra. }
  assert (Hs : sin x <= x).
  { destruct (proj1 Hx) as [H0|<-]; [left; now apply sin_lt_x|rewrite sin_0; lra]. }
  unfold tan. apply Rmult_le_reg_r with (cos x); auto.
  replace (sin x / cos x * cos x) with (sin x) by (field; lra). nra.
Qed.

Lemma r_soi_ok r R_ R0 : 0 < R0 -> - (PI / 4) < (r - R_) / (2 * R0) < PI / 2 ->
  let t := tan ((r - R_) / (2 * R0)) in
  -1 < t /\ r_soi r R_ R0 = Some (R_ + 2 * R0 * t / (t + 1)).
Proof.
  intros H0 H t. pose proof PI_RGT_0.
  assert (Hc : 0 < cos ((r - R_) / (2 * R0))) by (apply cos_gt_0; lra).
  assert (Ht : -1 < t).
  { unfold t. replace (-1) with (tan (- (PI / 4))) by (rewrite tan_neg, tan_PI4; reflexivity).
    apply tan_increasing; lra. }
  split; auto. unfold r_soi. rewrite otan_ok by lra. cbn [obind]. fold t.
  rewrite odiv_ok by lra. reflexivity.
Qed.

Lemma frac_lt t t' : -1 < t -> t < t' -> t / (t + 1) < t' / (t' + 1).
Proof.
  intros. apply Rmult_lt_reg_r with ((t + 1) * (t' + 1)); [nra|].
  replace (t / (t + 1) * ((t + 1) * (t' + 1))) with (t * (t' + 1)) by (field; lra).
  replace (t' / (t' + 1) * ((t + 1) * (t' + 1))) with (t' * (t + 1)) by (field; lra). nra.
Qed.

Lemma area_corr_pos D R_ R0 : 0 < R0 -> 0 < R_ -> R_ <= D -> D + R_ / 8 < PI * R0 ->
  exists a, area_corr D R_ R0 = Some a /\ 0 < a.
Proof.
  intros H0 HR HD Hmax. pose proof PI_RGT_0 as HPI. unfold area_corr.
  set (ri := D - R_ / 8). set (ro := D + R_ / 8).
  set (x := R_ / (16 * R0)).
  assert (Hx0 : 0 < x) by (unfold x; apply Rdiv_lt_0_compat; lra).
  assert (ER : R_ = 16 * R0 * x) by (unfold x; field; lra).
  assert (Hx1 : x < PI / 18).
  { apply Rmult_lt_reg_l with (18 * R0); [lra|]. nra. }
  assert (HI : - x <= (ri - R_) / (2 * R0)).
  { apply Rmult_le_reg_r with (2 * R0); [lra|].
    replace ((ri - R_) / (2 * R0) * (2 * R0)) with (ri - R_) by (field; lra). unfold ri. nra. }
  assert (HO : (ro - R_) / (2 * R0) < PI / 2).
  { apply Rmult_lt_reg_r with (2 * R0); [lra|].
    replace ((ro - R_) / (2 * R0) * (2 * R0)) with (ro - R_) by (field; lra). unfold ro. lra. }
  assert (HIO : (ri - R_) / (2 * R0) < (ro - R_) / (2 * R0)).
  { apply Rmult_lt_compat_r; [apply Rinv_0_lt_compat; lra|]. unfold ri, ro. lra. }
  destruct (r_soi_ok ri R_ R0 H0 ltac:(lra)) as [T1 E1']. rewrite E1'. cbn [obind].
  destruct (r_soi_ok ro R_ R0 H0 ltac:(lra)) as [T2 E2']. rewrite E2'. cbn [obind].
  set (ti := tan ((ri - R_) / (2 * R0))) in *. set (to := tan ((ro - R_) / (2 * R0))) in *.
  assert (HT : ti < to) by (apply tan_increasing; lra).
  pose proof (frac_lt ti to T1 HT) as HF.
  assert (Hti : - tan x <= ti).
  { rewrite <- tan_neg. unfold ti. destruct HI as [HI|<-]; [left; apply tan_increasing; lra|lra]. }
  pose proof (tan_le_2x x ltac:(lra)) as Htx. pose proof PI_4.
  assert (Hpos : 0 < R_ + 2 * R0 * ti / (ti + 1)).
  { destruct (Rle_lt_dec 0 ti) as [Hp|Hn].
    - assert (0 <= 2 * R0 * ti / (ti + 1)).
      { apply Rmult_le_pos; [nra|]. left. apply Rinv_0_lt_compat. lra. }
      lra.
    - assert (Hf : - tan x / (- tan x + 1) <= ti / (ti + 1)).
      { destruct Hti as [Hti|<-]; [left; apply frac_lt; lra|lra]. }
      assert (Hg : - (2 * x) * 2 <= - tan x / (- tan x + 1)).
      { apply Rmult_le_reg_r with (- tan x + 1); [lra|].
        replace (- tan x / (- tan x + 1) * (- tan x + 1)) with (- tan x) by (field; lra).
        assert (tan x <= 1 / 2) by lra. nra. }
      replace (2 * R0 * ti / (ti + 1)) with (2 * R0 * (ti / (ti + 1))) by (field; lra).
      rewrite ER at 1. nra. }
  assert (Hlt : R_ + 2 * R0 * ti / (ti + 1) < R_ + 2 * R0 * to / (to + 1)).
  { replace (2 * R0 * ti / (ti + 1)) with (2 * R0 * (ti / (ti + 1))) by (field; lra).
    replace (2 * R0 * to / (to + 1)) with (2 * R0 * (to / (to + 1))) by (field; lra). nra. }
  assert (Hsp : 0 < s_spherical ri ro R0).
  { unfold s_spherical.
    assert (cos (ro / R0) < cos (ri / R0)).
    { apply cos_decreasing_1.
      - apply Rmult_le_pos; [unfold ri; lra|]. left. now apply Rinv_0_lt_compat.
      - apply Rmult_le_reg_r with R0; auto. replace (ri / R0 * R0) with ri by (field; lra). unfold ri. lra.
      - apply Rmult_le_pos; [unfold ro; lra|]. left. now apply Rinv_0_lt_compat.
      - apply Rmult_le_reg_r with R0; auto. replace (ro / R0 * R0) with ro by (field; lra). unfold ro. lra.
      - apply Rmult_lt_compat_r; [now apply Rinv_0_lt_compat|]. unfold ri, ro. lra. }
    apply Rmult_lt_0_compat; [|lra]. assert (0 < R0 ^ 2) by nra. nra. }
  rewrite odiv_ok by lra. eexists; split; [reflexivity|].
  apply Rdiv_lt_0_compat; auto. unfold s_flat. apply Rmult_lt_0_compat; auto. nra.
Qed.

Lemma CFG0_good : 0 < grav_moon CFG0 /\ 0 < rad_moon CFG0 /\ 0 < impact_angle CFG0 < 90.
Proof. cbn. lra. Qed.

Lemma ej_basin_pos c d tr : 0 < rad_moon c -> 0 < grav_moon c -> 0 <= impact_angle c <= 90 ->
  0 < tr -> tr <= d -> d + tr / 8 < PI * rad_moon c -> d - tr < PI * 1737400 ->
  exists x, ej_thick_basin c d tr = Some x /\ 0 < x.
Proof.
  intros Hr Hg Ha Ht Hd Hm Hv. unfold ej_thick_basin. pose proof PI_RGT_0 as HPI.
  destruct CFG0_good as (G1 & G2 & G3).
  destruct (velocity_sq CFG0 G1 G2 G3 ((d / 1000 - tr / 1000) * 1000)) as (v & Ev & Hv0 & _).
  { cbn [rad_moon CFG0]. lra. }
  unfold r_flat. rewrite Ev. cbn [obind]. rewrite odiv_ok by lra. cbn [obind].
  assert (Hsin : 0 <= sin (2 * deg2rad (impact_angle c))).
  { apply sin_ge_0.
    - assert (0 <= deg2rad (impact_angle c)).
      { rewrite <- deg2rad_0. destruct (proj1 Ha) as [H|<-]; [left; now apply deg2rad_lt|lra]. }
      lra.
    - assert (deg2rad (impact_angle c) <= PI / 2).
      { rewrite <- deg2rad_90. destruct (proj2 Ha) as [H| ->]; [left; now apply deg2rad_lt|lra]. }
      lra. }
  destruct (area_corr_pos (d / 1000) (tr / 1000) (rad_moon c / 1000)) as (a & Ea & Hapos); try lra.
  rewrite Ea. cbn [obind]. rewrite odiv_ok by lra. cbn [obind].
  set (q := (v / 1000) ^ 2 * sin (2 * deg2rad (impact_angle c)) / (grav_moon c / 1000)).
  assert (Hq : 0 <= q).
  { unfold q. apply Rmult_le_pos; [apply Rmult_le_pos; auto; nra|]. left. apply Rinv_0_lt_compat. lra. }
  rewrite opow_ok by (apply Rdiv_lt_0_compat; lra). cbn [obind].
  eexists; split; [reflexivity|].
  pose proof (Rpower_pos ((tr / 1000 + q) / (tr / 1000)) (ej_exp c)) as HP.
  repeat apply Rmult_lt_0_compat; auto; lra.
Qed.
