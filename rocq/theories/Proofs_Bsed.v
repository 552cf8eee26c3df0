From Coq Require Import String List ZArith Reals Lia Lra Psatz Bool Sorted.
From Verif Require Import Base Model_Time Model_Geo Model_Interp Model_Crater Model_Strat Model_Melt
  Spec_Time Spec_Strat Spec_Melt Proofs_Base Proofs_Time Proofs_Geo Proofs_Crater Proofs_Scaling
  Proofs_Strat Proofs_Labels Proofs_Melt.
Import ListNotations.
Open Scope R_scope.

Lemma fold_nanmax l : forall a, exists v, fold_left nanmax l (Some a) = Some v /\ a <= v /\
  (forall m, In (Some m) l -> m <= v) /\ (v = a \/ In (Some v) l).
Proof.
  induction l as [|[x|] l IH]; intros a; cbn [fold_left nanmax].
  - exists a. repeat split; auto; try lra. intros m [].
  - destruct (IH (Rmax a x)) as (v & E & A & B & C). exists v. split; auto.
    pose proof (Rmax_l a x). pose proof (Rmax_r a x). repeat split; try lra.
    + intros m [[= ->]|Hm]; [lra|auto].
    + destruct C as [->|C]; [|right; now right].
      unfold Rmax. destruct (Rle_dec a x); [right; now left|auto].
  - destruct (IH a) as (v & E & A & B & C). exists v. split; auto. repeat split; auto.
    + intros m [[=]|Hm]; auto.
    + destruct C as [->|C]; [auto|right; now right].
Qed.

Lemma counted_iff time tol lo hi at_ k age : is_min time lo -> is_max time hi ->
  (forall a, first_nearest time a (at_ a)) ->
  (Rleb (lo - Rabs lo * tol) age && Rleb age (hi + Rabs hi * tol) && Nat.eqb (at_ age) k = true
   <-> counted time tol k age).
Proof.
  intros Hlo Hhi Hat. rewrite !andb_true_iff, !Rleb_true, Nat.eqb_eq. unfold counted. split.
  - intros [[A B] <-]. split; auto. exists lo, hi. auto.
  - intros [(lo' & hi' & A & B & C) D].
    rewrite (is_min_unique _ _ _ Hlo A), (is_max_unique _ _ _ Hhi B). repeat split; try lra.
    eapply first_nearest_unique; eauto.
Qed.

Lemma In_combine_nth {A B} (l : list A) (l' : list B) a b :
  In (a, b) (combine l l') <-> exists i, nth_error l i = Some a /\ nth_error l' i = Some b.
Proof.
  split.
  - intros H. apply In_nth_error in H as [i H]. rewrite nth_error_combine in H. exists i.
    destruct (nth_error l i); [|discriminate]. destruct (nth_error l' i); [|discriminate].
    injection H as -> ->. auto.
  - intros (i & H & H'). apply nth_error_In with (n := i). now rewrite nth_error_combine, H, H'.
Qed.

(** [ages2time] with [np.nanmax] and fill value 0. *)
Lemma max_over_time ncol tol time ages rows : time <> [] -> length ages = length rows ->
  Forall (fun r => length r = ncol) rows ->
  exists out, ages2time (zipw nanmax) (repeat (Some 0) ncol) tol time (combine ages rows) = Ok out /\
    length out = length time /\ Forall (fun r => length r = ncol) out /\
    forall k j, (k < length time)%nat -> (j < ncol)%nat ->
      exists v, cell_is out k j (Some v) /\ max_of_events time tol ages rows k j v.
Proof.
  intros Ne La HF. destruct (minmax_spec time tol Ne) as (lo & hi & Hlo & Hhi & _).
  destruct (placement (zipw nanmax) (repeat (Some 0) ncol) tol time (combine ages rows) lo hi Hlo Hhi)
    as (at_ & out & Hat & Ho & Lo & Hk). exists out. split; auto. split; auto.
  assert (HR : forall p, Forall (fun r => length r = ncol) (map snd (filter p (combine ages rows)))).
  { intros p. apply Forall_forall. intros r Hr. apply in_map_iff in Hr as ([a r'] & <- & Hr).
    apply filter_In in Hr as [Hr _]. apply in_combine_r in Hr. rewrite Forall_forall in HF. auto. }
  split.
  { apply Forall_forall. intros r Hr. apply In_nth_error in Hr as [k Hr].
    assert (Lk : (k < length time)%nat) by (rewrite <- Lo; apply nth_error_Some; congruence).
    rewrite (Hk k Lk) in Hr. injection Hr as <-.
    assert (Z : forall rs acc, Forall (fun r : list (option R) => length r = ncol) rs -> length acc = ncol ->
                length (fold_left (zipw nanmax) rs acc) = ncol).
    { induction rs as [|r rs IH]; intros acc F L; cbn [fold_left]; auto. inversion F; subst.
      apply IH; auto. rewrite zipw_length. lia. }
    apply Z; [apply HR|apply repeat_length]. }
  intros k j Lk Lj. specialize (Hk k Lk).
  set (p := fun ev : R * list (option R) => Rleb (lo - Rabs lo * tol) (fst ev)
                                    && Rleb (fst ev) (hi + Rabs hi * tol)
                                    && Nat.eqb (at_ (fst ev)) k) in *.
  destruct (fold_zipw_nth nanmax (map snd (filter p (combine ages rows))) None j ncol Lj (HR p)
              (repeat (Some 0) ncol) (Some 0)) as [_ HN].
  { apply repeat_length. } { now apply nth_error_repeat. }
  destruct (fold_nanmax (map (fun r => nth j r None) (map snd (filter p (combine ages rows)))) 0)
    as (v & E & A & B & C).
  exists v. split; [exists (fold_left (zipw nanmax) (map snd (filter p (combine ages rows))) (repeat (Some 0) ncol)); split; auto; now rewrite HN, E|].
  repeat split; auto.
  - intros i age x Hi Hc (row & Hrow & Hx). apply B. rewrite map_map. apply in_map_iff.
    exists (age, row). split; [apply nth_error_nth; auto|]. apply filter_In. split.
    + apply In_combine_nth. eauto.
    + unfold p. cbn [fst]. now apply (counted_iff time tol lo hi at_ k age).
  - destruct C as [->|C]; [auto|right]. rewrite map_map in C. apply in_map_iff in C as ([age row] & C1 & C2).
    apply filter_In in C2 as [C2 C3]. apply In_combine_nth in C2 as (i & I1 & I2).
    exists i, age. split; auto. split; [now apply (counted_iff time tol lo hi at_ k age)|].
    exists row. split; auto. cbn [snd] in C1. rewrite <- C1. apply nth_error_nth'.
    rewrite (Forall_nth_error _ _ _ _ HF I2). auto.
Qed.

(** The temperature of the ejecta of a crater. *)
Lemma ejecta_temp_shape b ncol df dists : length dists = length df -> Forall (fun r => length r = ncol) dists ->
  same_shape (ejecta_temp b ncol df) (get_mixing_ratio_oberbeck b dists).
Proof.
  intros L F. unfold same_shape, ejecta_temp, get_mixing_ratio_oberbeck. apply Forall2_nth_error.
  rewrite !map_length. split; auto. intros i x y. rewrite !nth_error_map.
  destruct (nth_error df i); [|discriminate]. destruct (nth_error dists i) as [r|] eqn:E; [|discriminate].
  cbn. intros [= <-] [= <-]. rewrite repeat_length, map_length. symmetry. apply (Forall_nth_error _ _ _ _ F E).
Qed.

Definition site_temp (b : bcfg) (s : site) : R :=
  if s_basin s then (if basin_warm b then temp_warm b else temp_cold b) else temp_init b.

Lemma temp_cell b ncol df i j x : cell_is (ejecta_temp b ncol df) i j x <->
  exists s, nth_error df i = Some s /\ x = site_temp b s /\ (j < ncol)%nat.
Proof.
  unfold cell_is, ejecta_temp, site_temp. split.
  - intros (row & Hr & Hx). rewrite nth_error_map in Hr. destruct (nth_error df i) as [s|]; [|discriminate].
    cbn in Hr. injection Hr as <-. exists s. split; auto.
    assert (Lj : (j < ncol)%nat).
    { erewrite <- (repeat_length _ ncol). apply nth_error_Some. rewrite Hx. discriminate. }
    rewrite nth_error_repeat in Hx by auto. injection Hx as <-. auto.
  - intros (s & Hs & -> & Lj). exists (repeat (if s_basin s then if basin_warm b then temp_warm b else temp_cold b else temp_init b) ncol). split.
    + now rewrite nth_error_map, Hs.
    + now apply nth_error_repeat.
Qed.

Lemma mix_cell b dists i j x : cell_is (get_mixing_ratio_oberbeck b dists) i j x <->
  exists o, cell_is dists i j o /\ x = option_map (mixing_ratio (mr_a b) (mr_b b) (mr_petro b)) o.
Proof.
  unfold cell_is, get_mixing_ratio_oberbeck. split.
  - intros (row & Hr & Hx). rewrite nth_error_map in Hr. destruct (nth_error dists i) as [r|] eqn:E; [|discriminate].
    cbn in Hr. injection Hr as <-. rewrite nth_error_map in Hx.
    destruct (nth_error r j) as [o|] eqn:E'; [|discriminate]. cbn in Hx. injection Hx as <-. eauto.
  - intros (o & (row & Hr & Ho) & ->). eexists. rewrite nth_error_map, Hr. split; [reflexivity|].
    now rewrite nth_error_map, Ho.
Qed.

Definition thick_at (c : ccfg) (j : nat) (sd : site * list (option R)) : R :=
  get_ejecta_thickness c (nth j (snd sd) None) (s_rad (fst sd)).

Lemma get_bsed_spec c b t thick_min tol ncol time df dists melt :
  bsed_on b = true -> time <> [] -> length dists = length df -> Forall (fun r => length r = ncol) dists ->
  get_melt_frac t (ejecta_temp b ncol df) (get_mixing_ratio_oberbeck b dists) = Ok melt ->
  same_shape melt (get_mixing_ratio_oberbeck b dists) ->
  exists depths fracs, get_bsed_depth c b t thick_min tol ncol time df dists = Ok (depths, fracs) /\
    length depths = length time /\ length fracs = length time /\
    Forall (fun r => length r = ncol) depths /\ Forall (fun r => length r = ncol) fracs /\
    forall k j, (k < length time)%nat -> (j < ncol)%nat ->
      exists here mr mf,
        (forall sd, In sd here <-> In sd (combine df dists) /\ counted time tol k (s_age (fst sd))) /\
        (exists p, here = filter p (combine df dists)) /\
        max_of_events time tol (map s_age df) (get_mixing_ratio_oberbeck b dists) k j mr /\
        max_of_events time tol (map s_age df) melt k j mf /\
        cell_is depths k j (Some (Rsum (map (thick_at c j) here) * mr)) /\
        cell_is fracs k j (Some (frac_lost b * mf)).
Proof.
  intros Hon Ne HL HF Hm Hsh. unfold get_bsed_depth. rewrite Hon.
  set (mixing := get_mixing_ratio_oberbeck b dists) in *. cbv zeta. rewrite Hm. cbn [bind].
  destruct (minmax_spec time tol Ne) as (lo & hi & Hlo & Hhi & _).
  destruct (ejecta_sources c thick_min tol ncol time df dists lo hi Hlo Hhi HL HF)
    as (at_ & ej & src & Hat & -> & Le & Ls & Hej). cbn [bind].
  assert (LM : length (map s_age df) = length mixing).
  { unfold mixing, get_mixing_ratio_oberbeck. now rewrite !map_length. }
  assert (FM : Forall (fun r => length r = ncol) mixing).
  { unfold mixing, get_mixing_ratio_oberbeck. apply Forall_forall. intros r Hr.
    apply in_map_iff in Hr as (r' & <- & Hr). rewrite map_length. rewrite Forall_forall in HF. auto. }
  destruct (max_over_time ncol tol time (map s_age df) mixing Ne LM FM) as (mt & -> & Lmt & Fmt & Hmt). cbn [bind].
  apply Forall2_nth_error in Hsh as [Lme Hsh].
  assert (LE : length (map s_age df) = length melt) by congruence.
  assert (FE : Forall (fun r => length r = ncol) melt).
  { apply Forall_forall. intros r Hr. apply In_nth_error in Hr as [i Hi].
    destruct (nth_error mixing i) as [m|] eqn:E.
    2:{ apply nth_error_None in E. assert (i < length melt)%nat by (apply nth_error_Some; congruence). lia. }
    rewrite (Hsh i r m Hi E). apply (Forall_nth_error _ _ _ _ FM E). }
  destruct (max_over_time ncol tol time (map s_age df) melt Ne LE FE) as (et & -> & Let & Fet & Het). cbn [bind].
  eexists _, _. split; [reflexivity|].
  split; [rewrite map_length, combine_length; lia|]. split; [rewrite map_length; lia|].
  split; [|split].
  - apply Forall_forall. intros r Hr. apply In_nth_error in Hr as [k Hr]. rewrite nth_error_map, nth_error_combine in Hr.
    destruct (nth_error ej k) as [e|] eqn:Ee; [|discriminate]. destruct (nth_error mt k) as [m|] eqn:Em; [|discriminate].
    cbn in Hr. injection Hr as <-. rewrite zipw_length, (Forall_nth_error _ _ _ _ Fmt Em).
    assert (Lk : (k < length time)%nat) by (rewrite <- Le; apply nth_error_Some; congruence).
    destruct ncol as [|nc]; [lia|].
    destruct (Hej k 0%nat Lk ltac:(lia)) as (e' & s & A & B & C & _). rewrite Ee in A. injection A as ->. lia.
  - apply Forall_forall. intros r Hr. apply in_map_iff in Hr as (r' & <- & Hr). rewrite map_length.
    rewrite Forall_forall in Fet. auto.
  - intros k j Lk Lj.
    destruct (Hej k j Lk Lj) as (e & s & A1 & A2 & A3 & A4 & A5 & _).
    destruct (Hmt k j Lk Lj) as (mr & (mrow & B1 & B2) & B3).
    destruct (Het k j Lk Lj) as (mf & (frow & C1 & C2) & C3).
    eexists _, mr, mf. split; [|split; [eexists; reflexivity|split; [exact B3|split; [exact C3|split]]]].
    2:{ eexists. rewrite nth_error_map, nth_error_combine, A1, B1. split; [reflexivity|].
        rewrite (zipw_nth _ _ _ j _ _ A5 B2). reflexivity. }
    2:{ eexists. rewrite nth_error_map, C1. split; [reflexivity|]. rewrite nth_error_map, C2. reflexivity. }
    intros sd. rewrite filter_In. now rewrite (counted_iff time tol lo hi at_ k (s_age (fst sd)) Hlo Hhi Hat).
Qed.

Lemma bsed_off c b t thick_min tol ncol time df dists : bsed_on b = false ->
  exists z, get_bsed_depth c b t thick_min tol ncol time df dists = Ok (z, z) /\
    length z = length time /\ Forall (fun r => r = repeat (Some 0) ncol) z.
Proof.
  intros H. unfold get_bsed_depth. rewrite H. eexists. split; [reflexivity|].
  rewrite map_length. split; auto. apply Forall_forall. intros r Hr. apply in_map_iff in Hr as (? & <- & _). auto.
Qed.

Lemma bsed_error c b t thick_min tol ncol time df dists e : bsed_on b = true ->
  get_melt_frac t (ejecta_temp b ncol df) (get_mixing_ratio_oberbeck b dists) = Err e ->
  get_bsed_depth c b t thick_min tol ncol time df dists = Err e.
Proof. intros H E. unfold get_bsed_depth. now rewrite H, E. Qed.

(** Ejecta thickness is not negative outside the rim and away from the antipode. *)
Lemma thick_nonneg d r : 0 < r -> r <= d -> (70000 <= r -> d + r / 8 < PI * 1737400) ->
  0 <= get_ejecta_thickness CFG0 (Some d) r.
Proof.
  intros Hr Hd Hb. destruct (Rlt_dec r 70000) as [L|L].
  - destruct (Req_dec r 9000) as [->|N].
    + replace 9000 with (simple2complex CFG0 / 2) by (cbn; lra).
      rewrite thick_transition by (cbn; lra). lra.
    + left. assert (H0 : simple2complex CFG0 <= complex2peakring CFG0) by (cbn; lra).
      apply (thick_law CFG0 H0 r d); [|lra]. split; cbn; lra.
  - apply Rnot_lt_le in L. specialize (Hb L). left. unfold get_ejecta_thickness.
    assert (E : Rleb (complex2peakring CFG0 / 2) r = true) by (apply Rleb_true; cbn; lra).
    rewrite E. cbn [obind].
    destruct (f2t_range CFG0 (r * 2)) as [F1 F2]; try (cbn; lra).
    destruct (ej_basin_pos CFG0 d (final2transient CFG0 (r * 2) / 2)) as (x & -> & Hx); auto;
      cbn [rad_moon grav_moon impact_angle CFG0]; lra.
Qed.

(** Every melt fraction of the array lies between bounds of the table that contain 0. *)
Lemma melt_range t temps mrs lo hi : good_table t -> same_shape temps mrs -> all_within t temps mrs ->
  lo <= 0 <= hi -> (forall mr temp v, value_at t mr temp v -> lo <= v <= hi) ->
  exists out, get_melt_frac t temps mrs = Ok out /\ same_shape out mrs /\
    forall i j o, cell_is mrs i j o -> exists v, cell_is out i j (Some v) /\ lo <= v <= hi.
Proof.
  intros G Sh W H0 V. destruct (melt_spec t temps mrs G Sh W) as (out & E & So & N & B).
  exists out. repeat split; auto. intros i j [mr|] H.
  - destruct (shape_cell temps mrs Sh i j _ H) as [temp Ht].
    destruct G as (G1 & G2 & G3).
    destruct (labels_exist (t_mrs t) (fun y => In (Some y) (concat mrs)) (non_nan mrs)) as [M LM]; auto.
    { intros y. symmetry. apply In_non_nan. }
    destruct (labels_exist (t_temps t) (fun y => In y (concat temps)) (concat temps)) as [T LT]; auto.
    { tauto. }
    destruct (B M T i j mr temp LM LT Ht H) as (v & C & D). exists v. split; auto.
    destruct (W i j temp mr Ht H) as [Wm Wt].
    destruct (bracket_exists _ _ Wm) as (m0 & m1 & BM). destruct (bracket_exists _ _ Wt) as (t0 & t1 & BT).
    eapply (bilinear_between t M T _ _ mr temp v m0 m1 t0 t1 lo hi); eauto. split; auto.
  - exists 0. split; auto.
Qed.
