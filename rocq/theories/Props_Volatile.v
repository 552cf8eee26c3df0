(** C96: the figure of volatilized fractions. *)
From Coq Require Import String List ZArith QArith Qreals Reals Lia Lra Bool Permutation.
From Verif Require Import Base Model_Time Model_Geo Model_Crater Model_Ice Model_Rng Model_Melt Model_Thermal Model_Main Model_Basin Model_Maps Model_Volatile Model_Run Data_Shipped
  Spec_Time Spec_Geo Spec_Ice Spec_Thermal Spec_Main Spec_Ages Spec_Maps Spec_Volatile
  Proofs_Base Proofs_Time Proofs_Geo Proofs_Main Proofs_Ages Proofs_Maps Proofs_Cumulative Proofs_Run Proofs_Volatile
  Props_Rng Props_Main Props_Maps Props_Thermal Proofs_Rng.
Import ListNotations.
Open Scope R_scope.

(** The figure is drawn if and only if neither table has a column for 100 K, there is a row
    of means, and some crater and some basin reach a cold trap; otherwise it is a ValueError.
    It then holds both tables and the ranges of the shares of ejecta at the cold traps. *)
Theorem C96_figure : forall c ppf sort craters basins entropy mean std, distances_sane c ppf sort craters basins entropy ->
  let can := ~ In 100 (t_temps mean) /\ ~ In 100 (t_temps std) /\ t_mrs mean <> [] /\
    (exists p, share_of c craters basins false p) /\ (exists p, share_of c craters basins true p) in
  (can /\ exists g, volatilized_fraction_bsed c ppf sort craters basins entropy mean std = Ok g /\
     image_of (t_mrs mean) (t_temps mean) (t_vals mean) (f_mean g) /\ image_of (t_mrs mean) (t_temps mean) (t_vals std) (f_std g) /\
     marker_of c craters basins false (temp_init (r_bsed c)) (f_crater g) /\
     marker_of c craters basins true (temp_cold (r_bsed c)) (f_cold g) /\ marker_of c craters basins true (temp_warm (r_bsed c)) (f_warm g)) \/
  (~ can /\ volatilized_fraction_bsed c ppf sort craters basins entropy mean std = Err ValueError).
Proof. intros c ppf sort craters basins entropy mean std S. exact (volatile_ok c ppf sort craters basins entropy mean std S). Qed.

Lemma figure_holds c ppf sort craters basins entropy mean std g : distances_sane c ppf sort craters basins entropy ->
  volatilized_fraction_bsed c ppf sort craters basins entropy mean std = Ok g ->
  image_of (t_mrs mean) (t_temps mean) (t_vals mean) (f_mean g) /\ image_of (t_mrs mean) (t_temps mean) (t_vals std) (f_std g) /\
  marker_of c craters basins false (temp_init (r_bsed c)) (f_crater g) /\
  marker_of c craters basins true (temp_cold (r_bsed c)) (f_cold g) /\ marker_of c craters basins true (temp_warm (r_bsed c)) (f_warm g).
Proof.
  intros S E. destruct (volatile_ok c ppf sort craters basins entropy mean std S) as [(_ & g' & E' & H)|(_ & E')]; rewrite E in E'; [|discriminate].
  assert (Inj : forall a b : volatile_fig, Ok a = Ok b -> a = b) by congruence. apply Inj in E'. subst g'. exact H.
Qed.

(** It does not depend on random numbers, nor on the order of the rows. *)
Theorem C96_fixed : forall c ppf ppf' sort sort' craters basins entropy entropy' mean std,
  distances_sane c ppf sort craters basins entropy -> distances_sane c ppf' sort' craters basins entropy' ->
  volatilized_fraction_bsed c ppf sort craters basins entropy mean std = volatilized_fraction_bsed c ppf' sort' craters basins entropy' mean std.
Proof.
  intros c ppf ppf' sort sort' craters basins entropy entropy' mean std S S'.
  destruct (volatile_ok c ppf sort craters basins entropy mean std S) as [(D & g & -> & A1 & A2 & A3 & A4 & A5)|(D & ->)];
  destruct (volatile_ok c ppf' sort' craters basins entropy' mean std S') as [(D' & g' & -> & B1 & B2 & B3 & B4 & B5)|(D' & ->)]; try tauto.
  f_equal. assert (Im : forall vals im im', image_of (t_mrs mean) (t_temps mean) vals im -> image_of (t_mrs mean) (t_temps mean) vals im' -> im = im').
  { intros vals [a b c0 d e] [a' b' c0' d' e'] [P1 P2 P3 P4 P5] [Q1 Q2 Q3 Q4 Q5]. cbn in *. f_equal; try congruence;
      [eapply least_unique|eapply greatest_unique|eapply greatest_unique]; eauto. }
  assert (Mk : forall b t m m', marker_of c craters basins b t m -> marker_of c craters basins b t m' -> m = m').
  { intros b t [a l h] [a' l' h'] (P1 & P2 & P3) (Q1 & Q2 & Q3). cbn in *. f_equal; [congruence| |]; [eapply least_unique|eapply greatest_unique]; eauto. }
  destruct g as [g1 g2 g3 g4 g5], g' as [h1 h2 h3 h4 h5]. cbn [f_mean f_std f_crater f_cold f_warm] in *. f_equal; eauto.
Qed.

(** The lines lie strictly between 0 and 100 per cent; both lines of basins have the same
    ends. *)
Theorem C96_lines : forall c ppf sort craters basins entropy mean std g, distances_sane c ppf sort craters basins entropy -> 0 < mr_a (r_bsed c) ->
  volatilized_fraction_bsed c ppf sort craters basins entropy mean std = Ok g ->
  (forall m, In m [f_crater g; f_cold g; f_warm g] -> 0 < k_low m <= k_high m /\ k_high m < 100) /\
  k_low (f_cold g) = k_low (f_warm g) /\ k_high (f_cold g) = k_high (f_warm g).
Proof.
  intros c ppf sort craters basins entropy mean std g S Ha E. destruct (figure_holds _ _ _ _ _ _ _ _ _ S E) as (_ & _ & M1 & M2 & M3).
  assert (Pos : forall d, 0 < oberbeck c d).
  { intros d. unfold oberbeck. set (m := mr_a (r_bsed c) * _). assert (0 < m) by (apply Rmult_lt_0_compat; [exact Ha|unfold Rpower; apply exp_pos]).
    cbv zeta. destruct (mr_petro (r_bsed c) && Rltb 5 m); lra. }
  assert (Sh : forall b p, share_of c craters basins b p -> 0 < p < 100).
  { intros b p (w & n & d & _ & _ & _ & ->). unfold share. pose proof (Pos d). split.
    - apply Rdiv_lt_0_compat; lra.
    - apply Rmult_lt_reg_r with (1 + oberbeck c d); [lra|]. unfold Rdiv. rewrite Rmult_assoc, Rinv_l by lra. lra. }
  split.
  - assert (K : forall b t m, marker_of c craters basins b t m -> 0 < k_low m <= k_high m /\ k_high m < 100).
    { intros b t m (_ & [L1 L2] & [H1 H2]). pose proof (Sh _ _ L1). pose proof (Sh _ _ H1). pose proof (L2 _ H1). lra. }
    intros m [<-|[<-|[<-|[]]]]; eauto.
  - destruct M2 as (_ & L2 & H2), M3 as (_ & L3 & H3). split; [eapply least_unique; eauto|eapply greatest_unique; eauto].
Qed.

(** For tables like the shipped one, the colour at a point is that of the next warmer column
    and of the next row above; in the first step above 100 K it is 0. *)
Theorem C96_colours : forall c ppf sort craters basins entropy mean std g s, distances_sane c ppf sort craters basins entropy ->
  volatilized_fraction_bsed c ppf sort craters basins entropy mean std = Ok g ->
  regular s mean -> regular s std -> t_temps std = t_temps mean -> length (t_mrs std) = length (t_mrs mean) ->
  let n := INR (length (t_mrs mean)) in
  forall vals im, (vals, im) = (t_vals mean, f_mean g) \/ (vals, im) = (t_vals std, f_std g) ->
  (forall x y v v', pixel im x y v -> pixel im x y v' -> v = v') /\
  forall i x y, (i < length (t_mrs mean))%nat -> 100 - 100 * (INR i + 1) / n < y < 100 - 100 * INR i / n ->
  (forall j temp v, nth_error (t_temps mean) j = Some temp -> entry vals i j v -> temp - s < x < temp -> pixel im x y (100 * v)) /\
  (t_temps mean <> [] -> 100 < x < 100 + s -> pixel im x y 0).
Proof.
  intros c ppf sort craters basins entropy mean std g s S E Rg Rs Et El n vals im H. destruct (figure_holds _ _ _ _ _ _ _ _ _ S E) as (I1 & I2 & _).
  assert (K : image_of (t_mrs mean) (t_temps mean) vals im /\ length vals = length (t_mrs mean) /\ Forall (fun row => length row = length (t_temps mean)) vals).
  { destruct H as [H|H]; apply pair_equal_spec in H as [-> ->].
    - destruct Rg as (_ & _ & _ & _ & L & F). auto.
    - destruct Rs as (_ & _ & _ & _ & L & F). rewrite Et in F. split; [exact I2|]. split; [congruence|exact F]. }
  destruct K as (K1 & K2 & K3). split.
  - intros x y v v'. apply (pixel_unique im (1 + length (t_temps mean))). intros row I. rewrite (io_rows _ _ _ _ K1) in I. apply in_map_iff in I as (r & <- & Ir).
    cbn [length Nat.add]. rewrite map_length. rewrite Forall_forall in K3. now rewrite K3.
  - exact (regular_pixel s mean vals im Rg K1 K2 K3).
Qed.

(** The shipped table of means: steps of 5 K, 40 rows, whose shares of ejecta are the upper
    edges of the rows of the image to a thousandth of a per cent. *)
Theorem C96_shipped : exists q, melt_table melt_mean_csv = Ok q /\ regular 5 (real_table q) /\ length (t_mrs (real_table q)) = 40%nat /\ length (t_temps (real_table q)) = 81%nat /\
  forall i mr, nth_error (t_mrs (real_table q)) i = Some mr -> Rabs (share mr - (100 - 100 * INR i / 40)) <= 1 / 1000.
Proof.
  exists mtable. assert (L : melt_table melt_mean_csv = Ok mtable) by (vm_compute; reflexivity). split; [exact L|]. clear L. unfold real_table. cbn [t_mrs t_temps t_vals]. split.
  - split; [lra|]. cbn [t_mrs t_temps t_vals]. rewrite !map_length. split.
    { assert (Q : q_temps mtable = map (fun j => inject_Z (100 + 5 * (Z.of_nat j + 2))) (seq 0 (length (q_temps mtable)))) by (vm_compute; reflexivity).
      rewrite Q at 1. rewrite map_map. apply map_ext. intros j. unfold Q2R, inject_Z. cbn [Qnum Qden]. rewrite plus_IZR, mult_IZR, plus_IZR, INR_IZR_INZ. field. }
    split.
    { assert (Q : q_mrs mtable = inject_Z 0 :: tl (q_mrs mtable)) by (vm_compute; reflexivity). rewrite Q. cbn [map]. eexists. f_equal. unfold Q2R, inject_Z. cbn. lra. }
    split.
    { apply Forall_map. apply forallb_Forall with (f := fun q => Qle_bool 0 q); [|vm_compute; reflexivity]. intros q H. apply Qle_bool_iff, Qle_Rle in H. unfold Q2R at 1 in H. cbn in H. lra. }
    split; [vm_compute; reflexivity|]. apply Forall_map. apply forallb_Forall with (f := fun row => Nat.eqb (length row) (length (q_temps mtable))); [|vm_compute; reflexivity].
    intros row Q. rewrite map_length. now apply Nat.eqb_eq.
  - rewrite !map_length. split; [vm_compute; reflexivity|]. split; [vm_compute; reflexivity|]. intros i mr H. rewrite nth_error_map in H.
    destruct (nth_error (q_mrs mtable) i) as [q|] eqn:Eq; [|discriminate]. cbn [option_map] in H. assert (mr = Q2R q) as -> by congruence. clear H.
    assert (C : forallb (fun p => Qle_bool 0 (snd p) &&
      Qle_bool ((100 - inject_Z (Z.of_nat (fst p)) * (5 # 2) - (1 # 1000)) * (1 + snd p)) 100 &&
      Qle_bool 100 ((100 - inject_Z (Z.of_nat (fst p)) * (5 # 2) + (1 # 1000)) * (1 + snd p))) (combine (seq 0 40) (q_mrs mtable)) = true) by (vm_compute; reflexivity).
    rewrite forallb_forall in C. assert (I : In (i, q) (combine (seq 0 40) (q_mrs mtable))).
    { apply nth_error_In with i. apply combine_nth_error; [|exact Eq]. apply nth_error_seq.
      assert (Lq : length (q_mrs mtable) = 40%nat) by (vm_compute; reflexivity). rewrite <- Lq. apply nth_error_Some. congruence. }
    apply C in I. cbn [fst snd] in I. apply andb_prop in I as [I I3]. apply andb_prop in I as [I1 I2]. apply Qle_bool_iff, Qle_Rle in I1, I2, I3.
    assert (N : Q2R (inject_Z (Z.of_nat i)) = INR i) by (rewrite INR_IZR_INZ; unfold Q2R, inject_Z; cbn [Qnum Qden]; lra).
    unfold Qminus in I2, I3. rewrite !Q2R_mult, !Q2R_plus, !Q2R_opp, !Q2R_mult, N in I2. rewrite !Q2R_mult, !Q2R_plus, !Q2R_opp, !Q2R_mult, N in I3.
    set (m := Q2R q) in *. set (k := INR i) in *. unfold Q2R in I1, I2, I3. cbn [Qnum Qden] in I1, I2, I3. unfold share. assert (M0 : 0 <= m) by lra.
    assert (D : 100 / (1 + m) * (1 + m) = 100) by (field; lra). set (p := 100 / (1 + m)) in *. apply Rabs_le. split; apply Rmult_le_reg_r with (1 + m); try lra; lra.
Qed.

(** *** A concrete figure: a cold trap at the pole, a crater and a basin of 2000 km on the
    equator. *)
Definition wide : raw := mk_raw "W" 0 0 0 0 2000 (38 / 10) (1 / 10) (1 / 10).
Lemma wide_sane x : 0 <= x < 1 -> distances_sane (rcfg0 true) lin_ppf isort_age [faustini; wide] [basin_b] (same x).
Proof.
  intros Hx. constructor.
  - constructor; [exact isort_age_ok|exact lin_support|intros k i; exact Hx|reflexivity|]. repeat constructor; cbn; lra.
  - repeat constructor; cbn; intuition discriminate.
  - repeat constructor; cbn [wide faustini basin_b w_diam]; lra.
Qed.
Lemma wide_share b : share_of (rcfg0 true) [faustini; wide] [basin_b] b (share (oberbeck (rcfg0 true) (PI * 1737400 / 2))).
Proof.
  exists (if b then basin_b else wide), "Faustini"%string, (PI * 1737400 / 2). split; [destruct b; cbn; auto|]. split; [cbn; auto|]. split; [|reflexivity].
  pose proof PI2_3_2. pose proof PI_4. unfold apart. destruct b; cbn [app find faustini wide basin_b w_name String.eqb Ascii.eqb Bool.eqb w_lon w_lat w_psr_lon w_psr_lat fst snd negb];
    rewrite quarter; cbv zeta; unfold radius; cbn [w_diam fst snd wide basin_b rcfg0 r_basinthr r_ejthr];
    (assert (Rltb (2000 * 1000 / 2) (PI * 1737400 / 2) = true) as -> by (apply Rltb_true; lra)); cbn [andb].
  - assert (Rltb 5 0 = false) as -> by (apply Rltb_false; lra). assert (Rltb (PI * 1737400 / 2) (5 * (2000 * 1000 / 2)) = true) as -> by (apply Rltb_true; lra). reflexivity.
  - assert (Rltb 4 0 = false) as -> by (apply Rltb_false; lra). assert (Rltb (PI * 1737400 / 2) (4 * (2000 * 1000 / 2)) = true) as -> by (apply Rltb_true; lra). reflexivity.
Qed.
Lemma wide_figure mean std : ~ In 100 (t_temps mean) -> ~ In 100 (t_temps std) -> t_mrs mean <> [] ->
  exists g, volatilized_fraction_bsed (rcfg0 true) lin_ppf isort_age [faustini; wide] [basin_b] (same (1 / 2)) mean std = Ok g.
Proof.
  intros A B C. destruct (volatile_ok _ _ _ _ _ _ mean std (wide_sane (1 / 2) ltac:(lra))) as [(_ & g & E & _)|(N & _)]; [eauto|].
  destruct N. repeat split; auto; eexists; apply wide_share.
Qed.
Lemma regular_no_100 s t : regular s t -> ~ In 100 (t_temps t) /\ t_mrs t <> [].
Proof.
  intros (Hs & T & (rest & M) & _). split; [|congruence]. intros I. rewrite T in I. apply in_map_iff in I as (j & Q & _). pose proof (pos_INR j). nra.
Qed.

(** A table of four entries in steps of 10 K. *)
Definition small : table := mk_table [0; 1] [120; 130] [[1 / 4; 1]; [0; 1 / 2]].
Lemma small_regular : regular 10 small.
Proof.
  split; [lra|]. split; [cbn; repeat f_equal; lra|]. split; [eexists; reflexivity|]. split; [repeat constructor; lra|]. split; [reflexivity|]. repeat constructor.
Qed.
Example C96_case : exists c ppf sort craters basins entropy g, distances_sane c ppf sort craters basins entropy /\ 0 < mr_a (r_bsed c) /\
  volatilized_fraction_bsed c ppf sort craters basins entropy small small = Ok g /\ pixel (f_mean g) 125 75 100 /\ pixel (f_std g) 115 25 0 /\ pixel (f_mean g) 105 60 0.
Proof.
  destruct (regular_no_100 _ _ small_regular) as [N M]. destruct (wide_figure small small N N M) as (g & E). pose proof (wide_sane (1 / 2) ltac:(lra)) as S.
  exists (rcfg0 true), lin_ppf, isort_age, [faustini; wide], [basin_b], (same (1 / 2)), g. split; [exact S|]. split; [cbn; lra|]. split; [exact E|].
  pose proof (C96_colours _ _ _ _ _ _ _ _ _ _ S E small_regular small_regular eq_refl eq_refl) as H. cbv zeta in H. change (length (t_mrs small)) with 2%nat in H. cbn [INR] in H.
  destruct (H _ _ (or_introl eq_refl)) as [_ H1]. destruct (H _ _ (or_intror eq_refl)) as [_ H2]. split; [|split].
  - destruct (H1 0%nat 125 75 ltac:(lia) ltac:(cbn [INR]; lra)) as [Q _]. replace 100 with (100 * 1) by lra. apply (Q 1%nat 130 1); [reflexivity|exists [1 / 4; 1]; auto|lra].
  - destruct (H2 1%nat 115 25 ltac:(lia) ltac:(cbn [INR]; lra)) as [Q _]. replace 0 with (100 * 0) by lra. apply (Q 0%nat 120 0); [reflexivity|exists [0; 1 / 2]; auto|lra].
  - destruct (H1 0%nat 105 60 ltac:(lia) ltac:(cbn [INR]; lra)) as [_ Q]. apply Q; [discriminate|lra].
Qed.
(** Without basins there is no figure. *)
Example C96_case_error : exists c ppf sort craters entropy, distances_sane c ppf sort craters [] entropy /\
  volatilized_fraction_bsed c ppf sort craters [] entropy small small = Err ValueError.
Proof.
  pose proof (two_sane (1 / 2) ltac:(lra)) as S. exists (rcfg0 true), lin_ppf, isort_age, [faustini; amundsen], (same (1 / 2)). split; [exact S|].
  destruct (volatile_ok _ _ _ _ _ _ small small S) as [((_ & _ & _ & _ & p & w & n & d & [] & _) & _)|(_ & E)]. exact E.
Qed.

(** The shipped table, shown with itself in place of the deviations. *)
Lemma shipped_pixel q c ppf sort craters basins entropy g : melt_table melt_mean_csv = Ok q -> distances_sane c ppf sort craters basins entropy ->
  forall std, volatilized_fraction_bsed c ppf sort craters basins entropy (real_table q) std = Ok g ->
  forall i j temp v x y, (i < 40)%nat -> nth_error (q_temps q) j = Some temp -> (exists row, nth_error (q_vals q) i = Some row /\ nth_error row j = Some v) ->
  100 - 100 * (INR i + 1) / 40 < y < 100 - 100 * INR i / 40 -> Q2R temp - 5 < x < Q2R temp -> forall u, pixel (f_mean g) x y u <-> u = 100 * Q2R v.
Proof.
  intros Hq S std E i j temp v x y Hi Hj (row & Hr & Hv) Hy Hx. destruct C96_shipped as (q' & Hq' & Rg & Lm & Lt & _).
  assert (q' = q) as -> by congruence. destruct (figure_holds _ _ _ _ _ _ _ _ _ S E) as (I1 & _). pose proof Rg as Rg'. destruct Rg' as (_ & _ & _ & _ & K2 & K3).
  assert (P : pixel (f_mean g) x y (100 * Q2R v)).
  { pose proof (regular_pixel 5 _ _ _ Rg I1 K2 K3) as Q. cbv zeta in Q. rewrite Lm in Q. replace (INR 40) with 40 in Q by (cbn; lra). destruct (Q i x y Hi Hy) as [Q1 _].
    apply (Q1 j (Q2R temp)); [|exists (map Q2R row)|exact Hx]; cbn [real_table t_temps t_vals]; rewrite !nth_error_map; [now rewrite Hj|rewrite Hr, Hv; auto]. }
  intros u. split; [|intros ->; exact P]. intros Pu. eapply (pixel_unique (f_mean g) (1 + 81)); [|exact Pu|exact P].
  intros r I. rewrite (io_rows _ _ _ _ I1) in I. apply in_map_iff in I as (r0 & <- & Ir). cbn [length Nat.add]. rewrite map_length. rewrite Forall_forall in K3. now rewrite K3, Lt.
Qed.

(** Refuted: "the image shows the fraction that the model of melting gives".  With the
    shipped table it shows 100 % for 107 K and 99 % ejecta; the fraction is 0 below 110 K. *)
Theorem C96_cold_refuted : forall q c ppf sort craters basins entropy std g, melt_table melt_mean_csv = Ok q -> distances_sane c ppf sort craters basins entropy ->
  volatilized_fraction_bsed c ppf sort craters basins entropy (real_table q) std = Ok g ->
  exists mr temp, 0 <= mr /\ pixel (f_mean g) temp (share mr) 100 /\
    forall rnd pick max_iter seed, rounds 1000 rnd -> picks pick -> melt_default rnd pick max_iter mr temp seed = Ok 0.
Proof.
  intros q c ppf sort craters basins entropy std g Hq S E. exists (1 / 99), 107. split; [lra|]. split.
  - assert (q = mtable) as -> by (assert (L : melt_table melt_mean_csv = Ok mtable) by (vm_compute; reflexivity); congruence).
    assert (B : nth_error (q_temps mtable) 0 = Some (inject_Z 110)) by (vm_compute; reflexivity).
    assert (D : exists row, nth_error (q_vals mtable) 0 = Some row /\ nth_error row 0 = Some (inject_Z 1)) by (eexists; split; vm_compute; reflexivity).
    apply (shipped_pixel _ _ _ _ _ _ _ _ Hq S _ E 0 0 _ _ 107 (share (1 / 99)) ltac:(lia) B D); unfold share, Q2R, inject_Z; cbn [INR Qnum Qden]; lra.
  - intros rnd pick max_iter seed Hr Hp. apply cold_default; auto; lra.
Qed.

(** Refuted: "the image shows the entry of the nearest column and row".  With the shipped
    table it shows 67.6 % for 111 K and 97.4 % ejecta, where the entry for 110 K and 97.5 % is
    0. *)
Theorem C96_nearest_refuted : forall q c ppf sort craters basins entropy std g, melt_table melt_mean_csv = Ok q -> distances_sane c ppf sort craters basins entropy ->
  volatilized_fraction_bsed c ppf sort craters basins entropy (real_table q) std = Ok g ->
  pixel (f_mean g) 111 (974 / 10) (676 / 10) /\ (forall v, pixel (f_mean g) 111 (974 / 10) v -> v = 676 / 10) /\
  exists mr, nth_error (t_mrs (real_table q)) 1 = Some mr /\ Rabs (share mr - 975 / 10) < 1 / 100 /\ nth_error (t_temps (real_table q)) 0 = Some 110 /\ entry (t_vals (real_table q)) 1 0 0.
Proof.
  intros q c ppf sort craters basins entropy std g Hq S E.
  assert (q = mtable) as -> by (assert (L : melt_table melt_mean_csv = Ok mtable) by (vm_compute; reflexivity); congruence).
  assert (B : nth_error (q_temps mtable) 1 = Some (inject_Z 115)) by (vm_compute; reflexivity).
  assert (D : exists row, nth_error (q_vals mtable) 1 = Some row /\ nth_error row 1 = Some (676 # 1000)%Q) by (eexists; split; vm_compute; reflexivity).
  assert (K : forall u, pixel (f_mean g) 111 (974 / 10) u <-> u = 100 * Q2R (676 # 1000)).
  { apply (shipped_pixel _ _ _ _ _ _ _ _ Hq S _ E 1 1 _ _ 111 (974 / 10) ltac:(lia) B D); unfold Q2R, inject_Z; cbn [INR Qnum Qden]; lra. }
  assert (V : 100 * Q2R (676 # 1000) = 676 / 10) by (unfold Q2R; cbn [Qnum Qden]; lra). rewrite V in K.
  split; [now apply K|]. split; [intros v; apply K|]. exists (Q2R (25641 # 1000000)). cbn [real_table t_mrs t_temps t_vals]. rewrite !nth_error_map.
  assert (A1 : nth_error (q_mrs mtable) 1 = Some (25641 # 1000000)%Q) by (vm_compute; reflexivity). rewrite A1. split; [reflexivity|]. split.
  { unfold share, Q2R. cbn [Qnum Qden]. apply Rabs_def1; lra. }
  assert (A2 : nth_error (q_temps mtable) 0 = Some (inject_Z 110)) by (vm_compute; reflexivity). rewrite A2. split; [cbn [option_map]; f_equal; unfold Q2R, inject_Z; cbn [Qnum Qden]; lra|].
  assert (A3 : exists row, nth_error (q_vals mtable) 1 = Some row /\ nth_error row 0 = Some (inject_Z 0)) by (eexists; split; vm_compute; reflexivity).
  destruct A3 as (row & H1 & H2). exists (map Q2R row). rewrite !nth_error_map, H1, H2. split; [reflexivity|]. cbn [option_map]. f_equal. unfold Q2R, inject_Z. cbn [Qnum Qden]. lra.
Qed.

(** Refuted: "at the share of ejecta of a row the image shows that row", for tables of other
    ratios: the rows of the image are evenly spaced.  Here the colour at 25 % is the one of
    the row for 10 %. *)
Definition sparse : table := mk_table [0; 3; 9] [110] [[1]; [1 / 2]; [0]].
Theorem C96_rows_refuted : exists c ppf sort craters basins entropy mean g mr v, distances_sane c ppf sort craters basins entropy /\
  volatilized_fraction_bsed c ppf sort craters basins entropy mean mean = Ok g /\
  nth_error (t_mrs mean) 1 = Some mr /\ nth_error (t_temps mean) 0 = Some 110 /\ entry (t_vals mean) 1 0 v /\ 0 < v /\
  pixel (f_mean g) 109 (share mr) 0 /\ forall u, pixel (f_mean g) 109 (share mr) u -> u = 0.
Proof.
  assert (Rg : regular 5 sparse).
  { split; [lra|]. split; [cbn; repeat f_equal; lra|]. split; [eexists; reflexivity|]. split; [repeat constructor; lra|]. split; [reflexivity|]. repeat constructor. }
  destruct (regular_no_100 _ _ Rg) as [N M]. destruct (wide_figure sparse sparse N N M) as (g & E). pose proof (wide_sane (1 / 2) ltac:(lra)) as S.
  exists (rcfg0 true), lin_ppf, isort_age, [faustini; wide], [basin_b], (same (1 / 2)), sparse, g, 3, (1 / 2).
  pose proof (C96_colours _ _ _ _ _ _ _ _ _ _ S E Rg Rg eq_refl eq_refl) as H. cbv zeta in H. change (length (t_mrs sparse)) with 3%nat in H.
  destruct (H _ _ (or_introl eq_refl)) as [U H1]. destruct (H1 2%nat 109 (share 3) ltac:(lia) ltac:(unfold share; cbn [INR]; lra)) as [Q _].
  assert (P : pixel (f_mean g) 109 (share 3) 0).
  { replace 0 with (100 * 0) by lra. apply (Q 0%nat 110 0); [reflexivity|exists [0]; auto|lra]. }
  split; [exact S|]. split; [exact E|]. split; [reflexivity|]. split; [reflexivity|]. split; [exists [1 / 2]; auto|]. split; [lra|]. split; [exact P|].
  intros u Hu. exact (U _ _ _ _ Hu P).
Qed.

Print Assumptions C96_figure.
Print Assumptions C96_fixed.
Print Assumptions C96_lines.
Print Assumptions C96_colours.
Print Assumptions C96_shipped.
Print Assumptions C96_cold_refuted.
Print Assumptions C96_nearest_refuted.
Print Assumptions C96_rows_refuted.
