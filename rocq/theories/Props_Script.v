(** C101: the melt fraction tables made by the script fit the runs that use them. *)
From Coq Require Import ZArith Bool String List Reals Sorted Lra Lia Psatz.
From Verif Require Import Base Proofs_Base Model_Time Model_Geo Model_Interp Model_Crater Model_Ice Model_Rng Model_Strat Model_Melt Model_Main
  Spec_Time Spec_Ice Spec_Melt Spec_Main Proofs_Time Proofs_Ice Proofs_Rng Proofs_Main Proofs_Shipped
  Model_Thermal Spec_Thermal Proofs_Thermal Proofs_Pool Props_Thermal Props_Rng Props_Melt Props_Main Model_Script.
Import ListNotations.
Open Scope R_scope.

(** Printing with six digits, as far as it is used. *)
Definition prints (fmt : R -> R) : Prop :=
  formats fmt /\
  (forall z, (0 <= z < 1000000)%Z -> fmt (IZR z) = IZR z) /\
  (forall x, 1 / 1000 <= x -> x * (1 - 1 / 100000) <= fmt x <= x * (1 + 1 / 100000)).

(** Rounding of floats, as far as it is used. *)
Definition close (rnd : R -> R) : Prop := forall x, 0 <= x -> x * (1 - 1 / 1000) <= rnd x <= x * (1 + 1 / 1000).

(** The options of the ballistic sedimentation module that say where the table is read have
    their default values; the others are any. *)
Definition default_mixing (b : bcfg) : Prop :=
  mr_a b = 183 / 10000 /\ mr_b b = 87 / 100 /\ temp_init b = 140 /\ temp_warm b = 420 /\ temp_cold b = 260 /\
  0 <= frac_lost b <= 1.

Definition mr_i (i : nat) : R := INR i / (40 - INR i).
Definition t_i (i : nat) : R := IZR (110 + 5 * Z.of_nat i).
Lemma mrs_are : script_mrs = map mr_i (seq 0 40).
Proof.
  unfold script_mrs, script_fracs. rewrite map_map. apply map_ext_in. intros i I. apply in_seq in I as [_ I].
  apply lt_INR in I. replace (INR (0 + 40)) with 40 in I by (rewrite INR_IZR_INZ; cbn; lra).
  unfold mr_i. replace (INR 40) with 40 by (rewrite INR_IZR_INZ; cbn; lra). field. lra.
Qed.
Lemma temps_are : script_temps = map t_i (seq 0 81).
Proof.
  unfold script_temps. apply map_ext. intros i. unfold t_i. replace (INR (81 - 1)) with 80 by (rewrite INR_IZR_INZ; cbn; lra).
  rewrite plus_IZR, mult_IZR, <- INR_IZR_INZ. field.
Qed.
Lemma mr_range i : (i < 40)%nat -> 0 <= mr_i i /\ ((0 < i)%nat -> 1 / 39 <= mr_i i).
Proof.
  intros I. assert (J : INR i <= 39) by (replace 39 with (INR 39) by (rewrite INR_IZR_INZ; cbn; lra); apply le_INR; lia).
  pose proof (pos_INR i). unfold mr_i. split; [apply Rmult_le_pos; [lra|left; apply Rinv_0_lt_compat; lra]|].
  intros P. assert (1 <= INR i) by (replace 1 with (INR 1) by reflexivity; apply le_INR; lia).
  apply Rmult_le_reg_r with (40 - INR i); [lra|]. unfold Rdiv. rewrite (Rmult_assoc (INR i)), Rinv_l by lra. nra.
Qed.
Lemma nth_seq_map {A} (f : nat -> A) n i : (i < n)%nat -> nth_error (map f (seq 0 n)) i = Some (f i).
Proof. intros I. rewrite nth_error_map, nth_error_seq0. destruct (Nat.ltb_spec i n); [reflexivity|lia]. Qed.
Lemma sorted_map (f : nat -> R) : forall n a, (forall i j, (a <= i < j)%nat -> (j < a + n)%nat -> f i < f j) -> StronglySorted Rlt (map f (seq a n)).
Proof.
  induction n as [|n IH]; intros a H; cbn [seq map]; constructor.
  - apply IH. intros i j A B. apply H; lia.
  - apply Forall_forall. intros x X. apply in_map_iff in X as (j & <- & J). apply in_seq in J. apply H; lia.
Qed.
Lemma mr_sorted fmt : prints fmt -> StronglySorted Rlt (map fmt script_mrs).
Proof.
  intros ((_ & F0 & _) & _ & FR). rewrite mrs_are, map_map. apply sorted_map. intros i j A B.
  assert (J : INR j <= 39) by (replace 39 with (INR 39) by (rewrite INR_IZR_INZ; cbn; lra); apply le_INR; lia).
  assert (IJ : INR i + 1 <= INR j) by (rewrite <- S_INR; apply le_INR; lia). pose proof (pos_INR i) as I0.
  destruct (mr_range j) as [J0 J1]; [lia|]. specialize (J1 ltac:(lia)). destruct (FR (mr_i j)) as [L _]; [lra|].
  destruct (Nat.eq_dec i 0) as [->|N].
  - unfold mr_i at 1. cbn [INR]. replace (0 / (40 - 0)) with 0 by field. rewrite F0. nra.
  - destruct (mr_range i) as [_ J2]; [lia|]. specialize (J2 ltac:(lia)). destruct (FR (mr_i i)) as [_ U]; [lra|].
    eapply Rle_lt_trans; [exact U|]. eapply Rlt_le_trans; [|exact L]. unfold mr_i.
    apply Rmult_lt_reg_r with ((40 - INR i) * (40 - INR j)); [apply Rmult_lt_0_compat; lra|].
    replace (INR i / (40 - INR i) * (1 + 1 / 100000) * ((40 - INR i) * (40 - INR j))) with (INR i * (40 - INR j) * (1 + 1 / 100000)) by (field; lra).
    replace (INR j / (40 - INR j) * (1 - 1 / 100000) * ((40 - INR i) * (40 - INR j))) with (INR j * (40 - INR i) * (1 - 1 / 100000)) by (field; lra).
    assert (INR i * (40 - INR j) <= 1600) by nra. assert (INR j * (40 - INR i) <= 1600) by nra. nra.
Qed.
Lemma temps_back fmt : prints fmt -> map fmt script_temps = script_temps.
Proof.
  intros (_ & FZ & _). rewrite temps_are, map_map. apply map_ext_in. intros i I. apply in_seq in I. apply FZ. lia.
Qed.
Lemma entries_ok (P : R -> Prop) row : Forall (fun v => exists x, v = Some x /\ P x) row ->
  exists r, mapM entry row = Ok r /\ row = map Some r /\ Forall P r.
Proof.
  induction 1 as [|v row (x & -> & X) _ (r & E & -> & F)]; [exists []; repeat split; constructor|].
  exists (x :: r). cbn [mapM entry bind]. rewrite E. cbn [bind map]. repeat split; auto.
Qed.
Lemma rows_ok (P : R -> Prop) n rows : Forall (fun row => length row = n /\ Forall (fun v => exists x, v = Some x /\ P x) row) rows ->
  exists r, mapM (mapM entry) rows = Ok r /\ rows = map (map Some) r /\ Forall (fun row => length row = n /\ Forall P row) r.
Proof.
  induction 1 as [|v row (L & X) _ (r & E & -> & F)]; [exists []; repeat split; constructor|].
  destruct (entries_ok P v X) as (x & E' & -> & FX). rewrite map_length in L.
  exists (x :: r). cbn [mapM bind]. rewrite E'. cbn [bind]. rewrite E. cbn [bind map]. repeat split; auto.
Qed.

Section Script.
Context (fmt rnd : R -> R) (pick : Z -> nat -> nat -> list nat) (max_iter : nat) (order : list nat) (ncpu : Z).
Context (FM : prints fmt) (RN : rounds 1000 rnd) (PK : picks pick) (RP : reports ncpu script_mrs order).

Lemma mrs_ne : script_mrs <> []. Proof. rewrite mrs_are. discriminate. Qed.
Lemma mrs_pos : Forall (fun mr => 0 <= mr) script_mrs.
Proof. rewrite mrs_are. apply Forall_forall. intros x X. apply in_map_iff in X as (i & <- & I). apply in_seq in I. apply mr_range. lia. Qed.

Lemma script_ok : exists mean dev, script_tables fmt (melt_default rnd pick max_iter) order ncpu = Ok (mean, dev) /\
  t_mrs mean = map fmt script_mrs /\ t_temps mean = script_temps /\ length (t_vals mean) = 40%nat /\
  Forall (fun row => length row = 81%nat /\ Forall (fun v => 0 <= v <= 1) row) (t_vals mean) /\
  t_mrs dev = t_mrs mean /\ t_temps dev = t_temps mean /\
  (forall i j, (i < 40)%nat -> (j < 81)%nat -> exists row xs, nth_error (t_vals mean) i = Some row /\ length xs = 20%nat /\
     (forall k x, nth_error xs k = Some x -> melt_default rnd pick max_iter (mr_i i) (t_i j) (Z.of_nat k) = Ok x) /\
     nth_error row j = Some (fmt (Rsum xs / INR 20)) /\
     exists row', nth_error (t_vals dev) i = Some row' /\
       nth_error row' j = Some (fmt (sqrt (Rsum (map (fun x => (x - Rsum xs / INR 20) ^ 2) xs) / INR 20)))).
Proof.
  assert (NS : (0 < script_nseed)%nat) by (unfold script_nseed; lia).
  destruct (C71_tables fmt rnd pick max_iter order ncpu script_mrs script_temps script_nseed true (proj1 FM) RN PK mrs_ne mrs_pos NS RP)
    as (means & devs & E & L1 & L2 & F1 & F2).
  pose proof (C71_entries fmt _ order ncpu script_mrs script_temps script_nseed true means devs mrs_ne NS RP E) as EN.
  destruct (rows_ok _ _ _ F1) as (m & M1 & M2 & M3). destruct (rows_ok _ _ _ F2) as (d & D1 & D2 & D3).
  unfold script_tables. rewrite E. cbn [bind]. rewrite M1. cbn [bind]. rewrite D1. cbn [bind].
  eexists _, _. split; [reflexivity|]. cbn [t_mrs t_temps t_vals]. split; [reflexivity|]. split; [apply temps_back, FM|].
  subst means. rewrite map_length in L1. split; [rewrite L1, mrs_are, map_length, seq_length; reflexivity|].
  split; [rewrite temps_are, map_length, seq_length in M3; exact M3|].
  split; [reflexivity|]. split; [reflexivity|].
  intros i j I J. destruct (EN i j (mr_i i) (t_i j)) as (xs & mrow & drow & X1 & X2 & X3 & X5 & X4 & X6).
  { rewrite mrs_are. now apply nth_seq_map. }
  { rewrite temps_are. now apply nth_seq_map. }
  rewrite nth_error_map in X3. destruct (nth_error m i) as [row|]; [|discriminate]. cbn [option_map] in X3.
  assert (mrow = map Some row) by congruence. subst mrow. rewrite nth_error_map in X4.
  destruct (nth_error row j) as [v|] eqn:Ev; [|discriminate]. cbn [option_map] in X4.
  exists row, xs. split; [reflexivity|]. split; [exact X1|]. split; [exact X2|].
  change script_nseed with 20%nat in X4, X6. split; [congruence|]. subst devs.
  rewrite nth_error_map in X5. destruct (nth_error d i) as [row'|]; [|discriminate]. cbn [option_map] in X5.
  assert (drow = map Some row') by congruence. subst drow. rewrite nth_error_map in X6.
  destruct (nth_error row' j) as [v'|] eqn:Ev'; [|discriminate]. cbn [option_map] in X6.
  exists row'. split; [reflexivity|]. congruence.
Qed.
End Script.

(** The tables are made whatever the random positions and whatever the processors report
    first, and any run with the table of means and the default options for reading it meets
    what the theorems about runs ask of the table. *)
Theorem C101_sane : forall fmt rnd pick max_iter order ncpu,
  prints fmt -> rounds 1000 rnd -> picks pick -> reports ncpu script_mrs order ->
  exists mean dev, script_tables fmt (melt_default rnd pick max_iter) order ncpu = Ok (mean, dev) /\
    forall c, r_melt c = mean -> default_mixing (r_bsed c) -> bsed_sane c.
Proof.
  intros fmt rnd pick max_iter order ncpu FM RN PK RP.
  destruct (script_ok fmt rnd pick max_iter order ncpu FM RN PK RP) as (mean & dev & E & A1 & A2 & A3 & A4 & _ & _ & _).
  exists mean, dev. split; [exact E|]. intros c Ec (B1 & B2 & B3 & B4 & B5 & B6) _. cbv zeta. rewrite Ec.
  assert (W1 : forall x, 0 <= x <= 39 -> Spec_Melt.within (t_mrs mean) x).
  { intros x X. exists 0, 39. rewrite A1, mrs_are, map_map. split; [|split; [|exact X]]; apply in_map_iff.
    - exists O. split; [|apply in_seq; lia]. unfold mr_i. cbn [INR]. replace (0 / (40 - 0)) with 0 by field. destruct FM as ((_ & F0 & _) & _). exact F0.
    - exists 39%nat. split; [|apply in_seq; lia]. unfold mr_i. replace (INR 39) with 39 by (rewrite INR_IZR_INZ; cbn; lra).
      replace (39 / (40 - 39)) with 39 by field. destruct FM as (_ & FZ & _). apply (FZ 39%Z). lia. }
  assert (W2 : forall x, 110 <= x <= 510 -> Spec_Melt.within (t_temps mean) x).
  { intros x X. exists 110, 510. rewrite A2, temps_are. split; [|split; [|exact X]]; apply in_map_iff; [exists O|exists 80%nat];
      (split; [reflexivity|apply in_seq; lia]). }
  split; [|split; [|split; [exact B6|split; [|split]]]].
  - unfold good_table. rewrite A1, A2, A3. split; [rewrite mrs_are; discriminate|]. split; [rewrite temps_are; discriminate|].
    split; [now apply mr_sorted|]. split.
    + rewrite temps_are. apply sorted_map. intros i j I J. unfold t_i. apply IZR_lt. lia.
    + split; [rewrite map_length, mrs_are, map_length, seq_length; reflexivity|].
      rewrite temps_are, map_length, seq_length. eapply Forall_impl; [|exact A4]. now intros row [L _].
  - intros mr temp v (i & j & row & _ & _ & Er & Ev). rewrite Forall_forall in A4.
    destruct (A4 row (nth_error_In _ _ Er)) as [_ F]. rewrite Forall_forall in F. apply F. eapply nth_error_In; eauto.
  - intros d D. rewrite B1, B2. apply W1. pose proof (mr_bound (mr_petro (r_bsed c)) d D). lra.
  - rewrite B3. apply W2. lra.
  - rewrite B4, B5. apply W2. destruct (basin_warm (r_bsed c)); lra.
Qed.

(** The rows are the target fractions 0, 1/40, ..., 39/40 as mixing ratios and the columns the
    temperatures 110, 115, ..., 510; each entry is the mean, or the standard deviation, of
    the melt fractions of the seeds 0, ..., 19. *)
Theorem C101_entries : forall fmt rnd pick max_iter order ncpu mean dev,
  prints fmt -> rounds 1000 rnd -> picks pick -> reports ncpu script_mrs order ->
  script_tables fmt (melt_default rnd pick max_iter) order ncpu = Ok (mean, dev) ->
  length (t_mrs mean) = 40%nat /\ length (t_temps mean) = 81%nat /\
  forall i j, (i < 40)%nat -> (j < 81)%nat ->
    let frac := INR i / 40 in let mr := frac / (1 - frac) in let temp := 110 + 5 * INR j in
    exists xs, length xs = 20%nat /\
      (forall seed x, nth_error xs seed = Some x -> melt_default rnd pick max_iter mr temp (Z.of_nat seed) = Ok x) /\
      let m := Rsum xs / 20 in
      value_at mean (fmt mr) temp (fmt m) /\
      value_at dev (fmt mr) temp (fmt (sqrt (Rsum (map (fun x => (x - m) ^ 2) xs) / 20))).
Proof.
  intros fmt rnd pick max_iter order ncpu mean dev FM RN PK RP E.
  destruct (script_ok fmt rnd pick max_iter order ncpu FM RN PK RP) as (m & d & E' & A1 & A2 & A3 & A4 & D1 & D2 & A5).
  assert (m = mean) by congruence. assert (d = dev) by congruence. subst m d.
  split; [rewrite A1, mrs_are, !map_length, seq_length; reflexivity|].
  split; [rewrite A2, temps_are, map_length, seq_length; reflexivity|].
  intros i j I J frac mr temp.
  assert (EM : mr = mr_i i).
  { assert (L : INR i <= 39) by (replace 39 with (INR 39) by (rewrite INR_IZR_INZ; cbn; lra); apply le_INR; lia).
    unfold mr, frac, mr_i. field. lra. }
  assert (ET : temp = t_i j) by (unfold temp, t_i; rewrite plus_IZR, mult_IZR, <- INR_IZR_INZ; reflexivity).
  clearbody mr temp. subst mr temp.
  destruct (A5 i j I J) as (row & xs & Er & L & X & Ev & row' & Er' & Ev'). exists xs. split; [exact L|]. split; [exact X|].
  cbv zeta. replace (INR 20) with 20 in Ev, Ev' by (rewrite INR_IZR_INZ; cbn; lra).
  assert (N1 : nth_error (t_mrs mean) i = Some (fmt (mr_i i))) by (rewrite A1, mrs_are, map_map; now apply (nth_seq_map (fun x => fmt (mr_i x)))).
  assert (N2 : nth_error (t_temps mean) j = Some (t_i j)) by (rewrite A2, temps_are; now apply nth_seq_map).
  split; [exists i, j, row; auto|exists i, j, row'; rewrite D1, D2; auto].
Qed.

(** So such a run finishes. *)
Theorem C101_finishes : forall fmt rnd pick max_iter order ncpu c ppf sort craters basins u k mean dev,
  prints fmt -> rounds 1000 rnd -> picks pick -> reports ncpu script_mrs order ->
  script_tables fmt (melt_default rnd pick max_iter) order ncpu = Ok (mean, dev) ->
  r_melt c = mean -> default_mixing (r_bsed c) ->
  ice_sane c -> data_sane c (craters ++ basins) -> time_sane c (craters ++ basins) ->
  ppf_support ppf -> sorts_by_age sort -> draws u ->
  exists out k', main c ppf sort craters basins u k = Ok (out, k') /\ o_time out <> [].
Proof.
  intros fmt rnd pick max_iter order ncpu c ppf sort craters basins u k mean dev FM RN PK RP E Ec D I DS TS P S U.
  destruct (C101_sane fmt rnd pick max_iter order ncpu FM RN PK RP) as (m & d & E' & H).
  assert (m = mean) by congruence. subst m. now apply main_total; auto.
Qed.

Lemma at_labels mean fmt mr temp v : prints fmt -> t_mrs mean = map fmt script_mrs -> t_temps mean = script_temps -> value_at mean mr temp v ->
  exists i j row, (i < 40)%nat /\ (j < 81)%nat /\ mr = fmt (mr_i i) /\ temp = t_i j /\ nth_error (t_vals mean) i = Some row /\ nth_error row j = Some v.
Proof.
  intros FM A1 A2 (i & j & row & Ei & Ej & Er & Ev). rewrite A1, mrs_are, map_map in Ei. rewrite A2, temps_are in Ej.
  assert (I : (i < 40)%nat). { assert (X : nth_error (map (fun x => fmt (mr_i x)) (seq 0 40)) i <> None) by congruence. apply nth_error_Some in X. rewrite map_length, seq_length in X. exact X. }
  assert (J : (j < 81)%nat). { assert (X : nth_error (map t_i (seq 0 81)) j <> None) by congruence. apply nth_error_Some in X. rewrite map_length, seq_length in X. exact X. }
  rewrite nth_seq_map in Ei by exact I. rewrite nth_seq_map in Ej by exact J.
  exists i, j, row. repeat split; auto; congruence.
Qed.
Lemma const_mean xs x : length xs = 20%nat -> (forall k y, nth_error xs k = Some y -> y = x) -> Rsum xs / INR 20 = x.
Proof.
  intros L H. assert (F : Forall (fun y => y = x) xs) by (apply Forall_forall; intros y Y; apply In_nth_error in Y as (k & Y); eauto).
  assert (NE : xs <> []) by (intros ->; discriminate). destruct (mean_const xs x NE F) as [M _].
  rewrite <- L. destruct xs; [contradiction|]. cbn [mean] in M. congruence.
Qed.

(** Where there is no target all of it counts as melted: the row of mixing ratio 0 is 1. *)
Theorem C101_no_target : forall fmt rnd pick max_iter order ncpu mean dev temp v,
  prints fmt -> rounds 1000 rnd -> picks pick -> reports ncpu script_mrs order ->
  script_tables fmt (melt_default rnd pick max_iter) order ncpu = Ok (mean, dev) ->
  value_at mean 0 temp v -> v = 1.
Proof.
  intros fmt rnd pick max_iter order ncpu mean dev temp v FM RN PK RP E V.
  destruct (script_ok fmt rnd pick max_iter order ncpu FM RN PK RP) as (m & d & E' & A1 & A2 & _ & _ & _ & _ & A5).
  assert (m = mean) by congruence. subst m.
  destruct (at_labels mean fmt 0 temp v FM A1 A2 V) as (i & j & row & I & J & M & T & Er & Ev).
  assert (i = O). { destruct (Nat.eq_dec i 0) as [|N]; [assumption|exfalso]. destruct (mr_range i I) as [_ Q]. specialize (Q ltac:(lia)).
    destruct FM as (_ & _ & FR). destruct (FR (mr_i i)); [lra|]. nra. }
  subst i. destruct (A5 O j I J) as (row' & xs & Er' & L & X & Ev' & _). assert (row' = row) by congruence. subst row'.
  assert (Z0 : mr_i 0 = 0) by (unfold mr_i; cbn [INR]; field). rewrite Z0 in X.
  rewrite (const_mean xs 1 L) in Ev'.
  - destruct FM as ((_ & _ & _ & F1) & _). congruence.
  - intros k x Ex. specialize (X k x Ex). unfold melt_default in X.
    destruct (C50_meaning rnd pick 0 (t_i j) 45 110 1000 1 max_iter (Z.of_nat k) RN PK ltac:(lra)) as (n & Ln & B & Full & _).
    destruct RN as [_ RX]. replace (1 + 0) with (INR 1) in B by (cbn; ring). rewrite (RX 1%nat) in B by lia.
    replace (1 / INR 1) with (INR 1) in B by (cbn; field). rewrite (RX 1%nat) in B by lia.
    rewrite Rmult_1_r in B. rewrite (RX 1000%nat) in B by lia.
    assert (N : n = 1000%nat). { destruct B as [_ B]. rewrite <- S_INR in B. apply INR_lt in B. lia. }
    specialize (Full N). cbv zeta in Full. rewrite Full in X.
    destruct (Rle_dec 110 (t_i j)) as [_|Q]; [congruence|]. exfalso. apply Q. unfold t_i. apply IZR_le. lia.
Qed.

(** Ejecta no warmer than the melting temperature of 110 K melts none of the target, which is
    colder: the column of 110 K is 0 in the other rows. *)
Theorem C101_coldest : forall fmt rnd pick max_iter order ncpu mean dev mr v,
  prints fmt -> rounds 1000 rnd -> close rnd -> picks pick -> reports ncpu script_mrs order ->
  script_tables fmt (melt_default rnd pick max_iter) order ncpu = Ok (mean, dev) ->
  value_at mean mr 110 v -> mr <> 0 -> v = 0.
Proof.
  intros fmt rnd pick max_iter order ncpu mean dev mr v FM RN CL PK RP E V NZ.
  destruct (script_ok fmt rnd pick max_iter order ncpu FM RN PK RP) as (m & d & E' & A1 & A2 & _ & _ & _ & _ & A5).
  assert (m = mean) by congruence. subst m.
  destruct (at_labels mean fmt mr 110 v FM A1 A2 V) as (i & j & row & I & J & M & T & Er & Ev).
  assert (i <> O). { intros ->. apply NZ. rewrite M. unfold mr_i. cbn [INR]. replace (0 / (40 - 0)) with 0 by field. destruct FM as ((_ & F0 & _) & _). exact F0. }
  destruct (mr_range i I) as [Q0 Q]. specialize (Q ltac:(lia)).
  destruct (A5 i j I J) as (row' & xs & Er' & L & X & Ev' & _). assert (row' = row) by congruence. subst row'. rewrite <- T in X.
  rewrite (const_mean xs 0 L) in Ev'.
  - destruct FM as ((_ & F0 & _) & _). congruence.
  - intros k x Ex. specialize (X k x Ex). unfold melt_default in X.
    destruct (pixels_spec rnd 1000 (mr_i i) RN Q0) as (n & EK & LK & B).
    assert (N : (n < 1000)%nat).
    { destruct B as [B _]. set (d1 := rnd (1 + mr_i i)) in *. destruct (CL (1 + mr_i i)) as [D1 _]; [lra|]. fold d1 in D1.
      assert (D2 : 1024 / 1000 <= d1) by lra. set (q := rnd (1 / d1)) in *.
      assert (P1 : 0 < 1 / d1) by (apply Rdiv_lt_0_compat; lra).
      assert (P2 : 1 / d1 <= 977 / 1000).
      { apply Rmult_le_reg_r with d1; [lra|]. unfold Rdiv at 1. rewrite Rmult_assoc, Rinv_l by lra. lra. }
      destruct (CL (1 / d1)) as [D3 D4]; [lra|]. fold q in D3, D4.
      assert (Q3 : 0 <= q <= 978 / 1000) by lra.
      assert (T1 : INR 1000 = 1000) by (rewrite INR_IZR_INZ; reflexivity).
      destruct (CL (INR 1000 * q)) as [_ D5]; [rewrite T1; lra|].
      apply INR_lt. rewrite T1 in *. lra. }
    rewrite (C50_at_melting rnd pick (mr_i i) 110 45 110 1000 1 max_iter (Z.of_nat k) (Z.of_nat n) RN PK Q0 EK) in X; [congruence|lia|lra|lra|lra].
Qed.

(** The hypotheses hold of exact printing and rounding, any placement of the ejecta and
    processors that report in order. *)
Example C101_case : prints (fun x => x) /\ rounds 1000 (fun x => x) /\ close (fun x => x) /\ picks first_ones /\
  reports 4 script_mrs (seq 0 14).
Proof.
  split; [split; [repeat split; auto|split; [reflexivity|intros; lra]]|]. split; [apply exact_rounds|].
  split; [intros x X; lra|]. split; [apply first_ones_picks|].
  unfold reports. rewrite mrs_are, map_length, seq_length. cbn. apply Permutation.Permutation_refl.
Qed.

(** The configuration of C60 with the new table. *)
Definition with_melt (t : table) : rcfg :=
  mk_rcfg ICFG0 ["Faustini"%string] 4250000000 0 10000000 (1 / 1000000) (1 / 10) 4 5 bcfg0 t
    1 true true [(0, 7 / 10); (457 / 100, 1)] (fun _ => Some (54 / 1000)) (fun x => x).
Example C101_case_run : exists mean dev out k',
  script_tables (fun x => x) (melt_default (fun x => x) first_ones 100) (seq 0 14) 4 = Ok (mean, dev) /\
  main (with_melt mean) lin_ppf isort_age [faustini] [basin_b] tape0 0%nat = Ok (out, k') /\ o_time out <> [].
Proof.
  destruct C101_case as (FM & RN & _ & PK & RP).
  destruct (C101_sane _ _ _ 100%nat _ _ FM RN PK RP) as (mean & dev & E & _). exists mean, dev.
  destruct (C101_finishes _ _ _ _ _ _ (with_melt mean) lin_ppf isort_age [faustini] [basin_b] tape0 0%nat _ _ FM RN PK RP E) as (out & k' & M & N);
    [reflexivity|unfold default_mixing; cbn; lra| | | |exact lin_support|exact isort_age_ok|intros i; unfold tape0; lra|eauto 6].
  - destruct (rcfg0_ice true) as [A B C D]. constructor; assumption.
  - destruct (rcfg0_data true [faustini; basin_b]) as [[A B C D] _]; auto. constructor; assumption.
  - destruct (rcfg0_data true [faustini; basin_b]) as [_ [A B C]]; auto. constructor; assumption.
Qed.

Print Assumptions C101_sane.
Print Assumptions C101_entries.
Print Assumptions C101_finishes.
Print Assumptions C101_no_target.
Print Assumptions C101_coldest.
