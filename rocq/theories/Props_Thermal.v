(** The conduction model and the melt fraction tables made with it. *)
From Coq Require Import List ZArith Reals Lia Lra Bool Permutation.
From Verif Require Import Base Proofs_Base Proofs_Time Model_Ice Proofs_Ice Model_Thermal Spec_Thermal
  Proofs_Thermal Proofs_Pool.
Import ListNotations.
Open Scope R_scope.

(** *** C49: one step of conduction *)

(** It is defined for two elements or more. *)
Theorem C49_defined : forall T, (exists T', heat1d_finite_diff T = Ok T') <-> (2 <= length T)%nat.
Proof.
  intros T. split.
  - intros (T' & H). now apply heat_Ok in H.
  - intros H. destruct (heat_spec T H) as (T' & E & _). eauto.
Qed.
(** Each new temperature is a weighted mean of the old one and of its two neighbours on the
    ring, with the same weight, not 0 and less than 1/2, for both neighbours. *)
Theorem C49_neighbours : forall T T' i, within 15 720 T -> heat1d_finite_diff T = Ok T' -> (i < length T)%nat ->
  length T' = length T /\
  exists w, 0 < w < 1 / 2 /\
    nth i T' 0 = w * nth (before (length T) i) T 0 + (1 - 2 * w) * nth i T 0 + w * nth (after (length T) i) T 0.
Proof.
  intros T T' i W H I. apply heat_Ok in H as (L & L' & N). split; [exact L'|].
  exists (coef (nth i T 0)). split; [apply coef_bounds, (within_nth _ _ _ _ W I)|].
  specialize (N i I). rewrite (nth_error_nth_ T' i 0) in N by lia. injection N as ->. reflexivity.
Qed.
(** So no temperature leaves the old range, from 15 K to 720 K, however often it is applied. *)
Theorem C49_maximum : forall lo hi k T, 15 <= lo -> hi <= 720 -> (2 <= length T)%nat -> within lo hi T ->
  exists T', steps k T = Ok T' /\ length T' = length T /\ within lo hi T'.
Proof. intros lo hi k T Hlo Hhi L W. now apply steps_within. Qed.
(** Equal temperatures stay. *)
Theorem C49_uniform : forall t n k, (2 <= n)%nat -> steps k (repeat t n) = Ok (repeat t n).
Proof. intros t n k H. induction k as [|k IH]; [reflexivity|]. cbn [steps]. now rewrite heat_uniform. Qed.

Lemma coef_45 : coef 45 = 938313776000000 / 6100963614867051.
Proof. unfold coef, thermal_diffusivity, thermal_conductivity, sphc. field. Qed.
Lemma coef_510 : coef 510 = 32082616000000 / 177128314323723.
Proof. unfold coef, thermal_diffusivity, thermal_conductivity, sphc. field. Qed.
Lemma coef_800 : coef 800 = 96918700000 / 159514671393.
Proof. unfold coef, thermal_diffusivity, thermal_conductivity, sphc. field. Qed.
Lemma two_elements a b : heat1d_finite_diff [a; b] =
  Ok [a + 2 * coef a * (b - a); b + 2 * coef b * (a - b)].
Proof.
  unfold heat1d_finite_diff. cbn -[coef Rmult Rplus Rminus IZR]. f_equal.
  f_equal; [ring|]. f_equal. ring.
Qed.
Example C49_case : within 45 510 [45; 510] /\ exists a b,
  heat1d_finite_diff [45; 510] = Ok [a; b] /\ 188 < a < 189 /\ 341 < b < 342.
Proof.
  split; [repeat constructor; lra|]. rewrite two_elements, coef_45, coef_510.
  do 2 eexists. split; [reflexivity|]. split; lra.
Qed.
(** Above that range the step is unstable: it gives a temperature below absolute zero. *)
Theorem C49_hot_refuted : exists T T' t, within 45 800 T /\ heat1d_finite_diff T = Ok T' /\ In t T' /\ t < 0.
Proof.
  exists [800; 45]. do 2 eexists. split; [repeat constructor; lra|].
  split; [apply two_elements|]. split; [left; reflexivity|]. rewrite coef_800. lra.
Qed.
(** "assume closed system" fails: the hot element loses more than three times the heat that
    the cold one gains, because each uses its own conductivity. *)
Lemma heat_content_is : forall t, derivable_pt_lim heat_content t (sphc t).
Proof.
  intros t.
  assert (P : forall c n, derivable_pt_lim (fun t => c * t ^ (S n)) t (c * (INR (S n) * t ^ n))).
  { intros c n. apply (derivable_pt_lim_scal (fun t => t ^ S n) c). apply (derivable_pt_lim_pow t (S n)). }
  assert (E : forall f g l, (forall x, f x = g x) -> derivable_pt_lim f t l -> derivable_pt_lim g t l).
  { intros f g l Q D eps He. destruct (D eps He) as [d Hd]. exists d. intros h H1 H2. rewrite <- !Q. auto. }
  pose proof (derivable_pt_lim_plus _ _ _ _ _
    (derivable_pt_lim_plus _ _ _ _ _
      (derivable_pt_lim_plus _ _ _ _ _
        (derivable_pt_lim_plus _ _ _ _ _ (P (- (36125 / 10000)) 0%nat) (P (27431 / 10000 / 2) 1%nat))
        (P (23616 / 10000000 / 3) 2%nat))
      (P (- (1234 / 100000000 / 4)) 3%nat))
    (P (89093 / 10000000000000 / 5) 4%nat)) as D.
  eapply E in D; [|intros x; instantiate (1 := heat_content); unfold plus_fct, heat_content; field].
  match type of D with derivable_pt_lim _ _ ?l => replace (sphc t) with l; [exact D|] end.
  unfold sphc. rewrite ?S_INR. cbn [INR]. field.
Qed.
(** A step does not conserve heat: the warm element loses more than three times what the
    cold one gains. *)
Theorem C49_closed_system_refuted : exists a b a' b',
  heat1d_finite_diff [a; b] = Ok [a'; b'] /\
  0 < heat_content a' - heat_content a /\
  3 * (heat_content a' - heat_content a) < heat_content b - heat_content b'.
Proof.
  exists 45, 510. do 2 eexists. split; [apply two_elements|]. rewrite coef_45, coef_510.
  unfold heat_content. split; lra.
Qed.

(** *** C50: the melt fraction of a column *)

(** What it returns.  [k] of the [n] elements are ejecta: the whole part of [n / (1 + mr)].
    If all are, the answer is 1 or 0 by the temperature of the ejecta.  Otherwise
    conduction is applied to the column until a reason to stop or the limit comes up, and
    the answer is the part of the other elements that were at the melting temperature or
    above after some step. *)
Theorem C50_meaning : forall rnd pick mr ejecta_t0 target_t0 melt_t n eq_thresh max_iter seed,
  rounds n rnd -> picks pick -> 0 <= mr ->
  exists k, (k <= n)%nat /\ INR k <= rnd (INR n * rnd (1 / rnd (1 + mr))) < INR k + 1 /\
  let out := melt_frac_teq_1d rnd pick mr ejecta_t0 target_t0 melt_t n eq_thresh max_iter seed in
  (k = n -> out = Ok (if Rle_dec melt_t ejecta_t0 then 1 else 0)) /\
  ((k < n)%nat ->
   exists T s, let ej := pick seed k n in
     T O = start_column n ej ejecta_t0 target_t0 /\
     (forall j, (j < s)%nat -> heat1d_finite_diff (T j) = Ok (T (S j))) /\
     (s <= max_iter)%nat /\ (s = max_iter \/ stopped melt_t eq_thresh n ej T s) /\
     (forall j, (j < s)%nat -> ~ stopped melt_t eq_thresh n ej T j) /\
     out = Ok (INR (length (target_melted melt_t n ej T s)) / INR (n - k))).
Proof.
  intros rnd pick mr ejecta_t0 target_t0 melt_t n eq_thresh max_iter seed RN PK H.
  destruct (pixels_spec rnd n mr RN H) as (k & EK & LK & B). exists k. split; [exact LK|]. split; [exact B|].
  cbv zeta. split.
  - intros ->. unfold melt_frac_teq_1d. rewrite EK. cbn [bind]. rewrite Z.eqb_refl. unfold Rleb.
    now destruct (Rle_dec melt_t ejecta_t0).
  - intros L.
    destruct (frac_spec rnd pick mr ejecta_t0 target_t0 melt_t n eq_thresh seed k PK EK L max_iter) as (s & S1 & S2 & S3 & S4).
    exists (states (start_column n (pick seed k n) ejecta_t0 target_t0)), s.
    split; [reflexivity|]. split; [intros j J; now apply S4|]. split; [exact S1|]. split; [exact S3|].
    split; [intros j J; now apply S4|exact S2].
Qed.
(** Always a fraction: never an exception, never a division by zero. *)
Theorem C50_fraction : forall rnd pick mr ejecta_t0 target_t0 melt_t n eq_thresh max_iter seed,
  rounds n rnd -> picks pick -> 0 <= mr ->
  exists x, melt_frac_teq_1d rnd pick mr ejecta_t0 target_t0 melt_t n eq_thresh max_iter seed = Ok x /\ 0 <= x <= 1.
Proof.
  intros rnd pick mr ejecta_t0 target_t0 melt_t n eq_thresh max_iter seed RN PK H.
  destruct (pixels_spec rnd n mr RN H) as (k & EK & LK & B).
  destruct (Nat.eq_dec k n) as [->|NE].
  - unfold melt_frac_teq_1d. rewrite EK. cbn [bind]. rewrite Z.eqb_refl. eexists. split; [reflexivity|].
    destruct (Rleb melt_t ejecta_t0); lra.
  - assert (L : (k < n)%nat) by lia.
    destruct (frac_spec rnd pick mr ejecta_t0 target_t0 melt_t n eq_thresh seed k PK EK L max_iter) as (s & S1 & S2 & _).
    eexists. split; [exact S2|].
    pose proof (target_bound pick ejecta_t0 target_t0 melt_t n seed k PK L s) as TB.
    apply le_INR in TB. pose proof (pos_INR (length (target_melted melt_t n (pick seed k n)
      (states (start_column n (pick seed k n) ejecta_t0 target_t0)) s))) as P0.
    set (c := INR (length _)) in *. clearbody c.
    assert (P : 0 < INR (n - k)) by (apply lt_0_INR; lia). set (d := INR (n - k)) in *. clearbody d.
    split.
    + apply Rmult_le_reg_r with d; [exact P|]. unfold Rdiv. rewrite Rmult_assoc, Rinv_l by lra. lra.
    + apply Rmult_le_reg_r with d; [exact P|]. unfold Rdiv. rewrite Rmult_assoc, Rinv_l by lra. lra.
Qed.
(** Nothing melts when neither the ejecta nor the target is hot enough. *)
Theorem C50_cold : forall rnd pick mr ejecta_t0 target_t0 melt_t n eq_thresh max_iter seed,
  rounds n rnd -> picks pick -> 0 <= mr -> ejecta_t0 < melt_t -> target_t0 < melt_t ->
  melt_frac_teq_1d rnd pick mr ejecta_t0 target_t0 melt_t n eq_thresh max_iter seed = Ok 0.
Proof.
  intros rnd pick mr ejecta_t0 target_t0 melt_t n eq_thresh max_iter seed RN PK H He Ht.
  destruct (pixels_spec rnd n mr RN H) as (k & EK & LK & B).
  destruct (Nat.eq_dec k n) as [->|NE].
  - unfold melt_frac_teq_1d. rewrite EK. cbn [bind]. rewrite Z.eqb_refl.
    destruct (Rleb melt_t ejecta_t0) eqn:E; [apply Rleb_true in E; lra|reflexivity].
  - assert (L : (k < n)%nat) by lia.
    destruct (frac_spec rnd pick mr ejecta_t0 target_t0 melt_t n eq_thresh seed k PK EK L max_iter) as (s & S1 & S2 & S3 & S4).
    destruct s as [|s].
    + rewrite S2. f_equal. unfold target_melted, has_melted. cbn [seq existsb].
      replace (filter _ (seq 0 n)) with (@nil nat); [cbn; unfold Rdiv; ring|].
      symmetry. generalize (seq 0 n). intros l. induction l as [|x l IH]; [reflexivity|]. cbn [filter].
      now rewrite andb_false_r.
    + exfalso. apply (proj1 (S4 O ltac:(lia))). right. left. cbn [states]. unfold start_column.
      apply Forall_forall. intros t I. apply in_map_iff in I as (i & <- & _). now destruct (existsb _ _).
Qed.
(** Nor when the ejecta is just at the melting temperature, unless there is nothing else. *)
Theorem C50_at_melting : forall rnd pick mr ejecta_t0 target_t0 melt_t n eq_thresh max_iter seed k,
  rounds n rnd -> picks pick -> 0 <= mr -> ejecta_pixels rnd n mr = Ok k -> (k < Z.of_nat n)%Z ->
  15 <= ejecta_t0 <= melt_t -> 15 <= target_t0 < melt_t -> melt_t <= 720 ->
  melt_frac_teq_1d rnd pick mr ejecta_t0 target_t0 melt_t n eq_thresh max_iter seed = Ok 0.
Proof.
  intros rnd pick mr ejecta_t0 target_t0 melt_t n eq_thresh max_iter seed z RN PK H EZ LZ He Ht Hm.
  destruct (pixels_spec rnd n mr RN H) as (k & EK & LK & B).
  assert (z = Z.of_nat k) by congruence. subst z.
  apply frac_zero with (k := k); [exact PK|exact EK|lia|].
  set (ej := pick seed k n). set (T := states (start_column n ej ejecta_t0 target_t0)).
  assert (INV : forall j, (forall j', (j' < j)%nat -> heat1d_finite_diff (T j') = Ok (T (S j'))) ->
    within 15 melt_t (T j) /\ forall i t, ~ In i ej -> nth_error (T j) i = Some t -> t < melt_t).
  { induction j as [|j IH]; intros HS.
    - unfold T. cbn [states]. unfold start_column. split.
      + apply Forall_forall. intros t I. apply in_map_iff in I as (i & <- & _). destruct (existsb _ ej); lra.
      + intros i t NI E. rewrite nth_error_map, nth_error_seq0 in E. destruct (Nat.ltb i n); [|discriminate].
        cbn [option_map] in E. injection E as <-. destruct (existsb (Nat.eqb i) ej) eqn:X; [|lra].
        apply existsb_In in X. contradiction.
    - destruct IH as [W N]; [intros j' J; apply HS; lia|].
      specialize (HS j ltac:(lia)). split; [eapply heat_within; [| |exact W|exact HS]; lra|].
      apply heat_Ok in HS as (L2 & L3 & V). intros i t NI E.
      assert (I : (i < length (T j))%nat) by (rewrite <- L3; apply nth_error_Some; congruence).
      rewrite (V i I) in E. injection E as <-. unfold new_value. cbv zeta.
      pose proof (within_nth _ _ _ _ W I) as B1.
      pose proof (within_nth _ _ _ _ W (before_lt _ _ I)) as B2.
      pose proof (within_nth _ _ _ _ W (after_lt _ _ I)) as B3.
      pose proof (N i _ NI (nth_error_nth_ (T j) i 0 I)) as B4.
      pose proof (coef_bounds (nth i (T j) 0) ltac:(lra)) as C.
      set (c := coef _) in *. clearbody c.
      set (x := nth i (T j) 0) in *. set (y := nth (before _ _) _ _) in *. set (w := nth (after _ _) _ _) in *.
      clearbody x y w. nra. }
  intros j i t _ HS NI E. destruct (INV j HS) as [_ N]. eauto.
Qed.
(** More time melts no less: an element that melted stays melted. *)
Theorem C50_more_time : forall rnd pick mr ejecta_t0 target_t0 melt_t n eq_thresh m m' seed x x',
  rounds n rnd -> picks pick -> 0 <= mr -> (m <= m')%nat ->
  melt_frac_teq_1d rnd pick mr ejecta_t0 target_t0 melt_t n eq_thresh m seed = Ok x ->
  melt_frac_teq_1d rnd pick mr ejecta_t0 target_t0 melt_t n eq_thresh m' seed = Ok x' -> x <= x'.
Proof.
  intros rnd pick mr ejecta_t0 target_t0 melt_t n eq_thresh m m' seed x x' RN PK H M E E'.
  destruct (pixels_spec rnd n mr RN H) as (k & EK & LK & B).
  destruct (Nat.eq_dec k n) as [->|NE].
  - unfold melt_frac_teq_1d in E, E'. rewrite EK in E, E'. cbn [bind] in E, E'. rewrite Z.eqb_refl in E, E'.
    assert (x = x') by congruence. lra.
  - assert (L : (k < n)%nat) by lia.
    destruct (frac_spec rnd pick mr ejecta_t0 target_t0 melt_t n eq_thresh seed k PK EK L m) as (s & S1 & S2 & S3 & S4).
    destruct (frac_spec rnd pick mr ejecta_t0 target_t0 melt_t n eq_thresh seed k PK EK L m') as (s' & S1' & S2' & S3' & S4').
    assert (SS : (s <= s')%nat).
    { destruct (Nat.le_gt_cases s s') as [Q|Q]; [exact Q|]. exfalso.
      destruct S3' as [S3'|S3']; [lia|]. now apply (proj1 (S4 s' Q)). }
    pose proof (target_mono pick ejecta_t0 target_t0 melt_t n seed k s s' SS) as TM. apply le_INR in TM.
    assert (Q : x = INR (length (target_melted melt_t n (pick seed k n)
      (states (start_column n (pick seed k n) ejecta_t0 target_t0)) s)) / INR (n - k)) by congruence.
    assert (Q' : x' = INR (length (target_melted melt_t n (pick seed k n)
      (states (start_column n (pick seed k n) ejecta_t0 target_t0)) s')) / INR (n - k)) by congruence.
    rewrite Q, Q'. unfold Rdiv. apply Rmult_le_compat_r; [|exact TM].
    apply Rlt_le, Rinv_0_lt_compat, lt_0_INR. lia.
Qed.
(** A mixing ratio of -1 is a division by zero. *)
Theorem C50_minus_one : forall rnd pick ejecta_t0 target_t0 melt_t n eq_thresh max_iter seed, rounds n rnd ->
  melt_frac_teq_1d rnd pick (-1) ejecta_t0 target_t0 melt_t n eq_thresh max_iter seed = Err ZeroDivisionError.
Proof.
  intros rnd pick ejecta_t0 target_t0 melt_t n eq_thresh max_iter seed [_ X].
  unfold melt_frac_teq_1d, ejecta_pixels. replace (1 + -1) with (INR 0) by (cbn; ring).
  rewrite (X O) by lia. destruct (Reqb (INR 0) 0) eqn:E; [reflexivity|]. now apply Reqb_false in E.
Qed.

(** Any other negative mixing ratio that asks for more elements than there are, or for a
    negative number of them, is refused. *)
Theorem C50_negative : forall rnd pick mr ejecta_t0 target_t0 melt_t n eq_thresh max_iter seed,
  rnd (1 + mr) <> 0 ->
  let pixels := rnd (INR n * rnd (1 / rnd (1 + mr))) in
  INR n + 1 <= pixels \/ pixels <= -1 ->
  melt_frac_teq_1d rnd pick mr ejecta_t0 target_t0 melt_t n eq_thresh max_iter seed = Err ValueError.
Proof.
  intros rnd pick mr ejecta_t0 target_t0 melt_t n eq_thresh max_iter seed N pixels H.
  unfold melt_frac_teq_1d, ejecta_pixels. fold pixels. clearbody pixels.
  destruct (Reqb (rnd (1 + mr)) 0) eqn:E; [apply Reqb_true in E; contradiction|]. cbn [bind].
  assert (T : (Z.of_nat n < truncZ pixels \/ truncZ pixels < 0)%Z).
  { pose proof (Int_part_bounds pixels) as B. pose proof (Int_part_bounds (- pixels)) as B'.
    pose proof (pos_INR n). destruct H as [H|H].
    - left. rewrite truncZ_pos by lra. apply lt_IZR. rewrite <- INR_IZR_INZ. lra.
    - right. unfold truncZ. rewrite (proj2 (Rltb_true _ _)) by lra. assert (0 < Int_part (- pixels))%Z by (apply lt_IZR; lra). lia. }
  unfold rand_positions. pose proof (Nat2Z.is_nonneg n).
  destruct (Z.eqb_spec (truncZ pixels) (Z.of_nat n)); [lia|].
  destruct (Z.ltb_spec (truncZ pixels) 0); [reflexivity|].
  destruct (Z.ltb_spec (Z.of_nat n) (truncZ pixels)); [reflexivity|]. lia.
Qed.
Example C50_negative_case : let rnd := fun x : R => x in
  rnd (1 + -1 / 2) <> 0 /\ INR 2 + 1 <= rnd (INR 2 * rnd (1 / rnd (1 + -1 / 2))).
Proof. cbn. split; [lra|]. replace (1 + -1 / 2) with (/ 2) by lra. unfold Rdiv. rewrite Rinv_inv. lra. Qed.

(** The first [k] positions: a possible choice. *)
Definition first_ones (seed : Z) (k n : nat) : list nat := seq 0 k.
Lemma first_ones_picks : picks first_ones.
Proof.
  intros seed k n H. unfold first_ones. split; [apply seq_length|]. split; [apply seq_NoDup|].
  apply Forall_forall. intros i I. apply in_seq in I. lia.
Qed.
Lemma exact_rounds n : rounds n (fun x => x).
Proof. split; auto. Qed.
Lemma half_of_two : ejecta_pixels (fun x => x) 2 1 = Ok (Z.of_nat 1).
Proof.
  unfold ejecta_pixels. destruct (Reqb (1 + 1) 0) eqn:E; [apply Reqb_true in E; lra|]. f_equal.
  replace (INR 2 * (1 / (1 + 1))) with 1 by (cbn; field). rewrite truncZ_pos by lra.
  apply Int_part_unique. change (IZR (Z.of_nat 1)) with 1. lra.
Qed.
Lemma two_frac e t m q it sd : melt_frac_teq_1d (fun x => x) first_ones 1 e t m 2 q it sd =
  let* (_, melted) := melt_loop m q it [e; t] [true; false] in
  Ok (IZR (Z.of_nat (count_true melted) - 1) / IZR 1).
Proof. unfold melt_frac_teq_1d. rewrite half_of_two. reflexivity. Qed.
Lemma one_step_melts fuel : exists T, melt_loop 110 1 (S fuel) [510; 45] [true; false] = Ok (T, [true; true]).
Proof.
  cbn [melt_loop]. cbn [forallb flat orb andb].
  destruct (Rltb 510 110) eqn:E1'; [apply Rltb_true in E1'; lra|]. cbn [andb orb].
  destruct (Rltb (Rabs (45 - 510)) 1) eqn:E2'.
  { apply Rltb_true in E2'. rewrite Rabs_left in E2' by lra. lra. }
  cbn [andb orb]. rewrite two_elements. cbn [bind combine map]. rewrite coef_45, coef_510.
  match goal with |- context [Rleb 110 (45 + ?x)] => assert (Q : Rleb 110 (45 + x) = true) by (apply Rleb_true; lra) end.
  rewrite Q. clear Q.
  match goal with |- context [Rleb 110 (510 + ?x)] => assert (Q : Rleb 110 (510 + x) = true) by (apply Rleb_true; lra) end.
  rewrite Q. destruct fuel; cbn [melt_loop forallb andb orb]; eexists; reflexivity.
Qed.
(** One hot and one cold element: the cold one melts in the first step; not if it has no time. *)
Example C50_case : rounds 2 (fun x => x) /\ picks first_ones /\
  melt_frac_teq_1d (fun x => x) first_ones 1 510 45 110 2 1 5 0 = Ok 1 /\
  melt_frac_teq_1d (fun x => x) first_ones 1 510 45 110 2 1 0 0 = Ok 0 /\
  melt_frac_teq_1d (fun x => x) first_ones 1 100 45 110 2 1 5 0 = Ok 0.
Proof.
  split; [apply exact_rounds|]. split; [apply first_ones_picks|].
  split; [|split; [|apply C50_cold; [apply exact_rounds|apply first_ones_picks| | |]; lra]]; rewrite two_frac.
  - destruct (one_step_melts 4) as (T & ->). cbn [bind]. f_equal. change (IZR (Z.of_nat (count_true [true; true]) - 1)) with 1. field.
  - cbn [melt_loop bind]. f_equal. change (IZR (Z.of_nat (count_true [true; false]) - 1)) with 0. field.
Qed.
(** "Fraction heated above melt_t": a target that is hot from the start counts as not melted
    when it is in equilibrium with the ejecta. *)
Theorem C50_hot_target_refuted : exists rnd pick, rounds 2 rnd /\ picks pick /\
  forall max_iter seed, melt_frac_teq_1d rnd pick 1 200 200 110 2 1 max_iter seed = Ok 0.
Proof.
  exists (fun x => x), first_ones. split; [apply exact_rounds|]. split; [apply first_ones_picks|].
  intros max_iter seed. rewrite two_frac.
  assert (E : melt_loop 110 1 max_iter [200; 200] [true; false] = Ok ([200; 200], [true; false])).
  { destruct max_iter; [reflexivity|]. cbn [melt_loop forallb flat orb andb].
    destruct (Rltb 200 110) eqn:E1'; [apply Rltb_true in E1'; lra|]. cbn [andb orb].
    destruct (Rltb (Rabs (200 - 200)) 1) eqn:E2'; [reflexivity|].
    apply Rltb_false in E2'. rewrite Rminus_diag_eq, Rabs_R0 in E2' by reflexivity. lra. }
  rewrite E. cbn [bind]. f_equal. change (IZR (Z.of_nat (count_true [true; false]) - 1)) with 0. field.
Qed.

(** *** C51: any number of processes *)

(** The same array, whatever the number of processes and the order in which they report. *)
Theorem C51_same : forall f mrs temps seeds ncpus order out, (1 < ncpus)%Z -> mrs <> [] -> reports ncpus mrs order ->
  get_melt_frac_arr f order mrs temps seeds (Some ncpus) = Ok out <->
  get_melt_frac_arr f [] mrs temps seeds (Some 1%Z) = Ok out.
Proof.
  intros f mrs temps seeds ncpus order out Hc Hm P. unfold get_melt_frac_arr.
  destruct (Z.leb_spec ncpus 1); [lia|]. change (1 <=? 1)%Z with true. cbv iota.
  pose proof (starmap_spec (parallel_melt_frac f temps seeds) (Z.to_nat ncpus) order mrs ltac:(lia) P) as S.
  destruct (mapM (parallel_melt_frac f temps seeds) mrs) as [bs|e] eqn:E.
  - rewrite S. cbn [bind]. destruct bs as [|b bs]; [|reflexivity].
    apply mapM_Ok_nth in E as [L _]. destruct mrs; [contradiction|discriminate].
  - destruct S as (e' & a & -> & _). cbn [bind]. split; discriminate.
Qed.
(** If one entry fails so does the whole, with the exception of a failing entry. *)
Theorem C51_errors : forall f mrs temps seeds ncpus order e, (1 < ncpus)%Z -> mrs <> [] -> reports ncpus mrs order ->
  get_melt_frac_arr f order mrs temps seeds (Some ncpus) = Err e ->
  exists mr t s, In mr mrs /\ In t temps /\ In s seeds /\ f mr t s = Err e.
Proof.
  intros f mrs temps seeds ncpus order e Hc Hm P H. unfold get_melt_frac_arr in H.
  destruct (Z.leb_spec ncpus 1); [lia|].
  pose proof (starmap_spec (parallel_melt_frac f temps seeds) (Z.to_nat ncpus) order mrs ltac:(lia) P) as S.
  destruct (mapM (parallel_melt_frac f temps seeds) mrs) as [bs|e1] eqn:E.
  - rewrite S in H. cbn [bind] in H. apply mapM_Ok_nth in E as [L _].
    destruct bs; [destruct mrs; [contradiction|discriminate]|discriminate].
  - destruct S as (e' & mr & S1 & I & S3). rewrite S1 in H. cbn [bind] in H. injection H as ->.
    apply mapM_Err in S3 as (t & It & S4). apply mapM_Err in S4 as (s & Is & S5). exists mr, t, s. auto.
Qed.
(** Entry [i, j, k] of the array is the run for the [i]-th ratio, [j]-th temperature and
    [k]-th seed. *)
Theorem C51_entries : forall f mrs temps seeds ncpus order out, mrs <> [] ->
  (forall n, ncpus = Some n -> reports n mrs order) ->
  get_melt_frac_arr f order mrs temps seeds ncpus = Ok out ->
  forall i j k mr t s, nth_error mrs i = Some mr -> nth_error temps j = Some t -> nth_error seeds k = Some s ->
  exists plane row x, nth_error out i = Some plane /\ nth_error plane j = Some row /\ nth_error row k = Some x /\
    f mr t s = Ok x /\ length out = length mrs /\ length plane = length temps /\ length row = length seeds.
Proof.
  intros f mrs temps seeds ncpus order out Hm P H i j k mr t s Ei Ej Ek.
  assert (E : mapM (parallel_melt_frac f temps seeds) mrs = Ok out).
  { unfold get_melt_frac_arr in H. destruct ncpus as [n|]; [|exact H].
    destruct (Z.leb_spec n 1) as [L|L]; [exact H|].
    pose proof (proj1 (C51_same f mrs temps seeds n order out L Hm (P n eq_refl))) as Q.
    unfold get_melt_frac_arr in Q. destruct (Z.leb_spec n 1); [lia|]. now apply Q. }
  apply mapM_Ok_nth in E as [L1 N1]. destruct (N1 i mr Ei) as (plane & Ep & E2).
  apply mapM_Ok_nth in E2 as [L2 N2]. destruct (N2 j t Ej) as (row & Er & E3).
  apply mapM_Ok_nth in E3 as [L3 N3]. destruct (N3 k s Ek) as (x & Ex & E4).
  exists plane, row, x. repeat split; assumption.
Qed.
Definition toy (mr t : R) (s : Z) : result R := Ok (mr + t + IZR s).
Example C51_case : reports 2 [0; 1; 2; 3; 4; 5; 6; 7; 8] [3; 0; 4; 2; 1]%nat /\
  exists out, get_melt_frac_arr toy [3; 0; 4; 2; 1]%nat [0; 1; 2; 3; 4; 5; 6; 7; 8] [100] [0; 1]%Z (Some 2%Z) = Ok out.
Proof.
  split; [|eexists; reflexivity]. unfold reports. cbv zeta.
  match goal with |- Permutation _ (seq 0 ?k) => replace k with 5%nat by reflexivity end. cbn [seq].
  apply NoDup_Permutation; [repeat constructor; cbn; intuition lia|repeat constructor; cbn; intuition lia|].
  intros x. cbn. intuition lia.
Qed.
(** Except for no ratio at all: an empty array from one process, an exception from several. *)
Theorem C51_empty_refuted : forall f temps seeds,
  get_melt_frac_arr f [] [] temps seeds (Some 1%Z) = Ok [] /\
  get_melt_frac_arr f [] [] temps seeds (Some 2%Z) = Err ValueError.
Proof. intros f temps seeds. split; reflexivity. Qed.

(** *** C71: the tables *)

Lemma planes f order ncpu mrs temps seeds out : mrs <> [] -> reports ncpu mrs order ->
  get_melt_frac_arr f order mrs temps seeds (Some ncpu) = Ok out ->
  length out = length mrs /\
  forall i plane, nth_error out i = Some plane ->
    exists mr, nth_error mrs i = Some mr /\ length plane = length temps /\
    forall j row, nth_error plane j = Some row ->
      exists t, nth_error temps j = Some t /\ length row = length seeds /\
      forall k x, nth_error row k = Some x -> exists s, nth_error seeds k = Some s /\ f mr t s = Ok x.
Proof.
  intros Hm P H.
  assert (E : mapM (parallel_melt_frac f temps seeds) mrs = Ok out).
  { destruct (Z.leb_spec ncpu 1) as [L|L].
    - unfold get_melt_frac_arr in H. destruct (Z.leb_spec ncpu 1); [exact H|lia].
    - apply (C51_same f mrs temps seeds ncpu order out L Hm P) in H. exact H. }
  assert (G : forall A B (g : A -> result B) l bs, mapM g l = Ok bs -> length bs = length l /\
     forall i b, nth_error bs i = Some b -> exists a, nth_error l i = Some a /\ g a = Ok b).
  { clear. intros A B g l bs M. apply mapM_Ok_nth in M as [L N]. split; [exact L|]. intros i b Eb.
    destruct (nth_error l i) as [a|] eqn:Ea.
    - destruct (N i a Ea) as (b' & Eb' & Eg). exists a. split; [reflexivity|]. congruence.
    - apply nth_error_None in Ea. assert (i < length bs)%nat by (apply nth_error_Some; congruence). lia. }
  apply G in E as [L1 N1]. split; [exact L1|]. intros i plane Ei. destruct (N1 i plane Ei) as (mr & Em & E2).
  exists mr. split; [exact Em|]. apply G in E2 as [L2 N2]. split; [exact L2|]. intros j row Ej.
  destruct (N2 j row Ej) as (t & Et & E3). exists t. split; [exact Et|]. apply G in E3 as [L3 N3]. split; [exact L3|].
  intros k x Ek. apply (N3 k x Ek).
Qed.

(** One row per mixing ratio and one column per temperature; means from 0 to 1, deviations
    from 0 to 1/2, none missing. *)
Theorem C71_tables : forall fmt rnd pick max_iter order ncpu mrs temps nseed parallel,
  formats fmt -> rounds 1000 rnd -> picks pick -> mrs <> [] -> Forall (fun mr => 0 <= mr) mrs -> (0 < nseed)%nat ->
  reports ncpu mrs order ->
  exists means devs,
    make_melt_frac_dfs fmt (melt_default rnd pick max_iter) order ncpu mrs temps nseed parallel = Ok (means, devs) /\
    length means = length mrs /\ length devs = length mrs /\
    Forall (fun row => length row = length temps /\ Forall (fun v => exists x, v = Some x /\ 0 <= x <= 1) row) means /\
    Forall (fun row => length row = length temps /\ Forall (fun v => exists x, v = Some x /\ 0 <= x <= 1 / 2) row) devs.
Proof.
  intros fmt rnd pick max_iter order ncpu mrs temps nseed parallel FM RN PK Hm Fm Hs P.
  set (f := melt_default rnd pick max_iter).
  assert (FR : forall mr t s, In mr mrs -> exists x, f mr t s = Ok x /\ 0 <= x <= 1).
  { intros mr t s I. rewrite Forall_forall in Fm. unfold f, melt_default. now apply C50_fraction; auto. }
  set (seeds := map Z.of_nat (seq 0 nseed)).
  assert (MS : exists out, mapM (parallel_melt_frac f temps seeds) mrs = Ok out).
  { assert (T : forall A B (g : A -> result B) l, (forall a, In a l -> exists b, g a = Ok b) -> exists bs, mapM g l = Ok bs).
    { clear. intros A B g. induction l as [|a l IH]; intros H; [eexists; reflexivity|]. cbn [mapM].
      destruct (H a (or_introl eq_refl)) as (b & ->). destruct IH as (bs & ->); [intros a' I; apply H; now right|].
      eexists; reflexivity. }
    apply T. intros mr I. apply T. intros t _. apply T. intros s _. destruct (FR mr t s I) as (x & E & _). eauto. }
  destruct MS as (out & MS).
  assert (G : exists nc, (if parallel then ncpu else 1%Z) = nc /\ get_melt_frac_arr f order mrs temps seeds (Some nc) = Ok out /\
    length out = length mrs /\
    Forall (Forall (fun row => row <> [] /\ Forall (fun x => 0 <= x <= 1) row)) out /\
    Forall (fun plane => length plane = length temps) out).
  { assert (G1 : forall nc, nc = 1%Z \/ nc = ncpu -> get_melt_frac_arr f order mrs temps seeds (Some nc) = Ok out).
    { intros nc Q. destruct (Z.leb_spec nc 1) as [L|L].
      - unfold get_melt_frac_arr. destruct (Z.leb_spec nc 1); [exact MS|lia].
      - destruct Q as [ -> | -> ]; [lia|]. apply (C51_same f mrs temps seeds ncpu order out L Hm P). exact MS. }
    exists (if parallel then ncpu else 1%Z). split; [reflexivity|]. split; [apply G1; destruct parallel; auto|].
    destruct (planes f order ncpu mrs temps seeds out Hm P (G1 ncpu (or_intror eq_refl))) as [L N].
    split; [exact L|]. split.
    - apply Forall_nth_iff. intros i plane Ei. destruct (N i plane Ei) as (mr & Em & _ & N2).
      apply Forall_nth_iff. intros j row Ej. destruct (N2 j row Ej) as (t & Et & L3 & N3). split.
      + intros ->. unfold seeds in L3. rewrite map_length, seq_length in L3. cbn in L3. lia.
      + apply Forall_nth_iff. intros k x Ek. destruct (N3 k x Ek) as (s & _ & E).
        destruct (FR mr t s (nth_error_In _ _ Em)) as (x' & E' & B). assert (x = x') by congruence. now subst.
    - apply Forall_nth_iff. intros i plane Ei. now destruct (N i plane Ei) as (mr & _ & L2 & _). }
  destruct G as (nc & Enc & G1 & L & F1 & F2). unfold make_melt_frac_dfs. rewrite Enc. fold seeds. fold f. rewrite G1. cbn [bind].
  do 2 eexists. split; [reflexivity|]. rewrite !map_length. split; [exact L|]. split; [exact L|].
  destruct FM as (M & F0 & FH & F1').
  rewrite !Forall_map. split; (eapply Forall_impl; [|exact (Forall_and F1 F2)]); cbv beta; intros plane [A1 A2];
    rewrite map_length; (split; [exact A2|]); rewrite Forall_map; (eapply Forall_impl; [|exact A1]); cbv beta;
    intros row [R1 R2].
  - destruct (mean_bounds row R1 R2) as (m & -> & B1 & B2). exists (fmt m). split; [reflexivity|].
    split; [rewrite <- F0; now apply M|rewrite <- F1'; now apply M].
  - destruct (std_bounds row R1 R2) as (m & -> & B1 & B2). exists (fmt m). split; [reflexivity|].
    split; [rewrite <- F0; now apply M|rewrite <- FH; now apply M].
Qed.
(** Each entry is the mean, or the standard deviation, over the seeds 0, ..., nseed - 1. *)
Theorem C71_entries : forall fmt f order ncpu mrs temps nseed parallel means devs,
  mrs <> [] -> (0 < nseed)%nat -> reports ncpu mrs order ->
  make_melt_frac_dfs fmt f order ncpu mrs temps nseed parallel = Ok (means, devs) ->
  forall i j mr t, nth_error mrs i = Some mr -> nth_error temps j = Some t ->
  exists xs mrow drow, length xs = nseed /\
    (forall k x, nth_error xs k = Some x -> f mr t (Z.of_nat k) = Ok x) /\
    nth_error means i = Some mrow /\ nth_error devs i = Some drow /\
    let m := Rsum xs / INR nseed in
    nth_error mrow j = Some (Some (fmt m)) /\
    nth_error drow j = Some (Some (fmt (sqrt (Rsum (map (fun x => (x - m) ^ 2) xs) / INR nseed)))).
Proof.
  intros fmt f order ncpu mrs temps nseed parallel means devs Hm Hs P H i j mr t Ei Ej.
  unfold make_melt_frac_dfs in H. set (seeds := map Z.of_nat (seq 0 nseed)) in *.
  destruct (get_melt_frac_arr f order mrs temps seeds _) as [out|] eqn:G; [|discriminate]. cbn [bind] in H.
  assert (Q : forall (a b c d : list (list (option R))), Ok (a, b) = Ok (c, d) -> c = a /\ d = b) by (intros; split; congruence).
  apply Q in H as [-> ->]. clear Q.
  assert (E : mapM (parallel_melt_frac f temps seeds) mrs = Ok out).
  { unfold get_melt_frac_arr in G. destruct (Z.leb_spec (if parallel then ncpu else 1%Z) 1) as [L|L]; [exact G|].
    destruct parallel; [|lia].
    pose proof (proj1 (C51_same f mrs temps seeds ncpu order out L Hm P)) as Q.
    unfold get_melt_frac_arr in Q. destruct (Z.leb_spec ncpu 1); [lia|]. now apply Q. }
  apply mapM_Ok_nth in E as [L1 N1]. destruct (N1 i mr Ei) as (plane & Ep & E2).
  apply mapM_Ok_nth in E2 as [L2 N2]. destruct (N2 j t Ej) as (row & Er & E3).
  apply mapM_Ok_nth in E3 as [L3 N3]. unfold seeds in L3. rewrite map_length, seq_length in L3.
  exists row, (map (fun s => option_map fmt (mean s)) plane), (map (fun s => option_map fmt (std s)) plane).
  split; [exact L3|]. split.
  { intros k x Ex. assert (K : (k < nseed)%nat) by (rewrite <- L3; apply nth_error_Some; congruence).
    destruct (N3 k (Z.of_nat k)) as (x' & Ex' & Ef).
    - unfold seeds. rewrite nth_error_map, nth_error_seq0. destruct (Nat.ltb_spec k nseed); [reflexivity|lia].
    - congruence. }
  rewrite !nth_error_map, Ep. cbn [option_map]. split; [reflexivity|]. split; [reflexivity|]. cbv zeta.
  rewrite Er. cbn [option_map]. unfold std.
  assert (M : mean row = Some (Rsum row / INR nseed)).
  { rewrite <- L3. destruct row; [cbn in L3; lia|reflexivity]. }
  rewrite M, L3. split; reflexivity.
Qed.
Lemma cold_default rnd pick max_iter mr t seed : rounds 1000 rnd -> picks pick -> 0 <= mr -> t < 110 ->
  melt_default rnd pick max_iter mr t seed = Ok 0.
Proof. intros RN PK H Ht. apply C50_cold; [exact RN|exact PK|exact H|exact Ht|lra]. Qed.
(** In the tables of the model, the entries for ejecta colder than 110 K are 0. *)
Theorem C71_cold : forall fmt rnd pick max_iter order ncpu mrs temps nseed parallel means devs,
  formats fmt -> rounds 1000 rnd -> picks pick -> mrs <> [] -> Forall (fun mr => 0 <= mr) mrs -> (0 < nseed)%nat ->
  reports ncpu mrs order ->
  make_melt_frac_dfs fmt (melt_default rnd pick max_iter) order ncpu mrs temps nseed parallel = Ok (means, devs) ->
  forall i j mr t, nth_error mrs i = Some mr -> nth_error temps j = Some t -> t < 110 ->
  exists mrow drow, nth_error means i = Some mrow /\ nth_error devs i = Some drow /\
    nth_error mrow j = Some (Some 0) /\ nth_error drow j = Some (Some 0).
Proof.
  intros fmt rnd pick max_iter order ncpu mrs temps nseed parallel means devs FM RN PK Hm Fm Hs P H i j mr t Ei Ej Ht.
  destruct (C71_entries fmt _ order ncpu mrs temps nseed parallel means devs Hm Hs P H i j mr t Ei Ej)
    as (xs & mrow & drow & L & X & E1' & E2' & E3' & E4'). exists mrow, drow. split; [exact E1'|]. split; [exact E2'|].
  assert (Z0 : Forall (fun x => x = 0) xs).
  { apply Forall_nth_iff. intros k x Ex. specialize (X k x Ex). rewrite Forall_forall in Fm.
    rewrite (cold_default rnd pick max_iter mr t (Z.of_nat k) RN PK (Fm mr (nth_error_In _ _ Ei)) Ht) in X.
    injection X as <-. reflexivity. }
  assert (NE : xs <> []) by (intros ->; cbn in L; lia).
  destruct (mean_const xs 0 NE Z0) as [M S]. unfold std in S. rewrite M in S.
  assert (M' : Rsum xs / INR nseed = 0).
  { rewrite <- L. destruct xs; [contradiction|]. cbn [mean] in M. congruence. }
  rewrite M' in E3', E4'. rewrite <- L in E4'.
  assert (S' : sqrt (Rsum (map (fun x => (x - 0) ^ 2) xs) / INR (length xs)) = 0) by congruence.
  rewrite S' in E4'. destruct FM as (_ & F0 & _). rewrite F0 in E3', E4'. auto.
Qed.
Example C71_case : formats (fun x => x) /\ rounds 1000 (fun x => x) /\ picks first_ones /\
  reports 4 [0; 1] [1; 0]%nat /\ Forall (fun mr => 0 <= mr) [0; 1].
Proof.
  split; [repeat split; auto|]. split; [apply exact_rounds|]. split; [apply first_ones_picks|].
  split; [cbn; constructor|]. repeat constructor; lra.
Qed.

Print Assumptions C49_defined.
Print Assumptions C49_neighbours.
Print Assumptions C49_maximum.
Print Assumptions C49_uniform.
Print Assumptions C49_hot_refuted.
Print Assumptions C49_closed_system_refuted.
Print Assumptions C50_meaning.
Print Assumptions C50_fraction.
Print Assumptions C50_cold.
Print Assumptions C50_at_melting.
Print Assumptions C50_more_time.
Print Assumptions C50_minus_one.
Print Assumptions C50_negative.
Print Assumptions C50_hot_target_refuted.
Print Assumptions C51_same.
Print Assumptions C51_errors.
Print Assumptions C51_entries.
Print Assumptions C51_empty_refuted.
Print Assumptions C71_tables.
Print Assumptions C71_entries.
Print Assumptions C71_cold.
