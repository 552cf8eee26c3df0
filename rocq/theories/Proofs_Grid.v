(** Lemmas on the gridded outputs. *)
From Coq Require Import String List ZArith Reals Lia Lra Bool Permutation Sorted.
From Verif Require Import Base Model_Geo Model_Crater Model_Grid Spec_Geo Spec_Grid Proofs_Base Proofs_Geo Proofs_Scaling.
Import ListNotations.
Open Scope R_scope.

Lemma ceil_spec a b n : (0 < b)%Z -> n = (- (- a / b))%Z -> (a <= n * b < a + b)%Z.
Proof.
  intros Hb ->. pose proof (Z.mul_div_le (- a) b Hb). pose proof (Z.mul_succ_div_gt (- a) b Hb). lia.
Qed.

(** In exact integers: start + i step. *)
Lemma arange_exact rnd start stop step l : keeps_integers rnd -> step <> 0%Z ->
  arange rnd start stop step = Ok l ->
  (forall i, (0 <= i < - ((start - stop) / step))%Z -> (Z.abs (start + i * step) <= 2 ^ 24 /\ Z.abs (i * step) <= 2 ^ 24)%Z) ->
  (Z.abs start <= 2 ^ 24)%Z -> (Z.abs (start + step) <= 2 ^ 24)%Z ->
  l = map (fun i => IZR (start + Z.of_nat i * step)) (seq 0 (Z.to_nat (- ((start - stop) / step)))).
Proof.
  intros K Z0 H B B0 B1. unfold arange in H. destruct (Z.eqb_spec step 0); [contradiction|]. cbv zeta in H.
  assert (Inj : forall a b : list R, Ok a = Ok b -> a = b) by congruence. apply Inj in H. rewrite <- H. clear Inj H.
  apply map_ext_in. intros i Hi. apply in_seq in Hi.
  rewrite !(K start), !(K (start + step)%Z) by assumption.
  assert (Ii : (0 <= Z.of_nat i < - ((start - stop) / step))%Z) by lia. destruct (B _ Ii) as [C1 C2].
  destruct i as [|[|i]].
  - f_equal. lia.
  - f_equal. lia.
  - rewrite <- minus_IZR. replace (start + step - start)%Z with step by lia.
    assert (Ai : (Z.abs (Z.of_nat (S (S i))) <= 2 ^ 24)%Z) by (clear -C2 Z0; nia).
    assert (As : (Z.abs step <= 2 ^ 24)%Z) by (clear -C2 Z0; nia).
    rewrite (K step As), INR_IZR_INZ, (K _ Ai), <- mult_IZR, (K _ C2), <- plus_IZR, (K _ C1). reflexivity.
Qed.

Lemma sorted_map_seq (f : nat -> R) (lt : R -> R -> Prop) n : forall a, (forall i j, (i < j)%nat -> lt (f i) (f j)) ->
  StronglySorted lt (map f (seq a n)).
Proof.
  induction n as [|n IH]; intros a H; cbn [seq map]; constructor; auto.
  apply Forall_forall. intros v Hv. apply in_map_iff in Hv as (i & <- & Hi). apply in_seq in Hi. apply H. lia.
Qed.

Lemma axis_up rnd size step : keeps_integers rnd -> (0 <= size)%Z -> (0 < step)%Z -> (2 * size + step <= 2 ^ 24)%Z ->
  exists l, arange rnd (- size) (size + step) step = Ok l /\
    lists_integers Rlt (fun k => - size <= k < size + step /\ (step | k + size))%Z l /\
    length l = Z.to_nat (- ((- size - (size + step)) / step)).
Proof.
  intros K S0 T0 B.
  assert (exists l, arange rnd (- size) (size + step) step = Ok l) as [l Hl].
  { unfold arange. destruct (Z.eqb_spec step 0); [lia|]. eauto. }
  exists l. split; auto. set (n := (- ((- size - (size + step)) / step))%Z).
  assert (N : (2 * size + step <= n * step < 2 * size + 2 * step)%Z).
  { pose proof (ceil_spec (2 * size + step) step n T0). unfold n in *.
    replace (- size - (size + step))%Z with (- (2 * size + step))%Z in * by lia. lia. }
  assert (E : l = map (fun i => IZR (- size + Z.of_nat i * step)) (seq 0 (Z.to_nat n))).
  { eapply arange_exact; eauto; try lia. fold n. intros i Hi.
    assert (i * step <= (n - 1) * step)%Z by nia. assert (0 <= i * step)%Z by nia. lia. }
  split; [|rewrite E, map_length, seq_length; reflexivity].
  split.
  - rewrite E. apply sorted_map_seq. intros i j Hij. apply IZR_lt. nia.
  - intros v. rewrite E, in_map_iff. split.
    + intros (i & <- & Hi). apply in_seq in Hi. eexists. split; [reflexivity|].
      assert (Z.of_nat i * step <= (n - 1) * step)%Z by nia. split; [nia|]. exists (Z.of_nat i). lia.
    + intros (k & -> & (H1 & H2) & (q & Hq)). exists (Z.to_nat q). assert (0 <= q)%Z by nia. rewrite Z2Nat.id by lia.
      split; [f_equal; lia|]. apply in_seq. assert (q < n)%Z by nia. lia.
Qed.

Lemma axis_down rnd size step : keeps_integers rnd -> (0 <= size)%Z -> (0 < step)%Z -> (2 * size + step <= 2 ^ 24)%Z ->
  exists l, arange rnd size (- size - step) (- step) = Ok l /\
    lists_integers Rgt (fun k => - size - step < k <= size /\ (step | size - k))%Z l /\
    length l = Z.to_nat (- ((- size - (size + step)) / step)).
Proof.
  intros K S0 T0 B.
  assert (exists l, arange rnd size (- size - step) (- step) = Ok l) as [l Hl].
  { unfold arange. destruct (Z.eqb_spec (- step) 0); [lia|]. eauto. }
  exists l. split; auto. set (n := (- ((- size - (size + step)) / step))%Z).
  assert (En : (- ((size - (- size - step)) / - step))%Z = n).
  { unfold n. replace (size - (- size - step))%Z with (- (- size - (size + step)))%Z by lia. now rewrite Z.div_opp_opp by lia. }
  assert (N : (2 * size + step <= n * step < 2 * size + 2 * step)%Z).
  { pose proof (ceil_spec (2 * size + step) step n T0). unfold n in *.
    replace (- size - (size + step))%Z with (- (2 * size + step))%Z in * by lia. lia. }
  assert (E : l = map (fun i => IZR (size + Z.of_nat i * - step)) (seq 0 (Z.to_nat n))).
  { rewrite <- En. eapply arange_exact; eauto; try lia. rewrite En. intros i Hi.
    assert (i * step <= (n - 1) * step)%Z by nia. assert (0 <= i * step)%Z by nia. lia. }
  split; [|rewrite E, map_length, seq_length; reflexivity].
  split.
  - rewrite E. apply sorted_map_seq. intros i j Hij. apply Rlt_gt, IZR_lt. nia.
  - intros v. rewrite E, in_map_iff. split.
    + intros (i & <- & Hi). apply in_seq in Hi. eexists. split; [reflexivity|].
      assert (Z.of_nat i * step <= (n - 1) * step)%Z by nia. split; [nia|]. exists (Z.of_nat i). lia.
    + intros (k & -> & (H1 & H2) & (q & Hq)). exists (Z.to_nat q). assert (0 <= q)%Z by nia. rewrite Z2Nat.id by lia.
      split; [f_equal; lia|]. apply in_seq. assert (q < n)%Z by nia. lia.
Qed.

Lemma nth_error_same {A} (a b : list A) : (forall i, nth_error a i = nth_error b i) -> a = b.
Proof.
  revert b. induction a as [|x a IH]; intros [|y b] H; auto; try (specialize (H 0%nat); discriminate).
  f_equal; [specialize (H 0%nat); now injection H|apply IH; intros i; exact (H (S i))].
Qed.

(** ** The stack of distances *)
Lemma upd_length {A} (l : list A) i x : length (upd l i x) = length l.
Proof. revert i. induction l as [|y l IH]; intros [|i]; cbn [upd length]; auto. Qed.
Lemma nth_upd {A} (l : list A) i j x : nth_error (upd l i x) j = if Nat.eqb i j then (if Nat.ltb i (length l) then Some x else None) else nth_error l j.
Proof.
  revert i j. induction l as [|y l IH]; intros [|i] [|j]; cbn [upd length nth_error]; auto.
  - change (Nat.eqb (S i) (S j)) with (Nat.eqb i j). destruct (Nat.eqb i j); reflexivity.
  - rewrite IH. reflexivity.
Qed.

Lemma position_ok n i : (0 <= i < Z.of_nat n)%Z -> position n i = Ok (Z.to_nat i).
Proof.
  intros H. unfold position. destruct (Z.ltb_spec i 0); [lia|]. cbv zeta. destruct (Z.ltb_spec i 0); [lia|].
  destruct (Z.leb_spec (Z.of_nat n) i); [lia|]. reflexivity.
Qed.

Section Dists.
  Variables (rp ej_thr basin_thr : R) (xs ys : list R).
  Hypothesis Sq : length xs = length ys.
  Let step n := (fun (acc : result (list (list (list (option R))))) '(i, s) =>
    let* grd := acc in
    let* k := position n i in
    if Nat.eqb (length xs) (length ys)
    then set grd k (dist_rows rp ej_thr basin_thr xs ys s) else Err ValueError).

  Lemma fold_err n df e : fold_left (step n) df (Err e) = Err e.
  Proof. induction df as [|[i s] df IH]; cbn [fold_left]; auto. Qed.

  (** Later rows overwrite earlier ones of the same position. *)
  Lemma fold_ok n df : forall g, length g = n -> (forall i s, In (i, s) df -> exists k, position n i = Ok k) ->
    exists g', fold_left (step n) df (Ok g) = Ok g' /\ length g' = n.
  Proof.
    induction df as [|[i s] df IH]; intros g Lg H; cbn [fold_left]; eauto.
    destruct (H i s (or_introl eq_refl)) as [k Hk]. unfold step at 2. cbn [bind]. rewrite Hk. cbn [bind].
    rewrite Sq, Nat.eqb_refl. assert (Lk : (k < n)%nat).
    { unfold position in Hk. cbv zeta in Hk. destruct ((_ || _)%bool) eqn:E; [discriminate|]. apply orb_false_iff in E as [E1' E2'].
      apply Z.ltb_ge in E1'. apply Z.leb_gt in E2'. injection Hk as <-. lia. }
    unfold set. rewrite Lg. destruct (Nat.ltb_spec k n); [|lia]. apply IH; [now rewrite upd_length|]. intros; eapply H; right; eauto.
  Qed.

  Lemma fold_nth n df : forall g g', fold_left (step n) df (Ok g) = Ok g' -> length g = n ->
    NoDup (map fst df) -> (forall i s, In (i, s) df -> (0 <= i < Z.of_nat n)%Z) ->
    forall k x, nth_error g' k = Some x ->
      (exists s, In (Z.of_nat k, s) df /\ x = dist_rows rp ej_thr basin_thr xs ys s) \/
      (nth_error g k = Some x /\ ~ In (Z.of_nat k) (map fst df)).
  Proof.
    induction df as [|[i s] df IH]; intros g g' H Lg N B k x Hk; cbn [fold_left] in H.
    - injection H as <-. right. split; auto.
    - cbn [map] in N. inversion N as [|? ? N1 N2]; subst.
      assert (Bi := B i s (or_introl eq_refl)).
      unfold step at 2 in H. cbn [bind] in H. rewrite (position_ok _ _ Bi) in H. cbn [bind] in H. rewrite Sq, Nat.eqb_refl in H.
      unfold set in H. destruct (Nat.ltb_spec (Z.to_nat i) (length g)); [|lia].
      apply (IH _ _ H) with (k := k) in Hk; [|apply upd_length|auto|intros; eapply B; right; eauto].
      destruct Hk as [(s' & I & ->)|[Hg Hn]].
      + left. exists s'. split; [right|]; auto.
      + rewrite nth_upd in Hg. destruct (Nat.eqb_spec (Z.to_nat i) k) as [E|E].
        * destruct (Nat.ltb_spec (Z.to_nat i) (length g)); [|lia]. injection Hg as <-. left. exists s. split; [left; f_equal; lia|reflexivity].
        * right. split; auto. cbn [map In fst]. intros [Q|Q]; [lia|contradiction].
  Qed.

  Lemma dist_grid_labels df : NoDup (map fst df) -> (forall i s, In (i, s) df -> (0 <= i < Z.of_nat (length df))%Z) ->
    exists g, get_gc_dist_grid rp ej_thr basin_thr xs ys df = Ok g /\ length g = length df /\
      forall k, (k < length df)%nat -> exists s, In (Z.of_nat k, s) df /\ nth_error g k = Some (dist_rows rp ej_thr basin_thr xs ys s).
  Proof.
    intros N B. unfold get_gc_dist_grid.
    set (zeros := repeat (repeat (repeat (Some 0) (length ys)) (length xs)) (length df)).
    destruct (fold_ok (length df) df zeros) as (g & Hg & Lg).
    - apply repeat_length.
    - intros i s I. apply B in I. rewrite (position_ok _ _ I). eauto.
    - exists g. split; [exact Hg|]. split; auto. intros k Hk.
      destruct (nth_error g k) as [x|] eqn:E; [|apply nth_error_None in E; lia].
      destruct (fold_nth (length df) df zeros g Hg (repeat_length _ _) N B k x E) as [(s & I & ->)|[_ Hn]].
      + exists s. auto.
      + exfalso. apply Hn. clear Hn. clearbody zeros. clear - N B Hk.
        (* the labels are the numbers below the length *)
        assert (P : incl (map Z.of_nat (seq 0 (length df))) (map fst df)).
        { apply NoDup_length_incl; [exact N|rewrite !map_length, seq_length; lia|].
          intros z Hz. apply in_map_iff in Hz as ([i s] & <- & I). apply B in I. cbn [fst]. apply in_map_iff.
          exists (Z.to_nat i). split; [lia|apply in_seq; lia]. }
        apply P, in_map_iff. exists k. split; auto. apply in_seq. lia.
  Qed.
End Dists.

Lemma numbered_fst sites : map fst (numbered sites) = map Z.of_nat (seq 0 (length sites)).
Proof.
  unfold numbered. generalize 0%nat. induction sites as [|s l IH]; intros a; cbn [length seq map combine fst]; auto. now rewrite IH.
Qed.
Lemma numbered_snd sites : map snd (numbered sites) = sites.
Proof.
  unfold numbered. generalize 0%nat. induction sites as [|s l IH]; intros a; cbn [length seq map combine snd]; auto. now rewrite IH.
Qed.
Lemma numbered_length sites : length (numbered sites) = length sites.
Proof. unfold numbered. rewrite combine_length, map_length, seq_length. lia. Qed.
Lemma numbered_In sites k s : In (Z.of_nat k, s) (numbered sites) <-> nth_error sites k = Some s.
Proof.
  unfold numbered. assert (G : forall a, In (Z.of_nat (a + k), s) (combine (map Z.of_nat (seq a (length sites))) sites) <-> nth_error sites k = Some s).
  { revert k. induction sites as [|x l IH]; intros k a; cbn [length seq map combine In].
    - destruct k; cbn; intuition discriminate.
    - destruct k as [|k]; cbn [nth_error].
      + split; [|intros [= ->]; left; f_equal; lia]. intros [[= _ ->]|H]; auto.
        exfalso. apply in_combine_l in H. apply in_map_iff in H as (b & H & I). apply in_seq in I. lia.
      + rewrite <- (IH k (S a)). replace (a + S k)%nat with (S a + k)%nat by lia. split; auto.
        intros [H|H]; auto. injection H as H _. lia. }
  exact (G 0%nat).
Qed.

Lemma dist_grid_numbered rp ej_thr basin_thr xs ys sites : length xs = length ys ->
  get_gc_dist_grid rp ej_thr basin_thr xs ys (numbered sites) = Ok (map (dist_rows rp ej_thr basin_thr xs ys) sites).
Proof.
  intros Sq. destruct (dist_grid_labels rp ej_thr basin_thr xs ys Sq (numbered sites)) as (g & Hg & Lg & H).
  - rewrite numbered_fst. apply FinFun.Injective_map_NoDup; [intros a b; lia|apply seq_NoDup].
  - intros i s I. rewrite numbered_length. apply (in_map fst) in I. rewrite numbered_fst in I. cbn [fst] in I.
    apply in_map_iff in I as (b & <- & I). apply in_seq in I. lia.
  - rewrite Hg. f_equal. apply nth_error_same. intros k. rewrite numbered_length in *. rewrite nth_error_map.
    destruct (nth_error sites k) as [s|] eqn:E.
    + destruct (H k) as (s' & I & ->); [apply nth_error_Some; congruence|]. apply numbered_In in I. cbn. congruence.
    + apply nth_error_None in E. cbn. apply nth_error_None. lia.
Qed.

Lemma dist_grid_rect rp ej_thr basin_thr xs ys i s df : length xs <> length ys ->
  (0 <= i < Z.of_nat (S (length df)))%Z ->
  get_gc_dist_grid rp ej_thr basin_thr xs ys ((i, s) :: df) = Err ValueError.
Proof.
  intros N B. unfold get_gc_dist_grid. cbn [fold_left bind length]. rewrite (position_ok _ _ B). cbn [bind].
  destruct (Nat.eqb_spec (length xs) (length ys)); [contradiction|].
  generalize (S (length df)). intros m. clear. induction df as [|[j t] df IH]; cbn [fold_left bind]; auto.
Qed.

(** A label that is no position stops the loop. *)
Lemma dist_grid_label rp ej_thr basin_thr xs ys df i s : length xs = length ys ->
  In (i, s) df -> (Z.of_nat (length df) <= i)%Z ->
  get_gc_dist_grid rp ej_thr basin_thr xs ys df = Err IndexError.
Proof.
  intros Sq I B. unfold get_gc_dist_grid. set (n := length df) in *.
  assert (G : forall l g, In (i, s) l -> length g = n -> fold_left (fun acc '(i, s) =>
    let* grd := acc in
    let* k := position n i in
    if Nat.eqb (length xs) (length ys)
    then set grd k (dist_rows rp ej_thr basin_thr xs ys s) else Err ValueError) l (Ok g) = Err IndexError).
  { assert (X : forall l, fold_left (fun acc '(i, s) =>
      let* grd := acc in
      let* k := position n i in
      if Nat.eqb (length xs) (length ys)
      then set grd k (dist_rows rp ej_thr basin_thr xs ys s) else Err ValueError) l (Err IndexError) = Err IndexError)
      by (induction l as [|[j t] l IH]; cbn [fold_left bind]; auto).
    induction l as [|[j t] l IH]; intros g H Lg; [destruct H|]. cbn [fold_left bind].
    destruct (position n j) as [k|e] eqn:P; cbn [bind].
    - rewrite Sq, Nat.eqb_refl. unfold set. destruct (Nat.ltb_spec k (length g)).
      + rewrite Sq, Nat.eqb_refl in IH. apply IH; [|now rewrite upd_length]. destruct H as [H|H]; auto. injection H as -> ->.
        exfalso. unfold position in P. destruct (Z.ltb_spec i 0); [lia|]. cbv zeta in P.
        destruct (Z.leb_spec (Z.of_nat n) i); [|lia]. rewrite orb_true_r in P. discriminate.
      + rewrite Sq, Nat.eqb_refl in X. apply X.
    - unfold position in P. cbv zeta in P. destruct (_ || _)%bool in P; [|discriminate]. injection P as <-. apply X. }
  apply G; auto. unfold n. apply repeat_length.
Qed.

Lemma dist_rows_cell rp ej_thr basin_thr xs ys s i j x y : nth_error ys i = Some y -> nth_error xs j = Some x ->
  exists row, nth_error (dist_rows rp ej_thr basin_thr xs ys s) i = Some row /\
    nth_error row j = Some (if Rltb (rp ^ 2) (x ^ 2 + y ^ 2) then None
      else let (lat, lon) := xy2latlon rp x y in dist_cell ej_thr basin_thr s lon lat).
Proof.
  intros Hi Hj. unfold dist_rows. rewrite nth_error_map, Hi. cbn [option_map]. eexists. split; [reflexivity|].
  rewrite nth_error_map, Hj. reflexivity.
Qed.

Lemma thick_cell c (sites : list site) (dists : list (list (list (option R)))) k i j s m row d : nth_error sites k = Some s -> nth_error dists k = Some m ->
  nth_error m i = Some row -> nth_error row j = Some d ->
  cell3 (map (fun '(s, m) => map (map (fun d => get_ejecta_thickness c d (s_rad s))) m) (combine sites dists)) k i j
    (get_ejecta_thickness c d (s_rad s)).
Proof.
  intros Hs Hm Hr Hd. exists (map (map (fun d => get_ejecta_thickness c d (s_rad s))) m), (map (fun d => get_ejecta_thickness c d (s_rad s)) row).
  rewrite nth_error_map, (combine_nth_error _ _ k s m) by auto. split; [reflexivity|].
  rewrite !nth_error_map, Hr, Hd. auto.
Qed.

Lemma cell3_fun {A} (m : list (list (list A))) k i j a b : cell3 m k i j a -> cell3 m k i j b -> a = b.
Proof. intros (g & r & H1 & H2 & H3) (g' & r' & G1 & G2 & G3). congruence. Qed.

Lemma outputs_numbered c sort timestart ej_thr basin_thr xs ys sites : sites <> [] -> length xs = length ys ->
  exists ages, get_age_grid sort (rad_moon c) timestart ej_thr basin_thr xs ys sites = Ok ages /\
    get_grid_outputs c sort timestart ej_thr basin_thr xs ys (numbered sites) =
    Ok (ages, map (fun '(s, m) => map (map (fun d => get_ejecta_thickness c d (s_rad s))) m)
                (combine sites (map (dist_rows (rad_moon c) ej_thr basin_thr xs ys) sites))).
Proof.
  intros N Sq. unfold get_grid_outputs. rewrite numbered_snd, (dist_grid_numbered _ _ _ _ _ _ Sq).
  assert (exists ages, get_age_grid sort (rad_moon c) timestart ej_thr basin_thr xs ys sites = Ok ages) as [ages H].
  { unfold get_age_grid. destruct sites; [contradiction|]. rewrite Sq, Nat.eqb_refl. eauto. }
  exists ages. rewrite H. cbn [bind]. auto.
Qed.

(** ** A distance on the polar grid *)
Lemma half_le_sin x : 0 <= x <= 1 -> x / 2 <= sin x.
Proof.
  intros [H0 H1]. destruct (Req_dec x 0) as [->|N]; [rewrite sin_0; lra|].
  destruct (MVT_cor2 sin cos 0 x) as (c & E & Hc); [lra|intros; apply derivable_pt_lim_sin|].
  rewrite sin_0, !Rminus_0_r in E. rewrite E.
  assert (1 / 2 < cos c).
  { rewrite <- cos_PI3. pose proof PI2_3_2. apply cos_decreasing_1; lra. }
  nra.
Qed.

(** From the pole to the point of the grid at [y]. *)
Lemma polar_dist rp y : 0 < rp -> 0 < y -> 2 * y <= rp ->
  let (lat, lon) := xy2latlon rp 0 y in y <= gc_dist rp 0 (-90) lon lat <= 2 * y.
Proof.
  intros Hr Hy Hb. unfold xy2latlon. cbv zeta.
  set (z := sqrt (rp ^ 2 - 0 ^ 2 - y ^ 2)). set (lat := rad2deg (- asin (z / rp))). set (lon := rad2deg (atan2 0 y)).
  destruct (gc_dist_angle rp 0 (-90) lon lat) as (c & -> & Hc & E).
  assert (Z0 : 0 <= z) by apply sqrt_pos.
  assert (Zz : z * z = rp ^ 2 - y ^ 2) by (unfold z; rewrite sqrt_sqrt by nra; nra).
  assert (Zr : z <= rp) by nra.
  assert (Q : 0 <= z / rp <= 1).
  { split; [apply Rmult_le_pos; [lra|left; apply Rinv_0_lt_compat; lra]|]. apply Rmult_le_reg_r with rp; [lra|]. unfold Rdiv. rewrite Rmult_assoc, Rinv_l by lra. lra. }
  assert (C : cos c = z / rp).
  { rewrite E. unfold pos, dot. replace (-90 * PI / 180) with (- (PI / 2)) by field. rewrite cos_neg, cos_PI2, sin_neg, sin_PI2.
    unfold lat, rad2deg. replace (- asin (z / rp) * (180 / PI) * PI / 180) with (- asin (z / rp)) by (field; apply PI_neq0).
    rewrite sin_neg, sin_asin by lra. ring. }
  assert (Sc : 0 <= sin c) by (apply sin_ge_0; lra).
  assert (S2 : sin c = y / rp).
  { apply Rsqr_inj; [lra|apply Rlt_le, Rdiv_lt_0_compat; lra|]. pose proof (sin2_cos2 c) as P. unfold Rsqr in *. rewrite C in P.
    replace (y / rp * (y / rp)) with (1 - z / rp * (z / rp)); [lra|].
    replace (z / rp * (z / rp)) with ((z * z) / (rp * rp)) by (field; lra). rewrite Zz. field. lra. }
  assert (Y : 0 < y / rp <= 1 / 2).
  { split; [apply Rdiv_lt_0_compat; lra|]. apply Rmult_le_reg_r with rp; [lra|]. unfold Rdiv. rewrite Rmult_assoc, Rinv_l by lra. lra. }
  assert (Cpi : c <= PI / 2).
  { destruct (Rle_dec c (PI / 2)); auto. exfalso. assert (cos c < 0) by (apply cos_lt_0; lra). lra. }
  assert (C0 : 0 < c).
  { destruct (Rle_lt_or_eq_dec 0 c ltac:(lra)) as [H|H]; auto. rewrite <- H, sin_0 in S2. lra. }
  assert (L : y / rp <= c) by (rewrite <- S2; left; apply sin_lt_x; lra).
  assert (U : c <= 2 * (y / rp)).
  { destruct (Rle_dec c (2 * (y / rp))) as [H|H]; auto. exfalso.
    pose proof (half_le_sin (2 * (y / rp))). pose proof PI2_3_2.
    assert (sin (2 * (y / rp)) < sin c) by (apply sin_increasing_1; lra). lra. }
  replace y with (rp * (y / rp)) by (field; lra). split; [|replace (2 * (rp * (y / rp))) with (rp * (2 * (y / rp))) by ring];
  apply Rmult_le_compat_l; try lra; now replace (rp * (y / rp) / rp) with (y / rp) by (field; lra).
Qed.
