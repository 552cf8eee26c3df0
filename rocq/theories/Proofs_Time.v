From Coq Require Import List ZArith Reals Lia Lra Bool Permutation Sorted Sorting.
From Verif Require Import Base Model_Time Spec_Time Proofs_Base.
Import ListNotations.
Open Scope R_scope.

(** * linspace and the time axis *)
Lemma linspace_length a b n : length (linspace a b n) = n.
Proof. destruct n as [|[|n]]; auto. unfold linspace. now rewrite map_length, seq_length. Qed.

Lemma nth_error_seq i n : (i < n)%nat -> nth_error (seq 0 n) i = Some i.
Proof.
  intros H. rewrite nth_error_nth' with (d := 0%nat) by (rewrite seq_length; auto).
  f_equal. now rewrite seq_nth.
Qed.

Lemma linspace_nth a b n i : (i < n)%nat -> (2 <= n)%nat ->
  nth_error (linspace a b n) i = Some (a + INR i * ((b - a) / (INR n - 1))).
Proof.
  intros Hi Hn. destruct n as [|[|n]]; try lia. unfold linspace.
  rewrite nth_error_map, nth_error_seq by auto. reflexivity.
Qed.

Lemma linspace_first a b n : (1 <= n)%nat -> nth_error (linspace a b n) 0 = Some a.
Proof.
  intros Hn. destruct (Nat.eq_dec n 1) as [->|]; auto.
  rewrite linspace_nth by lia. f_equal. simpl INR. lra.
Qed.

Lemma INR_n1 n : (2 <= n)%nat -> 0 < INR n - 1.
Proof. intros. apply (le_INR 2) in H. simpl in H. lra. Qed.

Lemma linspace_last a b n : (2 <= n)%nat -> nth_error (linspace a b n) (n - 1) = Some b.
Proof.
  intros Hn. rewrite linspace_nth by lia. f_equal. pose proof (INR_n1 n Hn).
  rewrite minus_INR by lia. simpl (INR 1). field. lra.
Qed.

Lemma time_array_axis timestart timestep k : (0 < timestep)%Z -> (0 < k)%Z ->
  timestart = (k * timestep)%Z ->
  exists l, get_time_array (fun x => x) timestart 0 timestep = Ok l /\
    length l = Z.to_nat k /\
    (forall i, (i < Z.to_nat k)%nat ->
       nth_error l i = Some (IZR timestart - INR i * IZR timestep)).
Proof.
  intros Hs Hk ->. unfold get_time_array.
  replace (timestep =? 0)%Z with false by (symmetry; apply Z.eqb_neq; lia).
  rewrite Z.sub_0_r, Z.quot_mul by lia.
  replace (k <? 0)%Z with false by (symmetry; apply Z.ltb_ge; lia).
  eexists; split; [reflexivity|]. rewrite map_id. split; [apply linspace_length|].
  intros i Hi. destruct (Z.eq_dec k 1) as [->|Hk1].
  - simpl in Hi. assert (i = 0)%nat as -> by lia. rewrite linspace_first by lia.
    f_equal. simpl INR. lra.
  - rewrite linspace_nth by lia. f_equal.
    rewrite mult_IZR. rewrite (INR_IZR_INZ (Z.to_nat k)), Z2Nat.id by lia.
    assert (IZR k > 1) by (apply (IZR_lt 1); lia).
    field. lra.
Qed.

Lemma time_array_count rnd ts te st l :
  get_time_array rnd ts te st = Ok l ->
  st <> 0%Z /\ (0 <= Z.quot (ts - te) st)%Z /\ length l = Z.to_nat (Z.quot (ts - te) st).
Proof.
  unfold get_time_array. destruct (st =? 0)%Z eqn:E; [discriminate|].
  apply Z.eqb_neq in E. destruct (Z.quot (ts - te) st <? 0)%Z eqn:E2; [discriminate|].
  apply Z.ltb_ge in E2. intros [= <-]. rewrite map_length, linspace_length. auto.
Qed.

Lemma time_array_errors rnd ts te st :
  (get_time_array rnd ts te st = Err ZeroDivisionError <-> st = 0%Z) /\
  (get_time_array rnd ts te st = Err ValueError <-> st <> 0%Z /\ (Z.quot (ts - te) st < 0)%Z).
Proof.
  unfold get_time_array. destruct (st =? 0)%Z eqn:E.
  - apply Z.eqb_eq in E. split; split; intros; auto; try discriminate; tauto.
  - apply Z.eqb_neq in E. destruct (Z.quot (ts - te) st <? 0)%Z eqn:E2.
    + apply Z.ltb_lt in E2. split; split; intros; auto; try discriminate; tauto.
    + apply Z.ltb_ge in E2. split; split; intros; try discriminate; try tauto.
      destruct H; lia.
Qed.

Lemma time_array_ends ts te st l :
  get_time_array (fun x => x) ts te st = Ok l -> (2 <= length l)%nat ->
  nth_error l 0 = Some (IZR ts) /\ nth_error l (length l - 1) = Some (IZR st).
Proof.
  intros H Hl. pose proof (time_array_count _ _ _ _ _ H) as (H1 & H2 & H3).
  unfold get_time_array in H. apply Z.eqb_neq in H1. rewrite H1 in H.
  apply Z.ltb_ge in H2. rewrite H2 in H. injection H as <-. rewrite map_id in *.
  rewrite linspace_length in *. rewrite linspace_first, linspace_last by lia. auto.
Qed.

Lemma time_array_end_refuted : exists ts te st l,
  (0 < st)%Z /\ (0 < te)%Z /\ ((ts - te) mod st = 0)%Z /\
  get_time_array (fun x => x) ts te st = Ok l /\ (2 <= length l)%nat /\
  nth_error l (length l - 1) <> Some (IZR te + IZR st) /\
  nth_error l 1 <> Some (IZR ts - IZR st).
Proof.
  exists 10%Z, 4%Z, 2%Z, (map (fun x => x) (linspace 10 2 3)).
  assert (G : get_time_array (fun x => x) 10 4 2 = Ok (map (fun x => x) (linspace 10 2 3))) by reflexivity.
  split; [lia|]. split; [lia|]. split; [reflexivity|]. split; [exact G|].
  rewrite map_id. rewrite linspace_length. split; [lia|].
  rewrite linspace_last by lia. rewrite linspace_nth by lia. simpl INR. split.
  - intros [=]. lra.
  - intros [=]. lra.
Qed.

(** * Nearest index *)
Lemma argmin_from_spec l : forall best ib i,
  (ib < i)%nat ->
  let k := argmin_from best ib i l in
  exists b, (k = ib /\ b = best \/ (i <= k)%nat /\ nth_error l (k - i) = Some b) /\
    b <= best /\ (k <> ib -> b < best) /\
    (forall j x, nth_error l j = Some x -> b <= x) /\
    (forall j x, nth_error l j = Some x -> (i + j < k)%nat -> b < x).
Proof.
  induction l as [|x l IH]; intros best ib i Hi; cbn [argmin_from].
  - exists best. repeat split; auto; try lra; try congruence; destruct j; discriminate.
  - rcase x best E.
    + destruct (IH x i (S i) ltac:(lia)) as (b & Hb & Hle & Hlt & Hall & Hfirst).
      set (k := argmin_from x i (S i) l) in *. exists b. repeat split.
      * right. destruct Hb as [[Hk ->]|[Hk Hn]].
        -- rewrite Hk, Nat.sub_diag. split; auto.
        -- split; [lia|]. replace (k - i)%nat with (S (k - S i)) by lia. exact Hn.
      * lra.
      * intros _. lra.
      * intros [|j] y Hy; simpl in Hy; [injection Hy as <-; lra|eauto].
      * intros [|j] y Hy Hj; simpl in Hy.
        -- injection Hy as <-. apply Hlt. lia.
        -- apply (Hfirst j); auto. lia.
    + destruct (IH best ib (S i) ltac:(lia)) as (b & Hb & Hle & Hlt & Hall & Hfirst).
      set (k := argmin_from best ib (S i) l) in *. exists b. repeat split; auto.
      * destruct Hb as [[Hk ->]|[Hk Hn]]; [left; auto|right].
        split; [lia|]. replace (k - i)%nat with (S (k - S i)) by lia. exact Hn.
      * intros [|j] y Hy; simpl in Hy; [injection Hy as <-; lra|eauto].
      * intros [|j] y Hy Hj; simpl in Hy.
        -- injection Hy as <-. assert (b < best); [|lra]. apply Hlt.
           intros C. lia.
        -- apply (Hfirst j); auto. lia.
Qed.

Lemma nearest_idx_spec time age : time <> [] -> first_nearest time age (nearest_idx time age).
Proof.
  destruct time as [|t0 time]; [congruence|]. intros _. unfold nearest_idx.
  destruct (argmin_from_spec (map (fun t' => Rabs (t' - age)) time) (Rabs (t0 - age)) 0 1 ltac:(lia))
    as (b & Hb & Hle & Hlt & Hall & Hfirst).
  set (k := argmin_from _ 0 1 _) in *.
  assert (Hm : forall j u, nth_error time j = Some u ->
    nth_error (map (fun t' => Rabs (t' - age)) time) j = Some (Rabs (u - age))).
  { intros j u Hj. rewrite nth_error_map, Hj. reflexivity. }
  assert (Ht : exists t, nth_error (t0 :: time) k = Some t /\ b = Rabs (t - age)).
  { destruct Hb as [[-> ->]|[Hk Hn]].
    - exists t0. auto.
    - rewrite nth_error_map in Hn. destruct (nth_error time (k - 1)) as [t|] eqn:E; [|discriminate].
      exists t. injection Hn as <-. split; auto.
      replace k with (S (k - 1)) by lia. exact E. }
  destruct Ht as (t & Ht & ->). exists t. split; auto. split.
  - intros [|j] u Hu; simpl in Hu; [injection Hu as <-; auto|]. eapply Hall; eauto.
  - intros [|j] u Hj Hu; simpl in Hu.
    + injection Hu as <-. apply Hlt. lia.
    + eapply Hfirst; eauto.
Qed.

Lemma first_nearest_unique time age i j :
  first_nearest time age i -> first_nearest time age j -> i = j.
Proof.
  intros (t & Ht & H1 & H2) (u & Hu & H3 & H4).
  destruct (Nat.lt_trichotomy i j) as [H|[H|H]]; auto.
  - specialize (H4 i t H Ht). specialize (H1 j u Hu). lra.
  - specialize (H2 j u H Hu). specialize (H3 i t Ht). lra.
Qed.

Lemma nearest_idx_lt time age : time <> [] -> (nearest_idx time age < length time)%nat.
Proof.
  intros H. destruct (nearest_idx_spec time age H) as (t & Ht & _).
  apply nth_error_Some. congruence.
Qed.

Lemma fold_Rmin_spec l : forall x,
  (forall y, In y l -> list_min x l <= y) /\ list_min x l <= x /\ In (list_min x l) (x :: l).
Proof.
  unfold list_min. induction l as [|a l IH]; intros x; cbn [fold_left].
  - repeat split; [intros y []|lra|left; auto].
  - destruct (IH (Rmin x a)) as (H1 & H2 & H3).
    pose proof (Rmin_l x a). pose proof (Rmin_r x a). repeat split.
    + intros y [<-|Hy]; [lra|auto].
    + lra.
    + destruct H3 as [H3|H3]; [|right; right; auto].
      rewrite <- H3. unfold Rmin. destruct (Rle_dec x a); [left; auto|right; left; auto].
Qed.

Lemma fold_Rmax_spec l : forall x,
  (forall y, In y l -> y <= list_max x l) /\ x <= list_max x l /\ In (list_max x l) (x :: l).
Proof.
  unfold list_max. induction l as [|a l IH]; intros x; cbn [fold_left].
  - repeat split; [intros y []|lra|left; auto].
  - destruct (IH (Rmax x a)) as (H1 & H2 & H3).
    pose proof (Rmax_l x a). pose proof (Rmax_r x a). repeat split.
    + intros y [<-|Hy]; [lra|auto].
    + lra.
    + destruct H3 as [H3|H3]; [|right; right; auto].
      rewrite <- H3. unfold Rmax. destruct (Rle_dec x a); [right; left; auto|left; auto].
Qed.

Lemma minmax_spec time tol : time <> [] ->
  exists lo hi, is_min time lo /\ is_max time hi /\
    minmax_rtol time tol = Ok (lo - Rabs lo * tol, hi + Rabs hi * tol).
Proof.
  destruct time as [|t time]; [congruence|]. intros _.
  destruct (fold_Rmin_spec time t) as (H1 & H2 & H3).
  destruct (fold_Rmax_spec time t) as (H4 & H5 & H6).
  exists (list_min t time), (list_max t time). repeat split; auto.
  - intros u [<-|Hu]; auto.
  - intros u [<-|Hu]; auto.
Qed.

Lemma is_min_unique time a b : is_min time a -> is_min time b -> a = b.
Proof. intros [H1 H2] [H3 H4]. specialize (H2 _ H3). specialize (H4 _ H1). lra. Qed.
Lemma is_max_unique time a b : is_max time a -> is_max time b -> a = b.
Proof. intros [H1 H2] [H3 H4]. specialize (H2 _ H3). specialize (H4 _ H1). lra. Qed.

(** * Placement *)
Section Place.
  Context {V : Type} (agg : V -> V -> V) (fill : V).

  Lemma place_length time acc ev : length (place agg time acc ev) = length acc.
  Proof. unfold place. destruct (nth_error acc _); auto. apply upd_length. Qed.

  Lemma fold_place_length time evs : forall acc,
    length (fold_left (place agg time) evs acc) = length acc.
  Proof. induction evs; intros; cbn [fold_left]; auto. rewrite IHevs. apply place_length. Qed.

  Lemma fold_place_nth time evs k : forall acc v,
    nth_error acc k = Some v ->
    nth_error (fold_left (place agg time) evs acc) k
    = Some (fold_left agg (map snd (filter (fun ev => Nat.eqb (nearest_idx time (fst ev)) k) evs)) v).
  Proof.
    induction evs as [|[a x] evs IH]; intros acc v Hv; cbn [fold_left filter map]; auto.
    cbn [fst]. destruct (Nat.eqb_spec (nearest_idx time a) k) as [E|E].
    - cbn [map snd fold_left]. apply IH. unfold place. cbn [fst snd]. rewrite E, Hv.
      apply upd_nth_same. apply nth_error_Some. congruence.
    - apply IH. unfold place. cbn [fst snd].
      destruct (nth_error acc (nearest_idx time a)); auto. now rewrite upd_nth_other.
  Qed.

  Lemma nth_error_repeat (x : V) n k : (k < n)%nat -> nth_error (repeat x n) k = Some x.
  Proof. revert k; induction n; intros [|k] H; simpl; auto; try lia. apply IHn; lia. Qed.

  Lemma ages2time_spec tol time events lo hi : is_min time lo -> is_max time hi ->
    exists out, ages2time agg fill tol time events = Ok out /\
      length out = length time /\
      forall k, (k < length time)%nat ->
        nth_error out k = Some (fold_left agg
          (map snd (filter (fun ev => Nat.eqb (nearest_idx time (fst ev)) k)
            (filter (fun ev => Rleb (lo - Rabs lo * tol) (fst ev)
                               && Rleb (fst ev) (hi + Rabs hi * tol)) events))) fill).
  Proof.
    intros Hlo Hhi.
    assert (Hne : time <> []) by (intros ->; destruct Hlo as [[] _]).
    destruct (minmax_spec time tol Hne) as (lo' & hi' & H1 & H2 & Hm).
    rewrite (is_min_unique _ _ _ Hlo H1), (is_max_unique _ _ _ Hhi H2) in *.
    unfold ages2time. rewrite Hm. cbn [bind]. eexists; split; [reflexivity|].
    rewrite fold_place_length, repeat_length. split; auto.
    intros k Hk. apply fold_place_nth. now apply nth_error_repeat.
  Qed.
End Place.

Lemma ages2time_empty {V} (agg : V -> V -> V) fill tol events :
  ages2time agg fill tol [] events = Err ValueError.
Proof. reflexivity. Qed.

Lemma Rsum_upd l i v x : nth_error l i = Some v -> Rsum (upd l i (v + x)) = Rsum l + x.
Proof.
  revert i; induction l as [|a l IH]; intros [|i] H; simpl in H; try discriminate; cbn [upd];
    rewrite !Rsum_cons.
  - injection H as <-. lra.
  - rewrite IH; auto. lra.
Qed.

Lemma fold_place_sum time evs : time <> [] -> forall acc, length acc = length time ->
  Rsum (fold_left (place Rplus time) evs acc) = Rsum acc + Rsum (map snd evs).
Proof.
  intros Hne. induction evs as [|[a x] evs IH]; intros acc Hacc; cbn [fold_left map snd].
  - unfold Rsum at 3. cbn. lra.
  - rewrite IH by now rewrite place_length. rewrite Rsum_cons.
    unfold place. cbn [fst snd].
    destruct (nth_error acc (nearest_idx time a)) as [v|] eqn:E.
    + rewrite (Rsum_upd _ _ _ _ E). lra.
    + apply nth_error_None in E. pose proof (nearest_idx_lt time a Hne). lia.
Qed.

Lemma ages2time_sum tol time events lo hi out : is_min time lo -> is_max time hi ->
  ages2time Rplus 0 tol time events = Ok out ->
  Rsum out = Rsum (map snd (filter (fun ev => Rleb (lo - Rabs lo * tol) (fst ev)
                               && Rleb (fst ev) (hi + Rabs hi * tol)) events)).
Proof.
  intros Hlo Hhi H.
  assert (Hne : time <> []) by (intros ->; destruct Hlo as [[] _]).
  destruct (minmax_spec time tol Hne) as (lo' & hi' & H1 & H2 & Hm).
  rewrite (is_min_unique _ _ _ Hlo H1), (is_max_unique _ _ _ Hhi H2) in *.
  unfold ages2time in H. rewrite Hm in H. cbn [bind] in H. injection H as <-.
  rewrite fold_place_sum by (auto; apply repeat_length).
  replace (Rsum (repeat 0 (length time))) with 0; [lra|].
  clear. induction (length time); [reflexivity|]. cbn [repeat]. rewrite Rsum_cons. lra.
Qed.

(** * Perturbed grids *)
Lemma nearest_on_grid (time : list R) T0 s k : 
  (forall i t, nth_error time i = Some t -> Rabs (t - (T0 - INR i * s)) < s / 2) ->
  (k < length time)%nat ->
  nearest_idx time (T0 - INR k * s) = k.
Proof.
  intros H Hk.
  assert (Hne : time <> []) by (intros ->; simpl in Hk; lia).
  destruct (nth_error time k) as [tk|] eqn:Ek; [|apply nth_error_None in Ek; lia].
  assert (FN : first_nearest time (T0 - INR k * s) k).
  { pose proof (H _ _ Ek) as Hk'.
    assert (Far : forall j u, nth_error time j = Some u -> j <> k ->
      Rabs (tk - (T0 - INR k * s)) < Rabs (u - (T0 - INR k * s))).
    { intros j u Hu Hj. pose proof (H _ _ Hu) as Hu'.
      assert (s > 0) by (pose proof (Rabs_pos (tk - (T0 - INR k * s))); lra).
      assert (1 <= Rabs (INR j - INR k)).
      { rewrite !INR_IZR_INZ, <- minus_IZR, <- abs_IZR. apply IZR_le. lia. }
      assert (Rabs ((INR j - INR k) * s) = Rabs (INR j - INR k) * s)
        by (rewrite Rabs_mult, (Rabs_right s); lra).
      pose proof (Rabs_triang (u - (T0 - INR k * s)) (- (u - (T0 - INR j * s)))) as HT.
      replace (u - (T0 - INR k * s) + - (u - (T0 - INR j * s))) with (- ((INR j - INR k) * s)) in HT by ring.
      rewrite !Rabs_Ropp in HT. nra. }
    exists tk. split; auto. split.
    - intros j u Hu. destruct (Nat.eq_dec j k) as [->|Hj].
      + rewrite Ek in Hu. injection Hu as <-. lra.
      + left. eapply Far; eauto.
    - intros j u Hj Hu. eapply Far; eauto. lia. }
  eapply first_nearest_unique; eauto. now apply nearest_idx_spec.
Qed.

Lemma ages2time_grid {V} (agg : V -> V -> V) fill tol time T0 s (evs : list (nat * V)) out k :
  0 <= tol <= 1 ->
  (forall i t, nth_error time i = Some t ->
     0 < t /\ Rabs (t - (T0 - INR i * s)) < s / 2 /\ Rabs (t - (T0 - INR i * s)) <= tol * t) ->
  Forall (fun ev => (fst ev < length time)%nat) evs ->
  ages2time agg fill tol time (map (fun ev => (T0 - INR (fst ev) * s, snd ev)) evs) = Ok out ->
  (k < length time)%nat ->
  nth_error out k = Some (fold_left agg (map snd (filter (fun ev => Nat.eqb (fst ev) k) evs)) fill).
Proof.
  intros Htol Hgrid Hevs Hout Hk.
  assert (Hne : time <> []) by (intros ->; simpl in Hk; lia).
  destruct (minmax_spec time tol Hne) as (lo & hi & Hlo & Hhi & _).
  destruct (ages2time_spec agg fill tol time (map (fun ev => (T0 - INR (fst ev) * s, snd ev)) evs) lo hi Hlo Hhi)
    as (out' & Ho & _ & Hn).
  rewrite Hout in Ho. injection Ho as <-. rewrite (Hn k Hk). f_equal. f_equal.
  clear Hn Hout. induction Hevs as [|[m v] evs Hm Hevs IH]; auto.
  cbn [map filter fst snd] in *.
  destruct (nth_error time m) as [t|] eqn:Em; [|apply nth_error_None in Em; lia].
  destruct (Hgrid _ _ Em) as (Hpos & _ & Herr).
  assert (In t time) by (eapply nth_error_In; eauto).
  assert (Hlot : lo <= t) by (apply Hlo; auto). assert (Hhit : t <= hi) by (apply Hhi; auto).
  assert (0 < lo).
  { destruct Hlo as [Hlo _]. apply In_nth_error in Hlo as [i Hi]. apply (Hgrid i); auto. }
  apply Rabs_def2 in Herr || idtac.
  assert (Hr : Rleb (lo - Rabs lo * tol) (T0 - INR m * s) && Rleb (T0 - INR m * s) (hi + Rabs hi * tol) = true).
  { apply andb_true_iff; split; apply Rleb_true.
    - rewrite Rabs_right by lra.
      pose proof (Rle_abs (t - (T0 - INR m * s))). nra.
    - rewrite Rabs_right by lra.
      pose proof (Rle_abs (- (t - (T0 - INR m * s)))). rewrite Rabs_Ropp in H1. nra. }
  rewrite Hr. cbn [filter fst].
  rewrite (nearest_on_grid time T0 s m); auto.
  2:{ intros i u Hu. apply (Hgrid i u Hu). }
  destruct (Nat.eqb m k); cbn [map snd]; rewrite IH; auto.
Qed.

(** * rint *)
Lemma Int_part_bounds x : IZR (Int_part x) <= x < IZR (Int_part x) + 1.
Proof. destruct (base_Int_part x). lra. Qed.

Lemma Int_part_unique x z : IZR z <= x < IZR z + 1 -> Int_part x = z.
Proof.
  intros H. pose proof (Int_part_bounds x).
  assert (A : IZR (Int_part x) < IZR (z + 1)) by (rewrite plus_IZR; lra).
  assert (B : IZR z < IZR (Int_part x + 1)) by (rewrite plus_IZR; lra).
  apply lt_IZR in A, B. lia.
Qed.

Lemma rint_err x : Rabs (IZR (rint x) - x) <= 1 / 2.
Proof.
  unfold rint. pose proof (Int_part_bounds x). set (f := Int_part x) in *.
  apply Rabs_le.
  rcase (x - IZR f) (1 / 2) E; [lra|].
  rcase (1 / 2) (x - IZR f) E'; [rewrite plus_IZR; lra|].
  destruct (Z.even f); [|rewrite plus_IZR]; lra.
Qed.

Lemma rint_int z : rint (IZR z) = z.
Proof.
  unfold rint. rewrite (Int_part_unique (IZR z) z) by lra.
  rcase (IZR z - IZR z) (1 / 2) E; [auto|lra].
Qed.

Lemma rint_tie x : Rabs (IZR (rint x) - x) = 1 / 2 -> Z.even (rint x) = true.
Proof.
  unfold rint. pose proof (Int_part_bounds x). set (f := Int_part x) in *.
  rcase (x - IZR f) (1 / 2) E.
  - unfold Rabs. destruct (Rcase_abs (IZR f - x)); lra.
  - rcase (1 / 2) (x - IZR f) E'.
    + rewrite plus_IZR. unfold Rabs. destruct (Rcase_abs (IZR f + 1 - x)); lra.
    + destruct (Z.even f) eqn:Ev; auto.
      intros _. rewrite Z.even_add, Ev. reflexivity.
Qed.

Lemma rint_mono x y : x <= y -> (rint x <= rint y)%Z.
Proof.
  intros H. destruct (Z_le_gt_dec (rint x) (rint y)) as [|C]; auto. exfalso.
  pose proof (rint_err x) as Hx. pose proof (rint_err y) as Hy.
  assert (C' : (rint y + 1 <= rint x)%Z) by lia. apply IZR_le in C'. rewrite plus_IZR in C'.
  pose proof (Rle_abs (IZR (rint x) - x)). pose proof (Rle_abs (- (IZR (rint y) - y))).
  rewrite Rabs_Ropp in H1.
  (* both must be ties at the same point *)
  assert (x = y) by lra. subst y. lia.
Qed.

Lemma round_to_ts_spec v ts : 0 < ts ->
  (exists z, round_to_ts v ts = IZR z * ts) /\
  Rabs (round_to_ts v ts - v) <= ts / 2 /\
  (forall z, v = IZR z * ts -> round_to_ts v ts = v) /\
  (Rabs (round_to_ts v ts - v) = ts / 2 ->
     exists z, round_to_ts v ts = IZR z * ts /\ Z.even z = true).
Proof.
  intros Hts. unfold round_to_ts.
  assert (HE : Rabs (IZR (rint (v / ts)) * ts - v) = Rabs (IZR (rint (v / ts)) - v / ts) * ts).
  { replace (IZR (rint (v / ts)) * ts - v) with ((IZR (rint (v / ts)) - v / ts) * ts) by (field; lra).
    rewrite Rabs_mult, (Rabs_right ts); lra. }
  repeat split.
  - eauto.
  - rewrite HE. pose proof (rint_err (v / ts)). nra.
  - intros z ->. replace (IZR z * ts / ts) with (IZR z) by (field; lra). now rewrite rint_int.
  - intros H. rewrite HE in H. exists (rint (v / ts)). split; auto. apply rint_tie.
    apply Rmult_eq_reg_r with ts; lra.
Qed.

Lemma round_to_ts_mono x y ts : 0 < ts -> x <= y -> round_to_ts x ts <= round_to_ts y ts.
Proof.
  intros Hts H. unfold round_to_ts. apply Rmult_le_compat_r; [lra|]. apply IZR_le, rint_mono.
  apply Rmult_le_compat_r; auto. left. now apply Rinv_0_lt_compat.
Qed.

(** * Randomised ages *)
Lemma new_age_range {D} ts (c : crater D) u :
  0 < ts -> 0 <= c_low c -> 0 <= c_upp c -> 0 < c_low c + c_upp c ->
  trunc_a c <= u <= trunc_b c ->
  (exists z, new_age ts c u = IZR z * ts) /\
  c_age c - c_low c - ts / 2 <= new_age ts c u <= c_age c + c_upp c + ts / 2.
Proof.
  intros Hts H1 H2 H3 Hu. unfold new_age.
  destruct (round_to_ts_spec (c_age c + age_sig c * u) ts Hts) as (Hz & He & _).
  split; auto.
  assert (Hs : 0 < age_sig c) by (unfold age_sig; lra).
  assert (c_age c - c_low c <= c_age c + age_sig c * u <= c_age c + c_upp c).
  { unfold trunc_a, trunc_b in Hu. destruct Hu as [Ha Hb].
    apply Rmult_le_compat_l with (r := age_sig c) in Ha; [|lra].
    apply Rmult_le_compat_l with (r := age_sig c) in Hb; [|lra].
    replace (age_sig c * (- c_low c / age_sig c)) with (- c_low c) in Ha by (field; lra).
    replace (age_sig c * (c_upp c / age_sig c)) with (c_upp c) in Hb by (field; lra). lra. }
  apply Rabs_def2b in He || (unfold Rabs in He; destruct (Rcase_abs _) in He).
  all: lra.
Qed.

Lemma randomize_spec {D} (sort : list (crater D) -> list (crater D)) ts cs us :
  sorts_by_age sort -> 0 < ts ->
  Forall2 (fun c u => 0 <= c_low c /\ 0 <= c_upp c /\ 0 < c_low c + c_upp c /\
                      trunc_a c <= u <= trunc_b c) cs us ->
  exists ages,
    Forall2 (fun c a => (exists z, a = IZR z * ts) /\
       c_age c - c_low c - ts / 2 <= a <= c_age c + c_upp c + ts / 2) cs ages /\
    Permutation (randomize_crater_ages sort ts cs us)
                (map (fun '(c, a) => set_age c a) (combine cs ages)) /\
    Sorted (fun a b => c_age b <= c_age a) (randomize_crater_ages sort ts cs us).
Proof.
  intros Hsort Hts HF.
  exists (map (fun '(c, u) => new_age ts c u) (combine cs us)).
  split; [|split].
  - induction HF as [|c u cs us Hcu HF IH]; cbn [combine map]; constructor; auto.
    apply new_age_range; tauto.
  - unfold randomize_crater_ages. destruct (Hsort
      (map (fun '(c, u) => set_age c (new_age ts c u)) (combine cs us))) as [HP _].
    eapply Permutation_trans; [exact HP|].
    replace (map (fun '(c, u) => set_age c (new_age ts c u)) (combine cs us))
      with (map (fun '(c, a) => set_age c a) (combine cs (map (fun '(c, u) => new_age ts c u) (combine cs us)))).
    + apply Permutation_refl.
    + clear. revert us. induction cs as [|c cs IH]; intros [|u us]; cbn [combine map]; auto.
      now rewrite IH.
  - apply Hsort.
Qed.

(** A sort that satisfies the hypothesis. *)
Fixpoint insert_age {D} (c : crater D) (l : list (crater D)) : list (crater D) :=
  match l with
  | [] => [c]
  | x :: r => if Rleb (c_age x) (c_age c) then c :: x :: r else x :: insert_age c r
  end.
Definition isort_age {D} (l : list (crater D)) : list (crater D) := fold_right insert_age [] l.

Lemma isort_age_ok {D} : @sorts_by_age D isort_age.
Proof.
  intros l. induction l as [|c l [HP HS]]; cbn [isort_age fold_right]; [split; auto|].
  fold (@isort_age D l). set (s := isort_age l) in *. split.
  - eapply Permutation_trans; [|apply perm_skip; exact HP]. clear.
    induction s as [|x s IH]; cbn [insert_age]; auto.
    destruct (Rleb (c_age x) (c_age c)); auto.
    eapply Permutation_trans; [apply perm_skip, IH|]. apply perm_swap.
  - clear HP. induction HS as [|x s HS IH Hd]; cbn [insert_age]; [repeat constructor|].
    destruct (Rleb (c_age x) (c_age c)) eqn:E.
    + apply Rleb_true in E. constructor; [constructor; auto|constructor; lra].
    + apply Rleb_false in E. constructor; auto.
      destruct s as [|y s]; cbn [insert_age]; [constructor; lra|].
      destruct (Rleb (c_age y) (c_age c)); constructor; [lra|]. now inversion Hd.
Qed.

Lemma age_support {D} (c : crater D) :
  0 <= c_low c -> 0 <= c_upp c -> 0 < c_low c + c_upp c ->
  forall a, (exists u, trunc_a c <= u <= trunc_b c /\ a = c_age c + age_sig c * u) <->
            c_age c - c_low c <= a <= c_age c + c_upp c.
Proof.
  intros H1 H2 H3 a. assert (Hs : 0 < age_sig c) by (unfold age_sig; lra).
  unfold trunc_a, trunc_b. split.
  - intros (u & [Ha Hb] & ->).
    apply Rmult_le_compat_l with (r := age_sig c) in Ha; [|lra].
    apply Rmult_le_compat_l with (r := age_sig c) in Hb; [|lra].
    replace (age_sig c * (- c_low c / age_sig c)) with (- c_low c) in Ha by (field; lra).
    replace (age_sig c * (c_upp c / age_sig c)) with (c_upp c) in Hb by (field; lra). lra.
  - intros [Ha Hb]. exists ((a - c_age c) / age_sig c). split; [|field; lra].
    split; apply Rmult_le_compat_r; try lra; left; now apply Rinv_0_lt_compat.
Qed.

Lemma rint_eq x z : Rabs (IZR z - x) < 1 / 2 -> rint x = z.
Proof.
  intros H. pose proof (rint_err x) as He.
  apply Rabs_def2 in H.
  assert (- (1 / 2) <= IZR (rint x) - x <= 1 / 2).
  { unfold Rabs in He. destruct (Rcase_abs (IZR (rint x) - x)); lra. }
  assert (A : IZR (rint x) < IZR (z + 1)) by (rewrite plus_IZR; lra).
  assert (B : IZR z < IZR (rint x + 1)) by (rewrite plus_IZR; lra).
  apply lt_IZR in A, B. lia.
Qed.

Lemma rint_half z : Z.even z = true ->
  rint (IZR z + 1 / 2) = z /\ rint (IZR z - 1 / 2) = z.
Proof.
  intros Hz. unfold rint. split.
  - rewrite (Int_part_unique _ z) by lra.
    rcase (IZR z + 1 / 2 - IZR z) (1 / 2) E1'; [auto|].
    rcase (1 / 2) (IZR z + 1 / 2 - IZR z) E2'; [lra|]. now rewrite Hz.
  - rewrite (Int_part_unique _ (z - 1)) by (rewrite minus_IZR; lra).
    rewrite minus_IZR.
    rcase (IZR z - 1 / 2 - (IZR z - 1)) (1 / 2) E1'; [lra|].
    rcase (1 / 2) (IZR z - 1 / 2 - (IZR z - 1)) E2'; [lra|].
    replace (Z.even (z - 1)) with false; [lia|]. rewrite Z.even_sub, Hz. reflexivity.
Qed.

Lemma round_to_ts_cases : round_to_ts 25 10 = 20 /\ round_to_ts 35 10 = 40 /\ round_to_ts 26 10 = 30.
Proof.
  unfold round_to_ts. repeat split.
  - replace (25 / 10) with (IZR 2 + 1 / 2) by lra.
    destruct (rint_half 2 eq_refl) as [-> _]. lra.
  - replace (35 / 10) with (IZR 4 - 1 / 2) by lra.
    destruct (rint_half 4 eq_refl) as [_ ->]. lra.
  - rewrite (rint_eq (26 / 10) 3); [lra|]. unfold Rabs. destruct (Rcase_abs _); lra.
Qed.

Lemma filter_filter {A} (p q : A -> bool) l :
  filter q (filter p l) = filter (fun x => p x && q x) l.
Proof.
  induction l as [|x l IH]; auto. cbn [filter].
  destruct (p x); cbn [filter andb]; [destruct (q x)|]; rewrite ?IH; auto.
Qed.

Lemma placement {V} (agg : V -> V -> V) fill tol time events lo hi :
  is_min time lo -> is_max time hi ->
  exists (at_ : R -> nat) out,
    (forall age, first_nearest time age (at_ age)) /\
    ages2time agg fill tol time events = Ok out /\ length out = length time /\
    forall k, (k < length time)%nat ->
      nth_error out k = Some (fold_left agg
        (map snd (filter (fun ev => Rleb (lo - Rabs lo * tol) (fst ev)
                                    && Rleb (fst ev) (hi + Rabs hi * tol)
                                    && Nat.eqb (at_ (fst ev)) k) events)) fill).
Proof.
  intros Hlo Hhi.
  assert (Hne : time <> []) by (intros ->; destruct Hlo as [[] _]).
  destruct (ages2time_spec agg fill tol time events lo hi Hlo Hhi) as (out & H1 & H2 & H3).
  exists (nearest_idx time), out. repeat split; auto.
  - intros a. now apply nearest_idx_spec.
  - intros k Hk. rewrite (H3 k Hk), filter_filter. reflexivity.
Qed.
