From Coq Require Import String List ZArith Reals Lia Lra Psatz Bool Sorted Permutation.
From Verif Require Import Base Model_Time Model_Geo Model_Interp Model_Crater Model_Strat Model_Melt
  Spec_Time Spec_Melt Proofs_Base Proofs_Time Proofs_Geo Proofs_Interp.
Import ListNotations.
Open Scope R_scope.

(** ** Sorted labels *)

Lemma insert_uniq_In x y l : In y (insert_uniq x l) <-> y = x \/ In y l.
Proof.
  induction l as [|z l IH]; cbn [insert_uniq].
  - cbn. intuition.
  - rcase x z E1'; [cbn; intuition|]. unfold Reqb. destruct (Req_EM_T x z) as [->|N].
    + cbn. intuition.
    + cbn [In]. rewrite IH. intuition.
Qed.

Lemma insert_uniq_SS x l : StronglySorted Rlt l -> StronglySorted Rlt (insert_uniq x l).
Proof.
  induction 1 as [|z l HS IH HF]; cbn [insert_uniq].
  - repeat constructor.
  - rcase x z E1'.
    + constructor; [constructor; auto|]. constructor; auto.
      eapply Forall_impl; [|exact HF]. cbn. intros. lra.
    + unfold Reqb. destruct (Req_EM_T x z) as [->|N]; [constructor; auto|].
      constructor; auto. apply Forall_forall. intros y Hy. apply insert_uniq_In in Hy.
      destruct Hy as [->|Hy]; [lra|]. rewrite Forall_forall in HF. auto.
Qed.

Lemma sort_unique_In y l : In y (sort_unique l) <-> In y l.
Proof.
  induction l as [|x l IH]; cbn [sort_unique fold_right]; [tauto|].
  rewrite insert_uniq_In. unfold sort_unique in IH. rewrite IH. cbn. intuition.
Qed.

Lemma sort_unique_SS l : StronglySorted Rlt (sort_unique l).
Proof. induction l; cbn [sort_unique fold_right]; [constructor|]. now apply insert_uniq_SS. Qed.

Lemma SS_NoDup l : StronglySorted Rlt l -> NoDup l.
Proof.
  induction 1 as [|x l HS IH HF]; constructor; auto.
  intros Hx. rewrite Forall_forall in HF. specialize (HF x Hx). lra.
Qed.

Lemma index_of_Some x l i : index_of x l = Some i -> nth_error l i = Some x.
Proof.
  revert i. induction l as [|y l IH]; intros i; cbn [index_of]; [discriminate|].
  unfold Reqb. destruct (Req_EM_T x y) as [->|N].
  - intros [= <-]. reflexivity.
  - destruct (index_of x l) as [k|]; [|discriminate]. cbn. intros [= <-]. cbn. auto.
Qed.

Lemma index_of_In x l : In x l -> exists i, index_of x l = Some i.
Proof.
  induction l as [|y l IH]; cbn [index_of In]; [tauto|]. intros H.
  unfold Reqb. destruct (Req_EM_T x y) as [->|N]; [eauto|].
  destruct IH as [i Hi]; [destruct H; congruence|]. rewrite Hi. cbn. eauto.
Qed.

Lemma index_of_None x l : ~ In x l -> index_of x l = None.
Proof.
  destruct (index_of x l) as [i|] eqn:E; auto. intros H. elim H.
  eapply nth_error_In, index_of_Some; eauto.
Qed.

Lemma NoDup_index (l : list R) i j x : NoDup l -> nth_error l i = Some x -> nth_error l j = Some x -> i = j.
Proof.
  intros N Hi Hj. rewrite NoDup_nth_error in N. apply N; [|congruence].
  apply nth_error_Some. congruence.
Qed.

Lemma index_of_nth x l i : NoDup l -> nth_error l i = Some x -> index_of x l = Some i.
Proof.
  intros N Hi. destruct (index_of_In x l) as [k Hk]; [eapply nth_error_In; eauto|].
  rewrite Hk. f_equal. eapply NoDup_index; eauto using index_of_Some.
Qed.

(** In an increasing list positions are counts of smaller labels. *)
Lemma SS_rank l i x : StronglySorted Rlt l -> nth_error l i = Some x ->
  length (filter (fun y => Rltb y x) l) = i.
Proof.
  intros HS. revert i. induction HS as [|z l HS IH HF]; intros i Hi; [destruct i; discriminate|].
  destruct i as [|i]; cbn [nth_error] in Hi.
  - injection Hi as ->. cbn [filter]. rcase x x E1'; [lra|].
    assert (G : filter (fun y => Rltb y x) l = []); [|now rewrite G].
    clear IH HS E1'. induction HF as [|y l Hy HF IH]; cbn [filter]; auto. rcase y x E2'; [lra|auto].
  - cbn [filter]. assert (z < x).
    { rewrite Forall_forall in HF. apply HF. eapply nth_error_In; eauto. }
    rcase z x E1'; [|lra]. cbn [length]. f_equal. auto.
Qed.

Lemma filter_split_count l lo x : lo <= x ->
  length (filter (fun y => Rltb y x) l) = (length (filter (fun y => Rltb y lo) l) + count l lo x)%nat.
Proof.
  intros H. unfold count. induction l as [|y l IH]; cbn [filter]; [reflexivity|].
  destruct (Rleb lo y) eqn:E3'; [apply Rleb_true in E3'|apply Rleb_false in E3'];
    rcase y x E1'; rcase y lo E2'; cbn [andb length]; try (exfalso; lra); lia.
Qed.

Lemma SS_count l i j lo x : StronglySorted Rlt l -> nth_error l i = Some lo -> nth_error l j = Some x ->
  lo <= x -> j = (i + count l lo x)%nat.
Proof.
  intros HS Hi Hj H. pose proof (filter_split_count l lo x H) as E.
  rewrite (SS_rank l i lo HS Hi), (SS_rank l j x HS Hj) in E. exact E.
Qed.

Lemma Permutation_filter_length {A} (p : A -> bool) l l' :
  Permutation l l' -> length (filter p l) = length (filter p l').
Proof.
  induction 1; cbn [filter]; auto; try congruence.
  - destruct (p x); cbn [length]; congruence.
  - destruct (p x), (p y); cbn [length]; congruence.
Qed.

Lemma labels_count axis q L L' lo x : labels axis q L -> labels axis q L' -> count L lo x = count L' lo x.
Proof.
  intros [N H] [N' H']. apply Permutation_filter_length.
  apply NoDup_Permutation; auto. intros y. now rewrite H, H'.
Qed.

(** ** One interpolated series *)

Lemma knots_ge l : forall k, Forall (fun p => INR k <= fst p) (knots_from k l).
Proof.
  induction l as [|[v|] l IH]; intros k; cbn [knots_from]; [constructor| |].
  - constructor; [cbn [fst]; lra|]. eapply Forall_impl; [|apply IH].
    intros p. cbv beta. rewrite S_INR. lra.
  - eapply Forall_impl; [|apply IH]. intros p. cbv beta. rewrite S_INR. lra.
Qed.

Lemma knots_increasing l : forall k, increasing_x (knots_from k l).
Proof.
  induction l as [|[v|] l IH]; intros k; cbn [knots_from]; [constructor| |apply IH].
  constructor; [apply IH|]. eapply Forall_impl; [|apply (knots_ge l (S k))].
  intros p. cbv beta. cbn [fst]. rewrite S_INR. lra.
Qed.

Lemma first_knot l : forall k b v, nth_error l b = Some (Some v) ->
  (forall i, (i < b)%nat -> nth_error l i = Some None) ->
  exists r, knots_from k l = (INR (k + b), v) :: r.
Proof.
  induction l as [|o l IH]; intros k b v Hb Hn; [destruct b; discriminate|].
  destruct b as [|b]; cbn [nth_error] in Hb.
  - injection Hb as ->. cbn [knots_from]. rewrite Nat.add_0_r. eauto.
  - specialize (Hn 0%nat ltac:(lia)) as Ho. cbn in Ho. injection Ho as ->. cbn [knots_from].
    destruct (IH (S k) b v Hb) as [r Hr].
    { intros i Hi. apply (Hn (S i)). lia. }
    rewrite Hr. replace (S k + b)%nat with (k + S b)%nat by lia. eauto.
Qed.

Lemma adjacent_knots l : forall k a b va vb, (a < b)%nat ->
  nth_error l a = Some (Some va) -> nth_error l b = Some (Some vb) ->
  (forall i, (a < i < b)%nat -> nth_error l i = Some None) ->
  exists m, nth_error (knots_from k l) m = Some (INR (k + a), va) /\
            nth_error (knots_from k l) (S m) = Some (INR (k + b), vb).
Proof.
  induction l as [|o l IH]; intros k a b va vb Hab Ha Hb Hn; [destruct a; discriminate|].
  destruct b as [|b]; [lia|]. destruct a as [|a]; cbn [nth_error] in Ha, Hb.
  - injection Ha as ->. cbn [knots_from]. exists 0%nat. cbn [nth_error]. rewrite Nat.add_0_r. split; auto.
    destruct (first_knot l (S k) b vb Hb) as [r Hr].
    { intros i Hi. apply (Hn (S i)). lia. }
    rewrite Hr. cbn. now replace (k + S b)%nat with (S (k + b)) by lia.
  - destruct (IH (S k) a b va vb) as (m & M1 & M2); auto; [lia| |].
    { intros i Hi. apply (Hn (S i)). lia. }
    replace (k + S a)%nat with (S k + a)%nat by lia. replace (k + S b)%nat with (S k + b)%nat by lia.
    destruct o as [v|]; cbn [knots_from]; [exists (S m)|exists m]; auto.
Qed.

Lemma interpolate_length l : length (interpolate l) = length l.
Proof. unfold interpolate. now rewrite map_length, combine_length, seq_length, Nat.min_id. Qed.

Lemma interpolate_nth l k v : nth_error l k = Some v ->
  nth_error (interpolate l) k = Some (fill_at (knots_from 0 l) k v).
Proof.
  intros H. unfold interpolate. rewrite nth_error_map, nth_error_combine, H.
  rewrite nth_error_seq by (apply nth_error_Some; congruence). reflexivity.
Qed.

Lemma interpolate_valid l k v : nth_error l k = Some (Some v) ->
  nth_error (interpolate l) k = Some (Some v).
Proof. intros H. now rewrite (interpolate_nth _ _ _ H). Qed.

Lemma interpolate_gap l a b va vb k : (a < b)%nat ->
  nth_error l a = Some (Some va) -> nth_error l b = Some (Some vb) ->
  (forall i, (a < i < b)%nat -> nth_error l i = Some None) -> (a <= k <= b)%nat ->
  nth_error (interpolate l) k = Some (Some (mix (INR (k - a) / INR (b - a)) va vb)).
Proof.
  intros Hab Ha Hb Hn Hk.
  assert (P : 0 < INR b - INR a) by (apply lt_INR in Hab; lra).
  rewrite !minus_INR by lia.
  destruct (Nat.eq_dec k a) as [->|Na].
  { rewrite (interpolate_valid _ _ _ Ha). unfold mix. do 2 f_equal. unfold Rdiv. ring. }
  destruct (Nat.eq_dec k b) as [->|Nb].
  { rewrite (interpolate_valid _ _ _ Hb). unfold mix. do 2 f_equal. field. lra. }
  rewrite (interpolate_nth _ _ None) by (apply Hn; lia). f_equal.
  destruct (adjacent_knots l 0 a b va vb Hab Ha Hb Hn) as (m & M1 & M2). cbn [plus] in M1, M2.
  pose proof (knots_increasing l 0) as HS. unfold fill_at.
  destruct (knots_from 0 l) as [|[x0 y0] r] eqn:E; [destruct m; discriminate|]. rewrite <- E in *.
  assert (X0 : x0 <= INR a).
  { destruct m as [|m]; [rewrite E in M1; cbn in M1; injection M1 as -> ->; lra|].
    assert (M0 : nth_error (knots_from 0 l) 0 = Some (x0, y0)) by (rewrite E; reflexivity).
    pose proof (SS_nth _ _ 0 (S m) _ _ HS ltac:(lia) M0 M1) as Q. cbn [fst] in Q. lra. }
  assert (INR a <= INR k) by (apply le_INR; lia). assert (INR k <= INR b) by (apply le_INR; lia).
  rcase (INR k) x0 E1'; [lra|].
  set (w := (INR k - INR a) / (INR b - INR a)).
  assert (W : 0 <= w <= 1).
  { unfold w. split; [apply Rmult_le_pos; [lra|left; apply Rinv_0_lt_compat; lra]|].
    apply Rmult_le_reg_r with (INR b - INR a); [lra|]. unfold Rdiv. rewrite Rmult_assoc, Rinv_l by lra. lra. }
  replace (INR k) with ((1 - w) * INR a + w * INR b) by (unfold w; field; lra).
  rewrite (interp_linear _ _ _ _ _ _ w HS M1 M2 W). unfold mix. f_equal. ring.
Qed.

Lemma interpolate_none l k : (forall i v, nth_error l i = Some v -> v = None) -> (k < length l)%nat ->
  nth_error (interpolate l) k = Some None.
Proof.
  intros H Hk. destruct (nth_error l k) as [v|] eqn:E.
  2:{ apply nth_error_None in E. lia. }
  rewrite (interpolate_nth _ _ _ E), (H _ _ E). clear v E Hk. f_equal.
  replace (knots_from 0 l) with (@nil (R * R)); [reflexivity|].
  generalize 0%nat as n. induction l as [|o l IH]; intros n; cbn [knots_from]; auto.
  rewrite (H 0%nat o eq_refl). apply IH. intros i v Hi. apply (H (S i) v Hi).
Qed.

(** ** The interpolated table *)

Lemma cell_value t mr temp v : good_table t -> value_at t mr temp v -> cell t mr temp = Some v.
Proof.
  intros (_ & _ & S1 & S2 & _) (i & j & row & A & B & C & D). unfold cell.
  rewrite (index_of_nth mr _ i), (index_of_nth temp _ j) by auto using SS_NoDup. now rewrite C.
Qed.

Lemma cell_no_mr t mr temp : ~ In mr (t_mrs t) -> cell t mr temp = None.
Proof. intros H. unfold cell. now rewrite (index_of_None _ _ H). Qed.

Lemma cell_no_temp t mr temp : ~ In temp (t_temps t) -> cell t mr temp = None.
Proof. intros H. unfold cell. rewrite (index_of_None _ _ H). now destruct (index_of mr _). Qed.

Lemma value_exists t mr temp : good_table t -> In mr (t_mrs t) -> In temp (t_temps t) ->
  exists v, value_at t mr temp v.
Proof.
  intros (_ & _ & _ & _ & L & F) Hm Ht.
  apply In_nth_error in Hm as [i Hi]. apply In_nth_error in Ht as [j Hj].
  destruct (nth_error (t_vals t) i) as [row|] eqn:E.
  2:{ apply nth_error_None in E. assert (i < length (t_mrs t))%nat by (apply nth_error_Some; congruence). lia. }
  pose proof (Forall_nth_error _ _ _ _ F E) as Lr. cbn in Lr.
  destruct (nth_error row j) as [v|] eqn:E'.
  2:{ apply nth_error_None in E'. assert (j < length (t_temps t))%nat by (apply nth_error_Some; congruence). lia. }
  exists v, i, j, row. auto.
Qed.

Lemma value_unique t mr temp v v' : good_table t -> value_at t mr temp v -> value_at t mr temp v' -> v = v'.
Proof. intros G H H'. apply cell_value in H, H'; auto. congruence. Qed.

(** Interpolating the entries [f label] of an increasing list of labels, where [f] is
    defined on the labels of an axis only. *)
Lemma interpolate_axis (f : R -> option R) axis L lo hi x vlo vhi k :
  StronglySorted Rlt L -> (forall y, In y axis -> In y L) -> (forall y, ~ In y axis -> f y = None) ->
  bracket axis lo hi x -> f lo = Some vlo -> f hi = Some vhi -> nth_error L k = Some x ->
  nth_error (interpolate (map f L)) k = Some (Some (mix (rank_frac L lo hi x) vlo vhi)).
Proof.
  intros HS Sub Out (Hlo & Hhi & Hx & Gap) Flo Fhi Hk.
  apply Sub in Hlo, Hhi. apply In_nth_error in Hlo as [a Ha]. apply In_nth_error in Hhi as [b Hb].
  pose proof (SS_count L a k lo x HS Ha Hk ltac:(lra)) as Ck.
  pose proof (SS_count L a b lo hi HS Ha Hb ltac:(lra)) as Cb.
  destruct (Req_dec lo hi) as [Eq|Ne].
  - subst hi. assert (x = lo) by lra. subst x. assert (vhi = vlo) by congruence. subst vhi.
    rewrite (interpolate_valid _ _ vlo). { unfold mix. do 2 f_equal. ring. }
    now rewrite nth_error_map, Hk, <- Flo.
  - assert (Ck' : (k <= b)%nat).
    { destruct (Nat.le_gt_cases k b) as [|Q]; auto.
      pose proof (SS_nth _ _ b k _ _ HS Q Hb Hk). lra. }
    assert (a <> b) by (intros ->; rewrite Ha in Hb; injection Hb as ->; congruence).
    assert (a < b)%nat by lia.
    rewrite (interpolate_gap _ a b vlo vhi k); try lia.
    + unfold rank_frac. do 4 f_equal; f_equal; lia.
    + now rewrite nth_error_map, Ha, <- Flo.
    + now rewrite nth_error_map, Hb, <- Fhi.
    + intros i Hi. rewrite nth_error_map.
      destruct (nth_error L i) as [y|] eqn:E.
      2:{ apply nth_error_None in E. assert (b < length L)%nat by (apply nth_error_Some; congruence). lia. }
      cbn. f_equal. apply Out. intros Hy.
      pose proof (SS_nth _ _ a i _ _ HS ltac:(lia) Ha E). pose proof (SS_nth _ _ i b _ _ HS ltac:(lia) E Hb).
      destruct (Gap y Hy); lra.
Qed.

Lemma nth_of_error {A} (l : list A) i x d : nth_error l i = Some x -> nth i l d = x.
Proof. apply nth_error_nth. Qed.

Lemma interp_table_cell t M T m0 m1 t0 t1 mr temp v00 v01 v10 v11 i j :
  good_table t -> StronglySorted Rlt M -> StronglySorted Rlt T ->
  (forall y, In y (t_mrs t) -> In y M) -> (forall y, In y (t_temps t) -> In y T) ->
  bracket (t_mrs t) m0 m1 mr -> bracket (t_temps t) t0 t1 temp ->
  value_at t m0 t0 v00 -> value_at t m0 t1 v01 -> value_at t m1 t0 v10 -> value_at t m1 t1 v11 ->
  nth_error M i = Some mr -> nth_error T j = Some temp ->
  nth j (nth i (interp_table t M T) []) None =
    Some (mix (rank_frac T t0 t1 temp) (mix (rank_frac M m0 m1 mr) v00 v10) (mix (rank_frac M m0 m1 mr) v01 v11)).
Proof.
  intros G SM ST SubM SubT BM BT V00 V01 V10 V11 Hi Hj.
  assert (Li : (i < length M)%nat) by (apply nth_error_Some; congruence).
  unfold interp_table. rewrite (nth_of_error _ i (interpolate (map (fun temp' => nth i (interpolate (map (fun m => cell t m temp') M)) None) T))).
  2:{ rewrite nth_error_map, nth_error_seq by auto. cbn. now rewrite map_map. }
  apply nth_of_error.
  set (wm := rank_frac M m0 m1 mr).
  set (f := fun temp' => nth i (interpolate (map (fun m => cell t m temp') M)) None).
  assert (Col : forall temp' va vb, value_at t m0 temp' va -> value_at t m1 temp' vb -> f temp' = Some (mix wm va vb)).
  { intros temp' va vb Va Vb. unfold f. apply nth_of_error.
    apply (interpolate_axis _ (t_mrs t)); auto using cell_value.
    intros y Hy. now apply cell_no_mr. }
  apply (interpolate_axis f (t_temps t)); auto.
  intros y Hy. unfold f. apply nth_of_error. apply interpolate_none; [|now rewrite map_length].
  intros k v. rewrite nth_error_map. destruct (nth_error M k); [|discriminate]. cbn.
  intros [= <-]. now apply cell_no_temp.
Qed.

(** ** [get_melt_frac] *)

Lemma insert_labels src target : target <> [] ->
  exists L, insert_unique_in_range src target = Ok L /\ StronglySorted Rlt L /\
            labels target (fun y => In y src) L.
Proof.
  destruct target as [|x r]; [congruence|]. intros _. cbn [insert_unique_in_range].
  eexists. split; [reflexivity|]. split; [apply sort_unique_SS|].
  split; [apply SS_NoDup, sort_unique_SS|]. intros y.
  rewrite sort_unique_In, in_app_iff, filter_In, andb_true_iff, !Rltb_true.
  destruct (fold_Rmin_spec r x) as (A1 & A2 & A3). destruct (fold_Rmax_spec r x) as (B1 & B2 & B3).
  split; intros [H|H]; auto; right.
  - destruct H as [H1 H2]. split; auto. exists (list_min x r), (list_max x r). auto.
  - destruct H as [H1 (lo & hi & Hlo & Hhi & H2)]. split; auto.
    assert (list_min x r <= lo) by (destruct Hlo as [<-|Hlo]; auto).
    assert (hi <= list_max x r) by (destruct Hhi as [<-|Hhi]; auto). lra.
Qed.

Lemma labels_within axis q L x : labels axis q L -> q x -> (In x L <-> within axis x).
Proof.
  intros [_ H] Hq. rewrite H. split.
  - intros [Hx|(_ & lo & hi & A & B & C)]; [exists x, x|exists lo, hi]; repeat split; auto; lra.
  - intros (lo & hi & A & B & C).
    destruct (Req_dec lo x) as [<-|N1]; auto. destruct (Req_dec hi x) as [<-|N2]; auto.
    right. split; auto. exists lo, hi. repeat split; auto; lra.
Qed.

Lemma greatest_le (l : list R) x : (exists y, In y l /\ y <= x) ->
  exists lo, In lo l /\ lo <= x /\ forall y, In y l -> y <= x -> y <= lo.
Proof.
  induction l as [|z l IH]; intros (y & Hy & Hyx); [destruct Hy|].
  destruct (Rle_dec z x) as [Hz|Hz].
  - destruct (Exists_dec (fun y => y <= x) l (fun y => Rle_dec y x)) as [HE|HE].
    + apply Exists_exists in HE. destruct (IH HE) as (lo & A & B & C).
      destruct (Rle_dec z lo) as [D|D].
      * exists lo. repeat split; [now right|auto|]. intros w [<-|Hw] Hwx; auto.
      * apply Rnot_le_lt in D. exists z. repeat split; [now left|auto|].
        intros w [<-|Hw] Hwx; [lra|]. specialize (C w Hw Hwx). lra.
    + exists z. repeat split; [now left|auto|]. intros w [<-|Hw] Hwx; [lra|].
      elim HE. apply Exists_exists. eauto.
  - destruct IH as (lo & A & B & C).
    { destruct Hy as [->|Hy]; [contradiction|eauto]. }
    exists lo. repeat split; [now right|auto|]. intros w [<-|Hw] Hwx; [contradiction|auto].
Qed.

Lemma bracket_exists axis x : within axis x -> exists lo hi, bracket axis lo hi x.
Proof.
  intros (lo0 & hi0 & Hlo & Hhi & H).
  destruct (greatest_le axis x) as (lo & A & B & C); [exists lo0; split; auto; lra|].
  destruct (greatest_le (map Ropp axis) (- x)) as (nh & A' & B' & C').
  { exists (- hi0). split; [now apply in_map|lra]. }
  apply in_map_iff in A' as (hi & <- & A'). exists lo, hi. repeat split; auto; try lra.
  intros y Hy. destruct (Rle_dec y x) as [D|D]; [left; auto|].
  apply Rnot_le_lt in D. right. specialize (C' (- y) (in_map _ _ _ Hy) ltac:(lra)). lra.
Qed.

Lemma In_non_nan m y : In y (non_nan m) <-> In (Some y) (concat m).
Proof.
  unfold non_nan. rewrite in_flat_map. split.
  - intros ([z|] & H & H'); [destruct H' as [->|[]]; auto|destruct H'].
  - intros H. exists (Some y). split; auto. now left.
Qed.

Lemma cell_In {A} (m : list (list A)) i j x : cell_is m i j x -> In x (concat m).
Proof.
  intros (row & H & H'). apply in_concat. exists row. split; eapply nth_error_In; eauto.
Qed.

Lemma rank_frac_labels axis q L L' lo hi x : labels axis q L -> labels axis q L' ->
  rank_frac L lo hi x = rank_frac L' lo hi x.
Proof. intros H H'. unfold rank_frac. now rewrite !(labels_count axis q L L' _ _ H H'). Qed.

Lemma mapM_err {A B} (f : A -> result B) l e :
  (forall a, In a l -> (exists b, f a = Ok b) \/ f a = Err e) ->
  (exists a, In a l /\ f a = Err e) -> mapM f l = Err e.
Proof.
  induction l as [|x l IH]; intros H (a & Ha & Hf); [destruct Ha|]. cbn [mapM].
  destruct (H x (or_introl eq_refl)) as [[b Hb]|Hb]; rewrite Hb; cbn [bind]; auto.
  rewrite IH; [reflexivity|intros; apply H; now right|].
  destruct Ha as [->|Ha]; [congruence|eauto].
Qed.

Section Melt.
  Variables (t : table) (temps : list (list R)) (mrs : list (list (option R))).
  Hypothesis G : good_table t.
  Hypothesis Sh : same_shape temps mrs.

  Let qm (y : R) := In (Some y) (concat mrs).
  Let qt (y : R) := In y (concat temps).

  Lemma shape_cell i j o : cell_is mrs i j o -> exists temp, cell_is temps i j temp.
  Proof.
    intros (row & Hr & Hj). apply Forall2_nth_error in Sh as [L H].
    destruct (nth_error temps i) as [tr|] eqn:E.
    2:{ apply nth_error_None in E. assert (i < length mrs)%nat by (apply nth_error_Some; congruence). lia. }
    specialize (H i tr row E Hr).
    destruct (nth_error tr j) as [temp|] eqn:E'; [exists temp, tr; auto|].
    apply nth_error_None in E'. assert (j < length row)%nat by (apply nth_error_Some; congruence). lia.
  Qed.

  Lemma melt_unfold : exists M T,
    StronglySorted Rlt M /\ StronglySorted Rlt T /\ labels (t_mrs t) qm M /\ labels (t_temps t) qt T /\
    get_melt_frac t temps mrs =
      mapM (fun '(trow, mrow) =>
        mapM (fun '(temp, mr) =>
            match mr with
            | Some m => loc (interp_table t M T) M T m temp
            | None => Ok (Some 0)
            end) (combine trow mrow)) (combine temps mrs).
  Proof.
    destruct G as (N1 & N2 & _).
    destruct (insert_labels (non_nan mrs) (t_mrs t) N1) as (M & EM & SM & [LM1 LM2]).
    destruct (insert_labels (concat temps) (t_temps t) N2) as (T & ET & ST & LT).
    exists M, T. repeat split; auto; try apply LT.
    - intros H. apply LM2 in H as [H|[H H']]; auto. right. split; auto. now apply In_non_nan.
    - intros [H|[H H']]; apply LM2; auto. right. split; auto. now apply In_non_nan.
    - unfold get_melt_frac. rewrite ET. cbn [bind]. rewrite EM. reflexivity.
  Qed.

  (** A cell looked up in the interpolated table. *)
  Lemma loc_spec M T mr temp : StronglySorted Rlt M -> StronglySorted Rlt T ->
    labels (t_mrs t) qm M -> labels (t_temps t) qt T -> qm mr -> qt temp ->
    (within (t_mrs t) mr /\ within (t_temps t) temp ->
       exists v, loc (interp_table t M T) M T mr temp = Ok (Some v) /\ bilinear t M T mr temp v) /\
    (~ (within (t_mrs t) mr /\ within (t_temps t) temp) ->
       loc (interp_table t M T) M T mr temp = Err KeyError).
  Proof.
    intros SM ST LM LT Qm Qt. unfold loc.
    rewrite <- (labels_within _ _ _ _ LM Qm), <- (labels_within _ _ _ _ LT Qt). split.
    - intros [Im It].
      assert (Wm : within (t_mrs t) mr) by now apply (labels_within _ _ _ _ LM Qm).
      assert (Wt : within (t_temps t) temp) by now apply (labels_within _ _ _ _ LT Qt).
      destruct (index_of_In _ _ Im) as [i Hi]. destruct (index_of_In _ _ It) as [j Hj]. rewrite Hi, Hj.
      apply index_of_Some in Hi, Hj.
      assert (Q : forall m0 m1 t0 t1 v00 v01 v10 v11,
        bracket (t_mrs t) m0 m1 mr -> bracket (t_temps t) t0 t1 temp ->
        value_at t m0 t0 v00 -> value_at t m0 t1 v01 -> value_at t m1 t0 v10 -> value_at t m1 t1 v11 ->
        nth j (nth i (interp_table t M T) []) None = Some (mix (rank_frac T t0 t1 temp)
          (mix (rank_frac M m0 m1 mr) v00 v10) (mix (rank_frac M m0 m1 mr) v01 v11))).
      { intros. apply interp_table_cell; auto; intros y Hy; [apply LM|apply LT]; now left. }
      destruct (bracket_exists _ _ Wm) as (m0 & m1 & BM). destruct (bracket_exists _ _ Wt) as (t0 & t1 & BT).
      destruct (value_exists t m0 t0 G) as [v00 V00]; try apply BM; try apply BT.
      destruct (value_exists t m0 t1 G) as [v01 V01]; try apply BM; try apply BT.
      destruct (value_exists t m1 t0 G) as [v10 V10]; try apply BM; try apply BT.
      destruct (value_exists t m1 t1 G) as [v11 V11]; try apply BM; try apply BT.
      eexists. rewrite (Q _ _ _ _ _ _ _ _ BM BT V00 V01 V10 V11). split; [reflexivity|].
      intros a0 a1 b0 b1 w00 w01 w10 w11 B1 B2 W1 W2 W3 W4.
      pose proof (Q _ _ _ _ _ _ _ _ B1 B2 W1 W2 W3 W4) as E1'.
      rewrite (Q _ _ _ _ _ _ _ _ BM BT V00 V01 V10 V11) in E1'. now injection E1'.
    - intros H. destruct (index_of mr M) as [i|] eqn:Em; auto.
      destruct (index_of temp T) as [j|] eqn:Et; auto.
      elim H. split; eapply nth_error_In, index_of_Some; eauto.
  Qed.

  Lemma combine_cell trow mrow temp mr : In (trow, mrow) (combine temps mrs) ->
    In (temp, mr) (combine trow mrow) -> exists i j, cell_is temps i j temp /\ cell_is mrs i j mr.
  Proof.
    intros H H'. apply In_nth_error in H as [i Hi]. apply In_nth_error in H' as [j Hj].
    rewrite nth_error_combine in Hi. rewrite nth_error_combine in Hj. exists i, j. unfold cell_is.
    destruct (nth_error temps i) as [a|]; [|discriminate]. destruct (nth_error mrs i) as [b|]; [|discriminate].
    injection Hi as -> ->.
    destruct (nth_error trow j) as [a|] eqn:E; [|discriminate]. destruct (nth_error mrow j) as [b|] eqn:E'; [|discriminate].
    injection Hj as -> ->. split; [exists trow|exists mrow]; auto.
  Qed.

  Lemma melt_spec : all_within t temps mrs -> exists out,
    get_melt_frac t temps mrs = Ok out /\ same_shape out mrs /\
    (forall i j, cell_is mrs i j None -> cell_is out i j (Some 0)) /\
    (forall M T i j mr temp, labels (t_mrs t) qm M -> labels (t_temps t) qt T ->
       cell_is temps i j temp -> cell_is mrs i j (Some mr) ->
       exists v, cell_is out i j (Some v) /\ bilinear t M T mr temp v).
  Proof.
    intros W. destruct melt_unfold as (M & T & SM & ST & LM & LT & ->).
    set (f := fun '(temp, mr) => match mr with Some m => loc (interp_table t M T) M T m temp | None => Ok (Some 0) end).
    change (fun '(trow, mrow) => mapM _ (combine trow mrow)) with (fun p : list R * list (option R) => let '(trow, mrow) := p in mapM f (combine trow mrow)).
    destruct (mapM_total (fun p : list R * list (option R) => let '(trow, mrow) := p in mapM f (combine trow mrow)) (combine temps mrs)) as [out Ho].
    { intros [trow mrow] Hr. apply mapM_total. intros [temp [mr|]] Hc; cbn [f]; eauto.
      destruct (combine_cell _ _ _ _ Hr Hc) as (i & j & C1 & C2).
      destruct (loc_spec M T mr temp SM ST LM LT (cell_In _ _ _ _ C2) (cell_In _ _ _ _ C1)) as [H _].
      destruct (H (W i j temp mr C1 C2)) as (v & -> & _). eauto. }
    exists out. split; auto. destruct (mapM_nth _ _ _ Ho) as [L N].
    assert (Cell : forall i j temp mr, cell_is temps i j temp -> cell_is mrs i j mr ->
      exists o, cell_is out i j o /\ f (temp, mr) = Ok o).
    { intros i j temp mr (tr & A & B) (mrow & C & D).
      destruct (N i (tr, mrow)) as (row & R1 & R2); [now rewrite nth_error_combine, A, C|].
      cbv beta iota in R2. destruct (mapM_nth _ _ _ R2) as [L' N'].
      destruct (N' j (temp, mr)) as (o & O1 & O2); [now rewrite nth_error_combine, B, D|].
      exists o. split; auto. exists row. auto. }
    repeat split.
    - apply Forall2_nth_error. apply Forall2_nth_error in Sh as [L1 L2].
      rewrite combine_length in L. split; [lia|]. intros i row mrow R1 R2.
      destruct (nth_error temps i) as [tr|] eqn:E.
      2:{ apply nth_error_None in E. assert (i < length mrs)%nat by (apply nth_error_Some; congruence). lia. }
      destruct (N i (tr, mrow)) as (row' & R1' & R3); [now rewrite nth_error_combine, E, R2|].
      rewrite R1 in R1'. injection R1' as <-. cbv beta iota in R3. destruct (mapM_nth _ _ _ R3) as [L' _].
      rewrite combine_length in L'. specialize (L2 i tr mrow E R2). lia.
    - intros i j H. destruct (shape_cell _ _ _ H) as [temp Ht].
      destruct (Cell i j temp None Ht H) as (o & O1 & O2). cbn in O2. injection O2 as <-. auto.
    - intros M' T' i j mr temp LM' LT' Ht Hm.
      destruct (Cell i j temp (Some mr) Ht Hm) as (o & O1 & O2). cbn [f] in O2.
      destruct (loc_spec M T mr temp SM ST LM LT (cell_In _ _ _ _ Hm) (cell_In _ _ _ _ Ht)) as [H _].
      destruct (H (W i j temp mr Ht Hm)) as (v & E & B). rewrite E in O2. injection O2 as <-.
      exists v. split; auto. intros m0 m1 t0 t1 v00 v01 v10 v11 B1 B2 V1 V2 V3 V4.
      rewrite (rank_frac_labels _ _ _ _ _ _ _ LM' LM), (rank_frac_labels _ _ _ _ _ _ _ LT' LT).
      apply B; auto.
  Qed.

  Lemma melt_error : ~ all_within t temps mrs -> get_melt_frac t temps mrs = Err KeyError.
  Proof.
    intros W. destruct melt_unfold as (M & T & SM & ST & LM & LT & ->).
    assert (Cell : forall trow mrow temp mr, In (trow, mrow) (combine temps mrs) -> In (temp, mr) (combine trow mrow) ->
      (exists b, match mr with Some m => loc (interp_table t M T) M T m temp | None => Ok (Some 0) end = Ok b) \/
      match mr with Some m => loc (interp_table t M T) M T m temp | None => Ok (Some 0) end = Err KeyError).
    { intros trow mrow temp [mr|] Hr Hc; eauto. unfold loc.
      destruct (index_of mr M), (index_of temp T); eauto. }
    assert (Row : forall p, In p (combine temps mrs) ->
      (exists b, (let '(trow, mrow) := p in mapM (fun '(temp, mr) => match mr with Some m => loc (interp_table t M T) M T m temp | None => Ok (Some 0) end) (combine trow mrow)) = Ok b) \/
      (let '(trow, mrow) := p in mapM (fun '(temp, mr) => match mr with Some m => loc (interp_table t M T) M T m temp | None => Ok (Some 0) end) (combine trow mrow)) = Err KeyError).
    { intros [trow mrow] Hr. specialize (Cell trow mrow).
      assert (C : forall p, In p (combine trow mrow) ->
        (exists b, (let '(temp, mr) := p in match mr with Some m => loc (interp_table t M T) M T m temp | None => Ok (Some 0) end) = Ok b) \/
        (let '(temp, mr) := p in match mr with Some m => loc (interp_table t M T) M T m temp | None => Ok (Some 0) end) = Err KeyError)
        by (intros [temp mr] Hc; now apply Cell).
      clear Cell. revert C. generalize (combine trow mrow) as l. induction l as [|a l IH]; intros C; cbn [mapM]; eauto.
      destruct (C a (or_introl eq_refl)) as [[b Hb]|Hb]; rewrite Hb; cbn [bind]; auto.
      destruct IH as [[bs Hbs]|Hbs]; [intros; apply C; now right| |]; rewrite Hbs; cbn [bind]; eauto. }
    apply mapM_err; auto.
    (* the bad cell *)
    assert (HB : exists i j temp mr, cell_is temps i j temp /\ cell_is mrs i j (Some mr) /\
                 ~ (within (t_mrs t) mr /\ within (t_temps t) temp)).
    { apply Classical_Prop.NNPP. intros N. apply W. intros i j temp mr C1 C2.
      apply Classical_Prop.NNPP. intros N'. apply N. exists i, j, temp, mr. auto. }
    destruct HB as (i & j & temp & mr & Ht & Hm & Hb).
    pose proof (loc_spec M T mr temp SM ST LM LT (cell_In _ _ _ _ Hm) (cell_In _ _ _ _ Ht)) as [_ HE].
    specialize (HE Hb). destruct Ht as (tr & A & B). destruct Hm as (mrow & C & D).
    exists (tr, mrow). assert (Ir : In (tr, mrow) (combine temps mrs)).
    { eapply nth_error_In with (n := i). now rewrite nth_error_combine, A, C. }
    split; auto. apply mapM_err.
    - intros [temp' mr'] Hc. now apply (Cell tr mrow).
    - exists (temp, Some mr). split; auto. eapply nth_error_In with (n := j). now rewrite nth_error_combine, B, D.
  Qed.
End Melt.

(** ** Bounds *)
Lemma mix_between w a b lo hi : 0 <= w <= 1 -> lo <= a <= hi -> lo <= b <= hi -> lo <= mix w a b <= hi.
Proof. unfold mix. intros. split; nra. Qed.

Lemma count_mono L lo x hi : x <= hi -> (count L lo x <= count L lo hi)%nat.
Proof.
  intros H. unfold count. induction L as [|y L IH]; cbn [filter]; [lia|].
  destruct (Rleb lo y); cbn [andb]; auto.
  rcase y x E1'; rcase y hi E2'; cbn [length]; try lia; lra.
Qed.

Lemma rank_frac_range L lo hi x : In lo L -> lo < hi -> x <= hi -> 0 <= rank_frac L lo hi x <= 1.
Proof.
  intros Hl Hlh Hx. unfold rank_frac. pose proof (count_mono L lo x hi Hx) as C.
  assert (P : (0 < count L lo hi)%nat).
  { unfold count. assert (I : In lo (filter (fun y => Rleb lo y && Rltb y hi) L)).
    { apply filter_In. split; auto. apply andb_true_iff. rewrite Rleb_true, Rltb_true. lra. }
    destruct (filter (fun y => Rleb lo y && Rltb y hi) L); [destruct I|cbn; lia]. }
  apply lt_INR in P. apply le_INR in C. change (INR 0) with 0 in P. pose proof (pos_INR (count L lo x)).
  split.
  - apply Rmult_le_pos; auto. left. now apply Rinv_0_lt_compat.
  - apply Rmult_le_reg_r with (INR (count L lo hi)); auto. unfold Rdiv. rewrite Rmult_assoc, Rinv_l by lra. lra.
Qed.

(** Values between the four table values around the query. *)
Lemma bilinear_between t M T qm qt mr temp v m0 m1 t0 t1 lo hi : good_table t ->
  labels (t_mrs t) qm M -> labels (t_temps t) qt T -> bilinear t M T mr temp v ->
  bracket (t_mrs t) m0 m1 mr -> bracket (t_temps t) t0 t1 temp ->
  (forall m tt w, (m = m0 \/ m = m1) -> (tt = t0 \/ tt = t1) -> value_at t m tt w -> lo <= w <= hi) ->
  lo <= v <= hi.
Proof.
  intros G LM LT B BM BT V.
  destruct (value_exists t m0 t0 G) as [v00 V00]; try apply BM; try apply BT.
  destruct (value_exists t m0 t1 G) as [v01 V01]; try apply BM; try apply BT.
  destruct (value_exists t m1 t0 G) as [v10 V10]; try apply BM; try apply BT.
  destruct (value_exists t m1 t1 G) as [v11 V11]; try apply BM; try apply BT.
  rewrite (B _ _ _ _ _ _ _ _ BM BT V00 V01 V10 V11).
  assert (Q : forall axis q L a b x wa wb, labels axis q L -> bracket axis a b x -> (a = b -> wa = wb) ->
    lo <= wa <= hi -> lo <= wb <= hi -> lo <= mix (rank_frac L a b x) wa wb <= hi).
  { intros axis q L a b x wa wb HL (Ha & Hb & Hx & _) Heq H1 H2.
    destruct (Req_dec a b) as [E|N].
    - rewrite (Heq E). unfold mix. replace (wb + (wb - wb) * rank_frac L a b x) with wb by ring. auto.
    - apply mix_between; auto. apply rank_frac_range; try lra. apply HL. now left. }
  assert (U0 : m0 = m1 -> v00 = v10) by (intros <-; eapply value_unique; eauto).
  assert (U1 : m0 = m1 -> v01 = v11) by (intros <-; eapply value_unique; eauto).
  apply (Q (t_temps t) qt); auto.
  - intros <-. f_equal; eapply value_unique; eauto.
  - apply (Q (t_mrs t) qm); eauto.
  - apply (Q (t_mrs t) qm); eauto.
Qed.

Lemma labels_exist axis q L : (forall y, q y <-> In y L) -> axis <> [] -> exists L', labels axis q L'.
Proof.
  intros H N. destruct (insert_labels L axis N) as (L' & _ & _ & [A B]). exists L'. split; auto.
  intros y. rewrite B, <- H. tauto.
Qed.
