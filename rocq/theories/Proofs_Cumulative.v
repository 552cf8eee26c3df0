From Coq Require Import String List ZArith Reals Lia Lra Psatz Bool Permutation.
From Verif Require Import Base Model_Time Model_Crater Model_Ice Model_Rng Model_Strat Model_Main Model_Module Model_Cumulative
  Spec_Time Spec_Ice Spec_Main Spec_Module Spec_Cumulative Proofs_Base Proofs_Time Proofs_Ice Proofs_Strat Proofs_Main Proofs_Module.
Import ListNotations.
Open Scope R_scope.

Definition edge (n : nat) (lo hi : R) (k : nat) : R := lo + INR k * ((hi - lo) / INR n).
Lemma combine_tl {A} : forall (l : list A) d, combine l (tl l) = map (fun k => (nth k l d, nth (S k) l d)) (seq 0 (length l - 1)).
Proof.
  induction l as [|a l IH]; intros d; [reflexivity|]. cbn [tl length]. rewrite Nat.sub_succ, Nat.sub_0_r. destruct l as [|b l]; [reflexivity|].
  specialize (IH d). cbn [tl length] in IH. rewrite Nat.sub_succ, Nat.sub_0_r in IH. change (combine (a :: b :: l) (b :: l)) with ((a, b) :: combine (b :: l) l). rewrite IH.
  change (length (b :: l)) with (S (length l)). cbn [seq map]. f_equal. rewrite <- seq_shift, map_map. apply map_ext. intros k. reflexivity.
Qed.
Lemma bins_are n lo hi : (0 < n)%nat -> lo < hi ->
  cut_bins n lo hi = map (fun k => (edge n lo hi k - (if Nat.eqb k 0 then (hi - lo) / 1000 else 0), edge n lo hi (S k))) (seq 0 n).
Proof.
  intros Hn H. unfold cut_bins, cut_range. destruct (Reqb lo hi) eqn:E; [apply Reqb_true in E; lra|]. clear E.
  destruct n as [|n]; [lia|]. set (l := linspace lo hi (S (S n))).
  assert (Ll : l = map (edge (S n) lo hi) (seq 0 (S (S n)))).
  { unfold l, linspace. apply map_ext. intros i. unfold edge. rewrite (S_INR (S n)). f_equal. f_equal. f_equal. lra. }
  rewrite Ll. match goal with |- _ = ?r => set (rhs := r) end. cbn [seq map]. rewrite (combine_tl _ 0). cbn [length]. rewrite !map_length, seq_length. replace (S (S n) - 1)%nat with (S n) by lia. unfold rhs.
  apply map_ext_in. intros k I. apply in_seq in I. destruct k as [|k]; [reflexivity|]. cbn [Nat.eqb].
  assert (Nth : forall j, (j < S n)%nat -> nth j (map (edge (S n) lo hi) (seq 1 (S n))) 0 = edge (S n) lo hi (S j)).
  { intros j Hj. rewrite nth_indep with (d' := edge (S n) lo hi 0) by (rewrite map_length, seq_length; exact Hj). rewrite (map_nth (edge (S n) lo hi)), seq_nth by exact Hj. reflexivity. }
  change (edge (S n) lo hi 1 :: map (edge (S n) lo hi) (seq 2 n)) with (map (edge (S n) lo hi) (seq 1 (S n))). set (l1 := map (edge (S n) lo hi) (seq 1 (S n))) in *.
  change (nth (S k) ((edge (S n) lo hi 0 - (hi - lo) / 1000) :: l1) 0) with (nth k l1 0). change (nth (S (S k)) ((edge (S n) lo hi 0 - (hi - lo) / 1000) :: l1) 0) with (nth (S k) l1 0).
  rewrite !Nth by lia. f_equal. lra.
Qed.

Lemma bin_within n lo hi k x : (0 < n)%nat -> lo < hi -> lo <= x ->
  in_bin (edge n lo hi k - (if Nat.eqb k 0 then (hi - lo) / 1000 else 0), edge n lo hi (S k)) (Some x) = within n lo hi k x.
Proof.
  intros Hn H Hx. unfold in_bin, within. cbn [fst snd]. unfold edge. f_equal. destruct k as [|k].
  - cbn [Nat.eqb INR andb]. rewrite Rmult_0_l, Rplus_0_r. rewrite (proj2 (Rltb_true _ _)) by lra. symmetry. destruct (Reqb x lo) eqn:E; [now rewrite orb_true_r|].
    apply Reqb_false in E. rewrite (proj2 (Rltb_true _ _)) by lra. reflexivity.
  - cbn [Nat.eqb andb]. rewrite orb_false_r, Rminus_0_r. reflexivity.
Qed.

Lemma era_part b time (f : nat -> R) p : (forall x, In x time -> in_bin b (Some x) = p x) ->
  in_era b (map Some time) (map (fun i => Some (f i)) (seq 0 (length time))) =
  map f (filter (fun i => match nth_error time i with Some x => p x | None => false end) (seq 0 (length time))).
Proof.
  intros Hp. unfold in_era.
  assert (Q : forall l s (g : nat -> option R), (forall x, In x l -> in_bin b (Some x) = p x) -> (forall j, (j < length l)%nat -> g (s + j)%nat = nth_error l j) ->
    numbers (map snd (filter (fun q => in_bin b (fst q)) (combine (map Some l) (map (fun i => Some (f i)) (seq s (length l)))))) =
    map f (filter (fun i => match g i with Some x => p x | None => false end) (seq s (length l)))).
  { induction l as [|x l IH]; intros s g Hl Hg; [reflexivity|].
    pose proof (Hg 0%nat ltac:(cbn; lia)) as F0. rewrite Nat.add_0_r in F0. cbn [nth_error] in F0.
    assert (Hg' : forall j, (j < length l)%nat -> g (S s + j)%nat = nth_error l j).
    { intros j Hj. specialize (Hg (S j) ltac:(cbn; lia)). cbn [nth_error] in Hg. rewrite <- Hg. f_equal. lia. }
    specialize (IH (S s) g (fun y I => Hl y (or_intror I)) Hg'). cbn [length seq map combine filter fst]. rewrite F0, (Hl x (or_introl eq_refl)).
    destruct (p x); [|exact IH]. cbn [map snd]. unfold numbers in *. cbn [flat_map app]. f_equal. exact IH. }
  apply Q; [exact Hp|reflexivity].
Qed.
Lemma numbers_some l : numbers (map Some l) = l.
Proof. induction l as [|x l IH]; [reflexivity|]. unfold numbers in *. cbn. now rewrite IH. Qed.
Lemma nth_seq_map time : map Some time = map (fun i => Some (nth i time 0)) (seq 0 (length time)).
Proof.
  rewrite <- (map_map (fun i => nth i time 0) Some). f_equal. induction time as [|x l IH]; [reflexivity|]. cbn [length seq map nth]. f_equal.
  rewrite <- seq_shift, map_map. exact IH.
Qed.

(** Every time is in one part. *)
Lemma within_some n lo hi x : (0 < n)%nat -> lo < hi -> lo <= x <= hi -> exists k, (k < n)%nat /\ within n lo hi k x = true.
Proof.
  intros Hn H Hx. set (w := (hi - lo) / INR n). assert (Pn : 0 < INR n) by (apply lt_0_INR; lia). assert (Pw : 0 < w) by (unfold w; apply Rmult_lt_0_compat; [lra|now apply Rinv_0_lt_compat]).
  assert (Q : forall m, (m <= n)%nat -> x <= lo + INR m * w -> (0 < m)%nat -> exists k, (k < m)%nat /\ within n lo hi k x = true).
  { induction m as [|m IH]; intros Hm Hxm P; [lia|]. destruct (Rle_dec x (lo + INR m * w)) as [L|L].
    - destruct m as [|m].
      + exists 0%nat. split; [lia|]. unfold within. fold w. cbn [INR] in L. rewrite Rmult_0_l, Rplus_0_r in L. assert (x = lo) by lra. subst x. cbn [Nat.eqb andb]. rewrite (proj2 (Reqb_true lo lo)) by reflexivity.
        rewrite orb_true_r. cbn [andb]. apply Rleb_true. cbn [INR] in *. lra.
      + destruct IH as (k & Hk & W); [lia|exact L|lia|]. exists k. split; [lia|exact W].
    - exists m. split; [lia|]. unfold within. fold w. rewrite (proj2 (Rltb_true (lo + INR m * w) x)) by lra. cbn [orb andb]. apply Rleb_true. exact Hxm. }
  apply Q; [lia| |lia]. unfold w. replace (lo + INR n * ((hi - lo) / INR n)) with hi by (field; lra). lra.
Qed.
Lemma within_one n lo hi x j k : (0 < n)%nat -> lo < hi -> within n lo hi j x = true -> within n lo hi k x = true -> j = k.
Proof.
  intros Hn H Wj Wk. set (w := (hi - lo) / INR n) in *. assert (Pn : 0 < INR n) by (apply lt_0_INR; lia). assert (Pw : 0 < w) by (unfold w; apply Rmult_lt_0_compat; [lra|now apply Rinv_0_lt_compat]).
  assert (Q : forall j k, (j < k)%nat -> within n lo hi j x = true -> within n lo hi k x = true -> False).
  { clear j k Wj Wk. intros j k L Wj Wk. unfold within in *. fold w in Wj, Wk. apply andb_prop in Wj as [_ Wj]. apply andb_prop in Wk as [Wk _]. apply Rleb_true in Wj.
    destruct k as [|k]; [lia|]. cbn [Nat.eqb andb] in Wk. rewrite orb_false_r in Wk. apply Rltb_true in Wk. assert (INR (S j) <= INR (S k)) by (apply le_INR; lia). nra. }
  destruct (Nat.lt_trichotomy j k) as [L|[E|L]]; [elim (Q j k L Wj Wk)|exact E|elim (Q k j L Wk Wj)].
Qed.
Lemma parts_cover time n lo hi : (0 < n)%nat -> lo < hi -> Forall (fun x => lo <= x <= hi) time ->
  Permutation (concat (map (part time n lo hi) (seq 0 n))) (seq 0 (length time)).
Proof.
  intros Hn H F. apply NoDup_Permutation.
  - assert (N : forall s m, NoDup (concat (map (part time n lo hi) (seq s m)))).
    { intros s m. revert s. induction m as [|m IH]; intros s; [constructor|]. cbn [seq map concat].
      assert (X : forall a b : list nat, NoDup a -> NoDup b -> (forall z, In z a -> ~ In z b) -> NoDup (a ++ b)).
      { induction a as [|z a IHa]; intros b Na Nb D; [exact Nb|]. inversion Na; subst. cbn [app]. constructor; [|apply IHa; auto; intros y I; apply D; now right].
        intros I. apply in_app_or in I as [I|I]; [contradiction|]. exact (D z (or_introl eq_refl) I). }
      apply X; [apply NoDup_filter, seq_NoDup|apply IH|]. intros z I J. apply in_concat in J as (l & J & Jz). apply in_map_iff in J as (k & <- & Jk). apply in_seq in Jk.
      apply filter_In in I as [_ I]. apply filter_In in Jz as [_ Jz]. destruct (nth_error time z) as [x|]; [|discriminate]. pose proof (within_one n lo hi x s k Hn H I Jz). lia. }
    apply N.
  - apply seq_NoDup.
  - intros i. split.
    + intros I. apply in_concat in I as (l & J & Jz). apply in_map_iff in J as (k & <- & _). apply filter_In in Jz. tauto.
    + intros I. pose proof I as I'. apply in_seq in I'. destruct (nth_error time i) as [x|] eqn:E; [|apply nth_error_None in E; lia].
      rewrite Forall_forall in F. destruct (within_some n lo hi x Hn H (F x (nth_error_In _ _ E))) as (k & Hk & W). apply in_concat. exists (part time n lo hi k).
      split; [apply in_map_iff; exists k; split; [reflexivity|apply in_seq; lia]|]. apply filter_In. split; [exact I|]. now rewrite E.
Qed.

(** ** The curves *)
Definition is_depth (n : string) : bool := existsb (String.eqb n) depths.
Definition curve_of (x : col) (h : string -> col) (n : string) : curve :=
  mk_curve (is_depth n) (if is_depth n then append "Max " n else n) (combine x (h n)).
Lemma curves_ok x h : curves (x, map (fun n => (n, h n)) (ice8 ++ depths)) = Ok (map (curve_of x h) curve_names).
Proof. reflexivity. Qed.
Lemma curve_labelled x h n : In n curve_names -> labelled n (curve_of x h n).
Proof.
  intros I. unfold labelled, curve_of. cbn [cv_shade cv_label]. unfold curve_names in I. apply in_app_or in I as [I|I].
  - left. split; [exact I|]. unfold is_depth. rewrite (proj2 (existsb_exists _ _)) by (exists n; split; [exact I|apply String.eqb_refl]). split; reflexivity.
  - right. cbn [In] in I. repeat (destruct I as [<-|I]; [split; [cbn [all_ice crater_ice app In]; tauto|split; reflexivity]|]). destruct I.
Qed.
Lemma names_ok n : In n curve_names -> In n all_ice \/ In n depths.
Proof. unfold curve_names, depths, all_ice, crater_ice. cbn [app In]. tauto. Qed.

Lemma table_setup c ppf sort craters basins stream unseeded seeds : module_sane c ppf sort craters basins stream unseeded ->
  Forall (fun s => (0 <= s)%Z) seeds -> seeds <> [] ->
  exists time t (F : string -> nat -> R), get_time_array (r_rnd c) (r_start c) (r_end c) (r_step c) = Ok time /\ time <> [] /\
    get_ice_ast_comet_seeds c ppf sort craters basins stream unseeded seeds = Ok t /\
    t = (("time"%string, map Some time) :: tbl (ice8 ++ depths) (length time) (fun n i => Some (F n i))) /\
    (forall n i, In n curve_names -> (i < length time)%nat -> entry t n i (F n i)) /\
    (forall i x, nth_error time i = Some x -> entry t "time" i x).
Proof.
  intros H Hs Hn. destruct (table_form _ _ _ _ _ _ _ _ H Hs Hn) as (time & ast & com & F & H1 & H2 & _ & _ & _ & _ & H7 & _ & _).
  exists time, (("time"%string, map Some time) :: tbl (ice8 ++ depths) (length time) (fun n i => Some (F n i))), F.
  split; [exact H1|]. split; [exact H2|]. split; [exact H7|]. split; [reflexivity|]. split.
  - intros n i I Hi. apply entry_rest; [now apply names_ok|exact Hi].
  - intros i x E. exists (map Some time). split; [reflexivity|]. rewrite nth_error_map, E. reflexivity.
Qed.

Lemma grouped_ok time F bins : time <> [] -> forall lo hi, is_min time lo -> is_max time hi -> lo < hi ->
  grouped (("time"%string, map Some time) :: tbl (ice8 ++ depths) (length time) (fun n i => Some (F n i))) bins =
    let means f := map (fun k => agg_mean (map f (part time 85 lo hi k))) (seq 0 85) in
    Ok (means (fun i => nth i time 0), map (fun n => (n, means (F n))) (ice8 ++ depths)).
Proof.
  intros Ne lo hi Mn Mx H. unfold grouped. rewrite tcol_time. cbn [bind]. rewrite numbers_some. destruct time as [|x r] eqn:Et; [now elim Ne|]. rewrite <- Et in *.
  assert (Lo : list_min x r = lo).
  { destruct (fold_Rmin_spec r x) as (A & B & C). unfold list_min. destruct Mn as [I M]. rewrite Et in I, M. apply Rle_antisym.
    - destruct I as [->|I]; [exact B|]. now apply A.
    - apply M. exact C. }
  assert (Hi : list_max x r = hi).
  { destruct (fold_Rmax_spec r x) as (A & B & C). unfold list_max. destruct Mx as [I M]. rewrite Et in I, M. apply Rle_antisym.
    - apply M. exact C.
    - destruct I as [->|I]; [exact B|]. now apply A. }
  rewrite Lo, Hi, bins_are by (lia || lra).
  assert (Me : forall f, map (fun b => agg_mean (in_era b (map Some time) (map (fun i => Some (f i)) (seq 0 (length time)))))
      (map (fun k => (edge 85 lo hi k - (if Nat.eqb k 0 then (hi - lo) / 1000 else 0), edge 85 lo hi (S k))) (seq 0 85)) =
    map (fun k => agg_mean (map f (part time 85 lo hi k))) (seq 0 85)).
  { intros f. rewrite map_map. apply map_ext. intros k. f_equal. apply era_part. intros y I. apply bin_within; [lia|exact H|]. now apply Mn. }
  cbv zeta. f_equal. f_equal.
  - etransitivity; [|apply Me]. apply map_ext. intros b. f_equal. f_equal. apply nth_seq_map.
  - change (filter (fun e : string * col => negb (String.eqb (fst e) "time")) (("time"%string, map Some time) :: tbl (ice8 ++ depths) (length time) (fun n i => Some (F n i))))
      with (tbl (ice8 ++ depths) (length time) (fun n i => Some (F n i))).
    unfold tbl. rewrite map_map. apply map_ext. intros n. f_equal. apply Me.
Qed.
Lemma agg_mean_of l : agg_mean l = mean_of l.
Proof. destruct l; reflexivity. Qed.
Lemma cumsum_nth (f : nat -> R) : forall m s acc i, (i < m)%nat ->
  nth_error (cumsum acc (map (fun j => Some (f j)) (seq s m))) i = Some (Some (acc + Rsum (map f (seq s (S i))))).
Proof.
  induction m as [|m IH]; intros s acc i Hi; [lia|]. cbn [seq map cumsum]. destruct i as [|i].
  - cbn [nth_error]. f_equal. f_equal. cbn. lra.
  - cbn [nth_error]. rewrite IH by lia. f_equal. f_equal. change (Rsum (f s :: map f (seq (S s) (S i)))) with (f s + Rsum (map f (seq (S s) (S i)))). lra.
Qed.
Lemma cumsum_length : forall l acc, length (cumsum acc l) = length l.
Proof. induction l as [|[x|] l IH]; intros acc; cbn; auto. Qed.
Lemma cumulated_ok time F : cumulated (("time"%string, map Some time) :: tbl (ice8 ++ depths) (length time) (fun n i => Some (F n i))) =
  Ok (map Some time, map (fun n => (n, cumsum 0 (map (fun i => Some (F n i)) (seq 0 (length time))))) (ice8 ++ depths)).
Proof.
  unfold cumulated. rewrite tcol_time. cbn [bind].
  change (filter (fun e : string * col => negb (String.eqb (fst e) "time")) (("time"%string, map Some time) :: tbl (ice8 ++ depths) (length time) (fun n i => Some (F n i))))
      with (tbl (ice8 ++ depths) (length time) (fun n i => Some (F n i))). unfold tbl. rewrite map_map. reflexivity.
Qed.
Lemma combine_nth_error {A B} : forall (l : list A) (m : list B) i a b, nth_error l i = Some a -> nth_error m i = Some b -> nth_error (combine l m) i = Some (a, b).
Proof. induction l as [|x l IH]; intros [|y m] [|i] a b E1 E2; try discriminate; cbn in *; [congruence|auto]. Qed.

(** Both panels in closed form. *)
Definition left_points (time : list R) (F : string -> nat -> R) (lo hi : R) (n : string) : list (option R * option R) :=
  combine (map (fun k => agg_mean (map (fun i => nth i time 0) (part time 85 lo hi k))) (seq 0 85)) (map (fun k => agg_mean (map (F n) (part time 85 lo hi k))) (seq 0 85)).
Definition right_points (time : list R) (F : string -> nat -> R) (n : string) : list (option R * option R) :=
  combine (map Some time) (cumsum 0 (map (fun i => Some (F n i)) (seq 0 (length time)))).
Lemma panels_ok c ppf sort craters basins stream unseeded seeds bins : module_sane c ppf sort craters basins stream unseeded ->
  Forall (fun s => (0 <= s)%Z) seeds -> seeds <> [] ->
  exists time t (F : string -> nat -> R), get_time_array (r_rnd c) (r_start c) (r_end c) (r_step c) = Ok time /\ time <> [] /\
    get_ice_ast_comet_seeds c ppf sort craters basins stream unseeded seeds = Ok t /\
    (forall n i, In n curve_names -> (i < length time)%nat -> entry t n i (F n i)) /\
    (forall i x, nth_error time i = Some x -> entry t "time" i x) /\
    forall lo hi, is_min time lo -> is_max time hi -> lo < hi ->
    exists p q, plot_by_module_time c ppf sort craters basins stream unseeded seeds bins = Ok (p, q) /\
      Forall2 (fun n cv => labelled n cv /\ cv_points cv = left_points time F lo hi n) curve_names p /\
      Forall2 (fun n cv => labelled n cv /\ cv_points cv = right_points time F n) curve_names q.
Proof.
  intros H Hs Hn. destruct (table_setup _ _ _ _ _ _ _ _ H Hs Hn) as (time & t & F & H1 & H2 & H3 & H4 & H5 & H6). exists time, t, F.
  split; [exact H1|]. split; [exact H2|]. split; [exact H3|]. split; [exact H5|]. split; [exact H6|]. intros lo hi Mn Mx Lt.
  unfold plot_by_module_time. rewrite H3. cbn [bind]. rewrite H4. rewrite (grouped_ok time F bins H2 lo hi Mn Mx Lt), cumulated_ok. cbv zeta. cbn [bind].
  rewrite !curves_ok. cbn [bind]. eexists _, _. split; [reflexivity|].
  assert (Q : forall ns x h (P : string -> list (option R * option R)), (forall n, In n ns -> In n curve_names) -> (forall n, combine x (h n) = P n) ->
    Forall2 (fun n cv => labelled n cv /\ cv_points cv = P n) ns (map (curve_of x h) ns)).
  { induction ns as [|n ns IH]; intros x h P K E; [constructor|]. cbn [map]. constructor; [|apply IH; auto; intros; apply K; now right].
    split; [apply curve_labelled, K; now left|]. apply E. }
  split; apply Q; auto.
Qed.

(** Ice is not negative. *)
Lemma seed_nonneg c ppf sort craters basins stream unseeded time s t n i : module_sane c ppf sort craters basins stream unseeded ->
  time <> [] -> seed_table ppf sort craters basins stream c time s = Ok t -> In n all_ice -> (i < length time)%nat -> 0 <= val t n i.
Proof.
  intros H Ne E I Hi.
  assert (Hs : (0 <= s)%Z) by (unfold seed_table in E; destruct (Z.ltb_spec s 0); [discriminate|lia]).
  destruct (seed_ok _ _ _ _ _ _ _ time s H Ne Hs) as (t' & df & k & k' & volc & sw & mm & si & ssc & lsc & cc & b & bs & E' & L & Ab & C & _).
  rewrite E in E'. injection E' as <-. pose proof C as (T & G & Lb & _).
  destruct (columns_tbl _ _ _ _ _ _ _ _ _ _ _ _ C) as (g & Tt & Gn). cbn [combine names11 In] in Gn.
  assert (V : val t n i = g n i).
  { unfold val. rewrite Tt, f_of_tbl; [reflexivity| |exact Hi]. unfold all_ice, crater_ice in I. cbn [app In] in I. unfold names11. cbn [In]. tauto. }
  rewrite V.
  assert (Ps : forall m l, In (m, l) (combine names11 [time; volc; sw; mm; si; ssc; lsc; cc; b; overturn_depth_time (r_i c) time; bs]) ->
         good (length time) l -> 0 <= g m i).
  { intros m l J [_ Fl]. apply (Forall_nth_error _ _ i _ Fl). apply Gn; auto. }
  repeat (inversion G as [|? ? ? G']; subst; clear G; rename G' into G).
  unfold all_ice, crater_ice in I. cbn [app In] in I.
  repeat (destruct I as [<-|I]; [eapply Ps; [cbn; now auto 20|eassumption]|]). destruct I.
Qed.
Lemma mean_nonneg l : Forall (fun x => 0 <= x) l -> 0 <= mean l.
Proof.
  intros H. unfold mean. destruct l as [|x l]; [cbn; lra|]. apply Rmult_le_pos; [now apply Rsum_nonneg|]. apply Rlt_le, Rinv_0_lt_compat, lt_0_INR. cbn. lia.
Qed.
Lemma entry_nonneg c ppf sort craters basins stream unseeded seeds t n i x : module_sane c ppf sort craters basins stream unseeded ->
  Forall (fun s => (0 <= s)%Z) seeds -> seeds <> [] ->
  get_ice_ast_comet_seeds c ppf sort craters basins stream unseeded seeds = Ok t -> In n all_ice -> entry t n i x -> 0 <= x.
Proof.
  intros H Hs Hn Et I E.
  destruct (table_form _ _ _ _ _ _ _ _ H Hs Hn) as (time & ast & com & F & H1 & Ne & H3 & H4 & H5 & H6 & H7 & H8 & H9).
  rewrite Et in H7. assert (Inj : forall u v : mtable, Ok u = Ok v -> u = v) by congruence. apply Inj in H7. rewrite H7 in E.
  destruct E as (l & E1 & E2). destruct (in10 n (or_introl I)) as [I1 I2]. rewrite tcol_rest in E1 by assumption.
  assert (Inj' : forall u v : col, Ok u = Ok v -> u = v) by congruence. apply Inj' in E1. subst l.
  assert (Hi : (i < length time)%nat) by (rewrite <- (seq_length (length time) 0), <- (map_length (fun i => Some (F n i))); apply nth_error_Some; congruence).
  rewrite nth_error_map, nth_error_nth' with (d := 0%nat) in E2 by now rewrite seq_length. rewrite seq_nth in E2 by auto. cbn [option_map Nat.add] in E2. injection E2 as <-.
  rewrite H8 by exact I.
  pose proof (comet_module _ _ _ _ _ _ _ H) as Hc.
  assert (K : forall cc ts, module_sane cc ppf sort craters basins stream unseeded -> mapM (seed_table ppf sort craters basins stream cc time) seeds = Ok ts ->
    0 <= mean (map (fun t => val t n i) ts)).
  { intros cc ts Hcc M. apply mean_nonneg. clear -Hcc M I Ne Hi. revert ts M. induction seeds as [|s r IH]; intros ts M; cbn in M.
    - injection M as <-. constructor.
    - destruct (seed_table _ _ _ _ _ _ _ s) as [a|] eqn:Ea; [|discriminate]. cbn [bind] in M. destruct (mapM _ r) as [ts'|] eqn:Em; [|discriminate]. injection M as <-.
      cbn [map]. constructor; [|now apply IH]. eapply seed_nonneg; eauto. }
  pose proof (K c ast H H3). pose proof (K (comet_run c) com Hc H4). lra.
Qed.

(** The means of the parts, each as often as the part has steps, give the sum. *)
Lemma parts_sum time n lo hi (g : nat -> R) : (0 < n)%nat -> lo < hi -> Forall (fun x => lo <= x <= hi) time ->
  Rsum (map (fun k => INR (length (part time n lo hi k)) * or0 (mean_of (map g (part time n lo hi k)))) (seq 0 n)) = Rsum (map g (seq 0 (length time))).
Proof.
  intros Hn H A. rewrite <- (Rsum_perm _ _ (Permutation_map g (parts_cover time n lo hi Hn H A))), Rsum_concat, map_map. f_equal. apply map_ext. intros k.
  destruct (part time n lo hi k) as [|i l]; [cbn; lra|]. unfold mean_of. cbn [map]. cbn [or0]. unfold mean.
  change (g i :: map g l) with (map g (i :: l)). rewrite map_length. field. apply not_0_INR. discriminate.
Qed.
(** A number of the table is one of a step. *)
Lemma entry_short c ppf sort craters basins stream unseeded seeds time t n i x : module_sane c ppf sort craters basins stream unseeded ->
  Forall (fun s => (0 <= s)%Z) seeds -> seeds <> [] -> get_time_array (r_rnd c) (r_start c) (r_end c) (r_step c) = Ok time ->
  get_ice_ast_comet_seeds c ppf sort craters basins stream unseeded seeds = Ok t -> In n all_ice \/ In n depths -> entry t n i x -> (i < length time)%nat.
Proof.
  intros H Hs Hn Eti Et I E.
  destruct (table_form _ _ _ _ _ _ _ _ H Hs Hn) as (time' & ast & com & F & H1 & _ & _ & _ & _ & _ & H7 & _). rewrite Eti in H1. injection H1 as <-.
  rewrite Et in H7. assert (Inj : forall u v : mtable, Ok u = Ok v -> u = v) by congruence. apply Inj in H7. rewrite H7 in E.
  destruct E as (l & E1 & E2). destruct (in10 n I) as [I1 I2]. rewrite tcol_rest in E1 by assumption.
  assert (Inj' : forall u v : col, Ok u = Ok v -> u = v) by congruence. apply Inj' in E1. subst l.
  rewrite <- (seq_length (length time) 0), <- (map_length (fun i => Some (F n i))); apply nth_error_Some; congruence.
Qed.
