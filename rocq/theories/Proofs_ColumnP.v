(** Lemmas behind C02-C09 in the form used by Props_Column. *)
From Coq Require Import List ZArith Reals Lia Lra Bool String.
From Verif Require Import Base Arith Model_Column Spec_Column Proofs_Base Proofs_Column
  Proofs_ColumnR Proofs_ColumnA.
Import ListNotations.
Open Scope R_scope.

Lemma only_removed_length n o : only_removed n o -> List.length n = List.length o.
Proof. intros H; apply Forall2_nth_error in H; apply H. Qed.

Lemma garden_shield_sum ice ej t depth eff ice' k :
  List.length ice = List.length ej -> (-1 <= t < Z.of_nat (List.length ice))%Z ->
  Forall (fun x => 0 <= x) ice -> Forall (fun x => 0 <= x) ej -> 0 <= eff <= 1 ->
  garden_ice_column exactR ice ej t depth eff = Ok ice' ->
  (Z.of_nat k <= t)%Z ->
  depth <= Rsum (slice k (Z.to_nat (t + 1)) ej) ->
  nth_error ice' k = nth_error ice k.
Proof.
  intros H Ht Hi He Hf HG Hk Hs.
  destruct (garden_safe _ _ exact_ok ice ej t depth eff ice' (stored_exact _ Hi) eq_refl Hf HG)
    as [[_ S2] _].
  apply only_removed_length in S2.
  destruct (nth_error ice k) as [x|] eqn:Ex; [|apply nth_error_None in Ex; lia].
  destruct (nth_error ice' k) as [x'|] eqn:Ex'; [|apply nth_error_None in Ex'; lia].
  destruct (garden_array_layer ice ej t depth eff ice' k x x' H Ht Hi He Hf HG Hk Ex Ex')
    as (H1 & _ & H2).
  rewrite Rmax_left in H1 by lra. f_equal; lra.
Qed.

Lemma garden_shield_single_array rw rs ice ej t depth eff ice' k m e :
  fp_ok rw rs ->
  List.length ice = List.length ej -> (-1 <= t < Z.of_nat (List.length ice))%Z ->
  Forall (fun x => 0 <= x /\ rs x = x) ice -> Forall (fun x => 0 <= x) ej ->
  rw depth = depth -> 0 <= eff <= 1 ->
  garden_ice_column (roundedR rw rs) ice ej t depth eff = Ok ice' ->
  (k <= m)%nat -> (Z.of_nat m <= t)%Z -> nth_error ej m = Some e -> depth <= e ->
  nth_error ice' k = nth_error ice k.
Proof.
  intros FP H Ht Hi He Hd Hf HG Hkm Hm Hej Hde.
  rewrite garden_array in HG by auto. injection HG as <-.
  set (n := Z.to_nat (t + 1)) in *.
  assert (Hn : (n <= List.length ice)%nat) by lia.
  assert (Hmn : (m < n)%nat) by lia.
  destruct (nth_error ice m) as [x|] eqn:Ex; [|apply nth_error_None in Ex; lia].
  pose proof (stack_of_nth n ice ej m H Hn Hmn) as Hs. rewrite Ex, Hej in Hs.
  destruct (stack_of_split n ice ej H Hn) as [E1 _].
  rewrite E1 at 3. clear E1.
  assert (HL : List.length (stack_of n ice ej) = n) by now apply stack_of_length.
  apply nth_error_split in Hs as (ab & be & Hst & Hab).
  assert (HF : Forall (fun l => stored rs (fst l) /\ 0 <= snd l) (stack_of n ice ej)).
  { unfold stack_of. apply Forall_rev. apply Forall_combine; now apply Forall_firstn. }
  rewrite Hst in HF. apply Forall_app in HF as [HF _].
  destruct (garden_shield_single rw rs FP depth eff x e be ab 0 Hd Hf (Rle_refl 0) HF Hde)
    as (ab' & Hg & Hlen).
  rewrite Hst. change (zero (roundedR rw rs)) with 0. rewrite Hg.
  unfold ice_of. rewrite !map_app, !rev_app_distr, <- !app_assoc.
  rewrite Hst, app_length in HL. cbn [List.length] in HL.
  rewrite !(nth_error_app1 (rev (map fst ((x, e) :: be)))); auto;
    rewrite rev_length, map_length; cbn [List.length]; lia.
Qed.

Lemma garden_repeat n : forall d, d = 0 ->
  garden_R d 2 1 (repeat (1, 0) n) = repeat (0, 0) n.
Proof.
  induction n as [|n IH]; intros d ->; auto. cbn [repeat garden_R].
  rcase (0 + 0) 2 H1; [|lra]. rcase 0 2 H2; [|lra].
  replace (Rmin (1 * 1) (2 - (0 + 0))) with 1.
  2:{ unfold Rmin; destruct (Rle_dec (1 * 1) (2 - (0 + 0))); lra. }
  f_equal; [f_equal; lra|]. apply IH. lra.
Qed.

Lemma Rsum_repeat x n : Rsum (repeat x n) = INR n * x.
Proof. induction n; [cbn; lra|]. cbn [repeat]. rewrite Rsum_cons, IHn, S_INR. lra. Qed.

Lemma map_repeat' {A B} (f : A -> B) x n : map f (repeat x n) = repeat (f x) n.
Proof. induction n; simpl; congruence. Qed.

Lemma rev_repeat' {A} (x : A) n : rev (repeat x n) = repeat x n.
Proof.
  induction n; auto. simpl. rewrite IHn. clear. induction n; simpl; congruence.
Qed.

Lemma garden_repeat_column n :
  garden_ice_column exactR (repeat 1 n) (repeat 0 n) (Z.of_nat n - 1) 2 1 = Ok (repeat 0 n).
Proof.
  pose proof (garden_column_stack exactR (repeat (1, 0) n) [] [] 2 1) as G.
  rewrite !map_repeat', !rev_repeat', repeat_length in G. cbn [fst snd] in G.
  rewrite !app_nil_r in G. rewrite G. f_equal.
  rewrite garden_stack_R; [|lra|].
  - change (zero exactR) with 0. rewrite garden_repeat by reflexivity.
    now rewrite map_repeat', rev_repeat'.
  - apply Forall_forall. intros l Hl. apply repeat_spec in Hl. subst. simpl; lra.
Qed.

Lemma garden_no_multiple : forall c : R, exists ice ej t depth ice',
  List.length ice = List.length ej /\ (0 <= t < Z.of_nat (List.length ice))%Z /\
  Forall (fun x => 0 <= x) ice /\ Forall (fun x => 0 <= x) ej /\ 0 < depth /\
  garden_ice_column exactR ice ej t depth 1 = Ok ice' /\
  Rsum ice - Rsum ice' > c * depth.
Proof.
  intros c. set (n := S (Z.to_nat (up (2 * c)))).
  assert (HR : forall x, 0 <= x -> Forall (fun x => 0 <= x) (repeat x n)).
  { intros x Hx. apply Forall_forall. intros y Hy. apply repeat_spec in Hy. now subst. }
  exists (repeat 1 n), (repeat 0 n), (Z.of_nat n - 1)%Z, 2, (repeat 0 n).
  rewrite !repeat_length. repeat split; auto; try lra; try lia.
  - apply HR; lra.
  - apply HR; lra.
  - apply garden_repeat_column.
  - rewrite !Rsum_repeat. destruct (archimed (2 * c)) as [H1 _].
    assert (IZR (up (2 * c)) <= INR n).
    { unfold n. rewrite INR_IZR_INZ. apply IZR_le. lia. }
    lra.
Qed.

Lemma garden_total_refuted : exists ice ej t depth ice',
  List.length ice = List.length ej /\ (0 <= t < Z.of_nat (List.length ice))%Z /\
  Forall (fun x => 0 <= x) ice /\ Forall (fun x => 0 <= x) ej /\ 0 < depth /\
  garden_ice_column exactR ice ej t depth 1 = Ok ice' /\
  Rsum ice - Rsum ice' > depth.
Proof.
  destruct (garden_no_multiple 1) as (i & e & t & d & i' & H1 & H2 & H3 & H4 & H5 & H6 & H7).
  exists i, e, t, d, i'. repeat split; auto; try tauto. lra.
Qed.

Lemma garden_index_error_iff ice ej t depth eff :
  List.length ice = List.length ej -> (-1 <= t)%Z ->
  Forall (fun x => 0 <= x) ice -> Forall (fun x => 0 <= x) ej -> 0 <= eff <= 1 ->
  garden_ice_column exactR ice ej t depth eff = Err IndexError <->
  0 < depth /\ (Z.of_nat (List.length ice) <= t)%Z.
Proof.
  intros H Ht Hi He Hf. destruct (Z_lt_le_dec t (Z.of_nat (List.length ice))) as [Hlt|Hge].
  - rewrite garden_array by (auto; lia). split; [discriminate|lia].
  - rewrite garden_index_error by (auto; lia). change (ltb exactR) with Rltb.
    change (zero exactR) with 0. rcase 0 depth E; split; try discriminate; try tauto.
    intros; lra.
Qed.

(** Erosion *)
Lemma erode_stack_length {T} (A : arith T) depth L :
  List.length (erode_stack A depth L) = List.length L.
Proof. rewrite <- (map_length snd), erode_stack_snd. apply map_length. Qed.

Lemma erode_shielded_length {T} (A : arith T) sh depth L :
  List.length (erode_shielded A sh depth L) = List.length L.
Proof. rewrite <- (map_length snd), erode_shielded_snd. apply map_length. Qed.

Lemma erode_array_ok ice ej t depth shield :
  List.length ice = List.length ej -> (-1 <= t < Z.of_nat (List.length ice))%Z ->
  exists ice', erode_ice_cannon exactR ice ej t depth shield = Ok ice' /\
               List.length ice' = List.length ice.
Proof.
  intros H Ht. rewrite erode_array by auto. eexists; split; [reflexivity|].
  unfold ice_of. rewrite app_length, rev_length, map_length, erode_shielded_length,
    stack_of_length, skipn_length by (auto; lia). lia.
Qed.

Lemma stack_of_head {T} t (ice ej : list T) x e :
  List.length ice = List.length ej -> nth_error ice t = Some x -> nth_error ej t = Some e ->
  exists L, stack_of (S t) ice ej = (x, e) :: L.
Proof.
  intros H Hx He.
  assert (Hl : (t < List.length ice)%nat) by (apply nth_error_Some; congruence).
  pose proof (stack_of_nth (S t) ice ej t H Hl ltac:(lia)) as Hs.
  rewrite Hx, He in Hs. replace (S t - 1 - t)%nat with 0%nat in Hs by lia.
  destruct (stack_of (S t) ice ej) as [|a L]; [discriminate|].
  injection Hs as ->. now exists L.
Qed.

Lemma erode_array_total ice ej t depth shield ice' e :
  List.length ice = List.length ej ->
  Forall (fun x => 0 <= x) ice -> 0 <= depth ->
  nth_error ej t = Some e ->
  erode_ice_cannon exactR ice ej (Z.of_nat t) depth shield = Ok ice' ->
  Rsum ice - Rsum ice' =
  (if Rltb shield e then 0 else Rmin depth (Rsum (firstn (S t) ice))).
Proof.
  intros H Hi Hd He HG.
  assert (Hl : (t < List.length ice)%nat) by (rewrite H; apply nth_error_Some; congruence).
  destruct (nth_error ice t) as [x|] eqn:Hx; [|apply nth_error_None in Hx; lia].
  rewrite erode_array in HG by (auto; lia). injection HG as <-.
  replace (Z.to_nat (Z.of_nat t + 1)) with (S t) by lia.
  rewrite (ice_sum_split (S t) ice ej) by (auto; lia).
  rewrite Rsum_app, ice_of_sum.
  assert (E1 : Rsum (firstn (S t) ice) = Rsum (map fst (stack_of (S t) ice ej))).
  { unfold stack_of. rewrite map_rev, Rsum_rev, map_fst_combine; auto.
    rewrite !firstn_length; lia. }
  rewrite E1.
  destruct (stack_of_head t ice ej x e H Hx He) as [L HL].
  assert (HF : Forall (fun l => 0 <= fst l) (stack_of (S t) ice ej)).
  { apply Forall_forall. intros [a b] Hl'. unfold stack_of in Hl'. apply in_rev in Hl'.
    apply in_combine_l in Hl'. rewrite Forall_forall in Hi. apply Hi.
    rewrite <- (firstn_skipn (S t) ice). apply in_or_app; auto. }
  pose proof (erode_stack_total (stack_of (S t) ice ej) depth Hd HF) as HT.
  rewrite HL in *. cbn [erode_shielded]. change (ltb exactR) with Rltb.
  rcase shield e E; lra.
Qed.

Lemma erode_array_topdown ice ej t depth shield ice' k x x' :
  List.length ice = List.length ej -> (-1 <= t < Z.of_nat (List.length ice))%Z ->
  Forall (fun x => 0 <= x) ice ->
  erode_ice_cannon exactR ice ej t depth shield = Ok ice' ->
  nth_error ice k = Some x -> nth_error ice' k = Some x' ->
  0 <= x' <= x /\
  ((Z.of_nat k > t)%Z -> x' = x) /\
  (x' <> x -> forall j y, (k < j)%nat -> (Z.of_nat j <= t)%Z ->
     nth_error ice' j = Some y -> y = 0).
Proof.
  intros H Ht Hi HG Hx Hx'.
  destruct (erode_safe _ _ exact_ok ice ej t depth shield ice' (stored_exact _ Hi) HG) as [[_ S2] U].
  apply Forall2_nth_error in S2 as [_ S2]. specialize (S2 k x' x Hx' Hx).
  split; auto. split.
  { intros Hk. rewrite (U k Hk), Hx in Hx'. congruence. }
  intros Hne j y Hkj Hjt Hy.
  rewrite erode_array in HG by auto. injection HG as <-.
  set (n := Z.to_nat (t + 1)) in *.
  assert (Hn : (n <= List.length ice)%nat) by lia.
  assert (HLn : List.length (stack_of n ice ej) = n) by now apply stack_of_length.
  apply ice_of_nth in Hx' as [e' Hx']; [|rewrite erode_shielded_length; lia].
  apply ice_of_nth in Hy as [ey Hy]; [|rewrite erode_shielded_length; lia].
  rewrite erode_shielded_length, HLn in Hx', Hy.
  destruct (nth_error ej k) as [e|] eqn:Ee; [|apply nth_error_None in Ee].
  2:{ assert (k < List.length ice)%nat by (apply nth_error_Some; congruence). lia. }
  pose proof (stack_of_nth n ice ej k H Hn ltac:(lia)) as Hs. rewrite Hx, Ee in Hs.
  assert (HF : Forall (fun l => 0 <= fst l) (stack_of n ice ej)).
  { apply Forall_forall. intros [a b] Hl'. unfold stack_of in Hl'. apply in_rev in Hl'.
    apply in_combine_l in Hl'. rewrite Forall_forall in Hi. apply Hi.
    rewrite <- (firstn_skipn n ice). apply in_or_app; auto. }
  destruct (stack_of n ice ej) as [|[a b] L] eqn:EL; [destruct (n - 1 - k)%nat; discriminate|].
  cbn [erode_shielded] in *. change (ltb exactR) with Rltb in *.
  rcase shield b Es; [congruence|].
  destruct (erode_stack_topdown _ depth _ _ _ _ _ HF Hs Hx') as (_ & _ & HT).
  specialize (HT Hne). rewrite Forall_forall in HT.
  specialize (HT (y, ey)). apply HT.
  assert (HN : nth_error (firstn (n - 1 - k) (erode_stack exactR depth ((a, b) :: L))) (n - 1 - j)
               = Some (y, ey)) by (rewrite nth_error_firstn by lia; exact Hy).
  eapply nth_error_In; eauto.
Qed.

Lemma erode_shield_surface (rw rs : R -> R) ice ej t depth shield e :
  List.length ice = List.length ej -> nth_error ej t = Some e -> shield < e ->
  erode_ice_cannon (roundedR rw rs) ice ej (Z.of_nat t) depth shield = Ok ice.
Proof.
  intros H He Hlt.
  assert (Hl : (t < List.length ice)%nat) by (rewrite H; apply nth_error_Some; congruence).
  destruct (nth_error ice t) as [x|] eqn:Hx; [|apply nth_error_None in Hx; lia].
  rewrite erode_array by (auto; lia).
  replace (Z.to_nat (Z.of_nat t + 1)) with (S t) by lia.
  destruct (stack_of_split (S t) ice ej H ltac:(lia)) as [E1 _].
  destruct (stack_of_head t ice ej x e H Hx He) as [L HL].
  rewrite HL in *. cbn [erode_shielded]. change (ltb (roundedR rw rs)) with Rltb.
  replace (Rltb shield e) with true by (symmetry; now apply Rltb_true).
  unfold ice_of. now rewrite <- E1.
Qed.

Lemma erode_shield_refuted : exists ice ej t depth shield ice' m e,
  List.length ice = List.length ej /\ Forall (fun x => 0 <= x) ice /\
  Forall (fun x => 0 <= x) ej /\ 0 < depth /\
  erode_ice_cannon exactR ice ej (Z.of_nat t) depth shield = Ok ice' /\
  (m < t)%nat /\ nth_error ej m = Some e /\ shield < e /\
  (exists k x x', (k <= m)%nat /\ nth_error ice k = Some x /\ nth_error ice' k = Some x' /\ x' < x).
Proof.
  exists [3; 1], [5; 0], 1%nat, 2, 1, [3 - (2 - 1); 0], 0%nat, 5.
  repeat split; auto; try lra.
  - repeat constructor; lra.
  - repeat constructor; lra.
  - rewrite erode_array by (cbn [List.length]; auto; lia). change (Z.to_nat (Z.of_nat 1 + 1)) with 2%nat.
    cbn [stack_of firstn combine rev app erode_shielded].
    change (ltb exactR) with Rltb.
    rcase 1 0 E0; [lra|]. cbn [erode_stack]. change (ltb exactR) with Rltb.
    cbn [zero store sub exactR]. rcase 0 2 E1; [|lra]. rcase 1 2 E2; [|lra].
    rcase 0 (2 - 1) E3; [|lra]. rcase 3 (2 - 1) E4; [lra|]. reflexivity.
  - exists 0%nat, 3, (3 - (2 - 1)). repeat split; auto. lra.
Qed.

(** * Whole runs *)
Section Runs.
  Context {T : Type} (A : arith T).

  Lemma update_times_keys co sh bd bf names : forall ov t d d',
    update_times A co sh bd bf names t ov d = Ok d' -> map fst d' = map fst d.
  Proof.
    induction ov as [|o ov IH]; cbn [update_times]; intros t d d' H; [congruence|].
    destruct (update_coldtraps A co sh bd bf t o 0 names d) as [d1|] eqn:E; [|discriminate].
    cbn [bind] in H. apply IH in H. apply update_coldtraps_keys in E. congruence.
  Qed.

  Lemma history_ext (bd bf bd' bf' : list (list T)) j j' : forall ov t,
    (forall k, (t <= k < t + List.length ov)%nat ->
       get2 bd k j = get2 bd' k j' /\ get2 bf k j = get2 bf' k j') ->
    history bd bf j t ov = history bd' bf' j' t ov.
  Proof.
    induction ov as [|o ov IH]; intros t H; cbn [history]; auto.
    destruct (H t) as [-> ->]; [cbn [List.length]; lia|].
    rewrite (IH (S t)); auto. intros k Hk. apply H. cbn [List.length]; lia.
  Qed.

  Lemma update_independent co sh names names' j j' c d d' e e' ov bd bf bd' bf' :
    NoDup names -> NoDup names' ->
    nth_error names j = Some c -> nth_error names' j' = Some c ->
    lookup d c = lookup d' c ->
    (forall k, (k < List.length ov)%nat ->
       get2 bd k j = get2 bd' k j' /\ get2 bf k j = get2 bf' k j') ->
    update_strat_cols A co sh names d ov bd bf = Ok e ->
    update_strat_cols A co sh names' d' ov bd' bf' = Ok e' ->
    lookup e c = lookup e' c.
  Proof.
    intros HN HN' Hj Hj' Hl HH HU HU'. unfold update_strat_cols in *.
    destruct (lookup d c) as [s|ex] eqn:E.
    - destruct (update_times_at A co sh bd bf names c j ov 0 d e s HN Hj HU E)
        as (h & i & Hh & Hr & Hle).
      destruct (update_times_at A co sh bd' bf' names' c j' ov 0 d' e' s HN' Hj' HU' (eq_sym Hl))
        as (h' & i' & Hh' & Hr' & Hle').
      rewrite (history_ext bd bf bd' bf' j j' ov 0) in Hh by (intros; apply HH; lia).
      rewrite Hh in Hh'. injection Hh' as <-.
      rewrite Hr in Hr'. injection Hr' as <-. congruence.
    - (* a missing cold trap stays missing *)
      assert (K : forall (x y : @dict T), map fst x = map fst y ->
                lookup x c = Err ex -> lookup y c = Err ex).
      { induction x as [|[kx vx] x IH]; intros [|[ky vy] y] Hm Hx; simpl in *; try discriminate; auto.
        injection Hm as -> Hm. destruct (String.eqb c ky); [discriminate|]. auto. }
      apply update_times_keys in HU, HU'.
      rewrite (K d e (eq_sym HU) E), (K d' e' (eq_sym HU') (eq_sym Hl)). reflexivity.
  Qed.

  Lemma history_of_events (bd bf : list (list T)) j (evs : list event) : forall t,
    (forall k e, nth_error evs k = Some e ->
       get2 bd (t + k) j = Ok (ev_bsed_depth e) /\ get2 bf (t + k) j = Ok (ev_bsed_frac e)) ->
    history bd bf j t (map ev_overturn evs)
    = Ok (map (fun e => (ev_overturn e, ev_bsed_depth e, ev_bsed_frac e)) evs).
  Proof.
    induction evs as [|e evs IH]; intros t H; cbn [map history]; auto.
    destruct (H 0%nat e eq_refl) as [H1 H2]. rewrite Nat.add_0_r in H1, H2.
    rewrite H1, H2. cbn [bind]. rewrite IH; auto.
    intros k e' Hk. replace (S t + k)%nat with (t + S k)%nat by lia. now apply H.
  Qed.

  Lemma update_is_simulation co sh names j c d d' bd bf (evs : list event) src :
    NoDup names -> nth_error names j = Some c ->
    lookup d c = Ok (mk_strat (map ev_ice evs) (map ev_ej evs) src) ->
    (forall t e, nth_error evs t = Some e ->
       get2 bd t j = Ok (ev_bsed_depth e) /\ get2 bf t j = Ok (ev_bsed_frac e)) ->
    update_strat_cols A co sh names d (map ev_overturn evs) bd bf = Ok d' ->
    lookup d' c = Ok (mk_strat (ice_of (simulate A co sh evs)) (map ev_ej evs) src).
  Proof.
    intros HN Hj Hl Hh HU. unfold update_strat_cols in HU.
    destruct (update_times_at A co sh bd bf names c j _ 0 d d' _ HN Hj HU Hl)
      as (h & i & Hh' & Hr & Hl').
    rewrite (history_of_events bd bf j evs 0) in Hh' by exact Hh. injection Hh' as <-.
    cbn [s_ice s_ej s_src] in *.
    pose proof (run_column_simulate A co sh evs []) as HS. cbn [List.length map rev app] in HS.
    rewrite HS in Hr. injection Hr as <-. exact Hl'.
  Qed.

  (** Totality *)
  Lemma garden_stack_column_length ice ej t depth eff ice' :
    List.length ice = List.length ej -> (-1 <= t < Z.of_nat (List.length ice))%Z ->
    garden_ice_column A ice ej t depth eff = Ok ice' -> List.length ice' = List.length ice.
  Proof.
    intros H Ht HG. rewrite garden_array in HG by auto. injection HG as <-.
    unfold ice_of. rewrite app_length, rev_length, map_length, garden_stack_length,
      stack_of_length, skipn_length by (auto; lia). lia.
  Qed.

  Lemma update_ice_col_ok co sh ice ej t o bd bf :
    List.length ice = List.length ej -> (t < List.length ice)%nat ->
    exists ice', update_ice_col A co sh ice ej (Z.of_nat t) o bd bf = Ok ice' /\
                 List.length ice' = List.length ice.
  Proof.
    intros H Ht. unfold update_ice_col.
    rewrite garden_array by (auto; lia). cbn [bind].
    set (i1 := ice_of _ ++ _).
    assert (H1 : List.length i1 = List.length ice).
    { unfold i1, ice_of. rewrite app_length, rev_length, map_length, garden_stack_length,
        stack_of_length, skipn_length by (auto; lia). lia. }
    destruct co; cbn [remove_ice_overturn].
    - rewrite garden_array by (try congruence; lia). eexists; split; [reflexivity|].
      unfold ice_of. rewrite app_length, rev_length, map_length, garden_stack_length,
        stack_of_length, skipn_length by (try congruence; lia). lia.
    - rewrite erode_array by (try congruence; lia). eexists; split; [reflexivity|].
      unfold ice_of. rewrite app_length, rev_length, map_length, erode_shielded_length,
        stack_of_length, skipn_length by (try congruence; lia). lia.
  Qed.

  Definition wf (n : nat) (d : @dict T) (names : list string) :=
    forall c, In c names -> exists s, lookup d c = Ok s /\
      List.length (s_ice s) = n /\ List.length (s_ej s) = n.

  Lemma wf_assign n d names c s ice' :
    wf n d names -> lookup d c = Ok s -> List.length (s_ej s) = n -> List.length ice' = n ->
    wf n (assign d c (mk_strat ice' (s_ej s) (s_src s))) names.
  Proof.
    intros H Hl He Hi c' Hc'. destruct (String.eqb_spec c c') as [->|Hne].
    - eexists; split; [eapply lookup_assign_same; eauto|]. auto.
    - rewrite lookup_assign_other by auto. apply H; auto.
  Qed.

  Lemma update_coldtraps_ok co sh bd bf t o n all : forall names i d,
    wf n d all -> incl names all -> (t < n)%nat ->
    (forall k, (k < List.length names)%nat ->
       (exists b, get2 bd t (i + k) = Ok b) /\ (exists f, get2 bf t (i + k) = Ok f)) ->
    exists d', update_coldtraps A co sh bd bf t o i names d = Ok d' /\ wf n d' all.
  Proof.
    induction names as [|c names IH]; intros i d Hwf Hin Ht HB; cbn [update_coldtraps].
    - eauto.
    - destruct (Hwf c) as (s & Hs & H1 & H2); [apply Hin; left; auto|].
      rewrite Hs. cbn [bind].
      destruct (HB 0%nat) as [[b Hb] [f Hf]]; [cbn [List.length]; lia|].
      rewrite Nat.add_0_r in Hb, Hf. rewrite Hb, Hf. cbn [bind].
      destruct (update_ice_col_ok co sh (s_ice s) (s_ej s) t o b f) as (ice' & Hu & Hlen);
        [congruence|lia|].
      rewrite Hu. cbn [bind]. apply IH; auto.
      + eapply wf_assign; eauto. congruence.
      + intros x Hx; apply Hin; right; auto.
      + intros k Hk. replace (S i + k)%nat with (i + S k)%nat by lia. apply HB.
        cbn [List.length]; lia.
  Qed.

  Lemma update_times_ok co sh bd bf names n : forall ov t d,
    wf n d names -> (t + List.length ov <= n)%nat ->
    (forall k i, (k < n)%nat -> (i < List.length names)%nat ->
       (exists b, get2 bd k i = Ok b) /\ (exists f, get2 bf k i = Ok f)) ->
    exists d', update_times A co sh bd bf names t ov d = Ok d' /\ wf n d' names.
  Proof.
    induction ov as [|o ov IH]; intros t d Hwf Ht HB; cbn [update_times]; [eauto|].
    cbn [List.length] in Ht.
    destruct (update_coldtraps_ok co sh bd bf t o n names names 0 d Hwf (incl_refl _))
      as (d1 & H1 & W1); [lia| |].
    - intros k Hk. apply HB; lia.
    - rewrite H1. cbn [bind]. apply IH; auto. lia.
  Qed.

  Lemma get2_shape (m : list (list T)) n w t i :
    List.length m = n -> Forall (fun r => List.length r = w) m -> (t < n)%nat -> (i < w)%nat ->
    exists x, get2 m t i = Ok x.
  Proof.
    intros Hm Hr Ht Hi. unfold get2, get.
    destruct (nth_error m t) as [r|] eqn:E; [|apply nth_error_None in E; lia].
    cbn [bind]. apply (Forall_nth_error _ _ _ _ Hr) in E.
    destruct (nth_error r i) as [x|] eqn:Ex; [eauto|]. apply nth_error_None in Ex. lia.
  Qed.

  Lemma update_total co sh names d ov bd bf :
    (forall c, In c names -> exists s, lookup d c = Ok s /\
       List.length (s_ice s) = List.length ov /\ List.length (s_ej s) = List.length ov) ->
    List.length bd = List.length ov -> List.length bf = List.length ov ->
    Forall (fun r => List.length r = List.length names) bd ->
    Forall (fun r => List.length r = List.length names) bf ->
    exists d', update_strat_cols A co sh names d ov bd bf = Ok d'.
  Proof.
    intros Hwf Hbd Hbf Rbd Rbf. unfold update_strat_cols.
    destruct (update_times_ok co sh bd bf names (List.length ov) ov 0 d Hwf) as (d' & H & _);
      [lia| |eauto].
    intros k i Hk Hi. split; eapply get2_shape; eauto.
  Qed.
End Runs.

Lemma update_strat_cols_keys (rw rs : R -> R) costello shield names d overturn bd bf d' :
  update_strat_cols (roundedR rw rs) costello shield names d overturn bd bf = Ok d' ->
  map fst d' = map fst d.
Proof. apply update_times_keys. Qed.

Lemma update_strat_cols_safe rw rs costello shield names d overturn bd bf d' c s :
  fp_ok rw rs -> NoDup names -> In c names ->
  lookup d c = Ok s ->
  Forall (fun x => 0 <= x /\ rs x = x) (s_ice s) ->
  Forall (fun o => rw o = o) overturn ->
  Forall (Forall (fun x => rw x = x)) bd -> Forall (Forall (fun x => 0 <= x <= 1)) bf ->
  update_strat_cols (roundedR rw rs) costello shield names d overturn bd bf = Ok d' ->
  exists s', lookup d' c = Ok s' /\
    Forall2 (fun n o => 0 <= n <= o) (s_ice s') (s_ice s) /\
    s_ej s' = s_ej s /\ s_src s' = s_src s.
Proof.
  intros FP HN Hin Hl HF Ho Hbd Hbf HU. apply In_nth_error in Hin as [j Hj].
  destruct (update_times_at _ costello shield bd bf names c j _ 0 d d' s HN Hj HU Hl)
    as (h & i & Hh & Hr & Hl').
  exists (mk_strat i (s_ej s) (s_src s)). split; auto. cbn [s_ice s_ej s_src].
  split; auto.
  apply (history_good rw) in Hh; auto.
  destruct (run_column_safe rw rs FP costello shield h 0 _ _ _ HF Hh Hr) as [_ H]. exact H.
Qed.
