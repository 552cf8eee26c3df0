(** Proofs about the Monte Carlo totals. *)
From Coq Require Import String Ascii List ZArith Reals Bool Lra Lia Sorted Permutation.
From Verif Require Import Base Model_Time Model_Strat Model_Plot Spec_Strat Spec_Plot Proofs_Base
  Proofs_Time Proofs_Strat Proofs_Plot Proofs_Ranges.
Import ListNotations.
Open Scope R_scope.

Lemma search_le a v : (searchsorted_right a v <= length a)%nat.
Proof. induction a as [|x a IH]; cbn; [lia|]. destruct (Rleb x v); lia. Qed.

Lemma search_app a b v : searchsorted_right (a ++ b) v =
  if Nat.eqb (searchsorted_right a v) (length a) then (length a + searchsorted_right b v)%nat
  else searchsorted_right a v.
Proof.
  induction a as [|x a IH]; [reflexivity|]. cbn [app searchsorted_right length].
  destruct (Rleb x v) eqn:E.
  - rewrite IH. cbn [Nat.eqb]. destruct (Nat.eqb (searchsorted_right a v) (length a)); reflexivity.
  - reflexivity.
Qed.

Lemma holds_above l above : holds_ice (l :: above) -> forall x, In x above -> l_depth x <= top_of above.
Proof.
  intros [_ H] x. revert H. induction above as [|a above IH]; intros H Hx; [contradiction|].
  cbn [top_of]. destruct Hx as [->|Hx]; [lra|]. destruct H as [H1 H2]. specialize (IH H2 Hx).
  destruct above; [contradiction|]. cbn [top_of] in *. lra.
Qed.

Lemma above_all v above : (forall x, In x above -> l_depth x <= v) ->
  searchsorted_right (rev (map l_depth above)) v = length above.
Proof.
  intros H. rewrite <- map_rev, <- (rev_length above).
  assert (H' : forall x, In x (rev above) -> l_depth x <= v) by (intros x Hx; apply H; now apply in_rev).
  revert H'. generalize (rev above). intros l H'. induction l as [|x l IH]; auto. cbn [map searchsorted_right length].
  rewrite (proj2 (Rleb_true _ _)) by (apply H'; now left). f_equal. apply IH. intros; apply H'; now right.
Qed.

Lemma filter_combine (ice depth : layer -> R) df d :
  map fst (filter (fun '(_, x) => Rleb x d) (combine (map ice df) (map depth df))) =
  map ice (filter (fun l => Rleb (depth l) d) df).
Proof.
  induction df as [|l df IH]; auto. cbn [map combine filter]. destruct (Rleb (depth l) d); cbn [map fst]; now rewrite IH.
Qed.

Lemma top_nonneg df : holds_ice df -> 0 <= top_of df.
Proof.
  induction df as [|l df IH]; [cbn; lra|]. intros [H1 H2]. cbn [top_of]. specialize (IH H2). lra.
Qed.

Lemma ice_above_ok df d : holds_ice df ->
  ice_above (map l_ice df) (map l_depth df) d = Ok (Rsum (map (ice_of_layer_above d) df)).
Proof.
  intros H. unfold ice_above. rewrite filter_combine, map_length.
  induction df as [|l above IH].
  - reflexivity.
  - pose proof (holds_above l above H) as A. pose proof H as [H1 H2]. specialize (IH H2).
    cbn [map rev filter length]. rewrite search_app. rewrite rev_length, map_length. cbn [searchsorted_right].
    destruct (Rleb (l_depth l) d) eqn:E; [apply Rleb_true in E|apply Rleb_false in E].
    + (* all above *)
      assert (Al : forall x, In x above -> l_depth x <= d) by (intros x Hx; specialize (A x Hx); lra).
      rewrite (above_all d above Al) in *. rewrite Nat.eqb_refl.
      destruct (Nat.leb_spec (length above + 1) (length above)); [lia|].
      destruct (Nat.leb_spec (length above + 1 + 1) (S (length above))); [lia|].
      f_equal. injection IH as IH. cbn [map]. unfold Rsum in *. cbn [fold_right]. rewrite IH.
      unfold ice_of_layer_above at 2. rewrite Rmin_left; [reflexivity|].
      eapply Rle_trans; [|apply Rmax_r]. lra.
    + destruct (Nat.eqb_spec (searchsorted_right (rev (map l_depth above)) d) (length above)) as [Eq|Ne].
      * rewrite Eq in IH. destruct (Nat.leb_spec (length above + 1) (length above)); [lia|].
        destruct (Nat.leb_spec (length above + 0 + 1) (S (length above))); [|lia].
        unfold from_end. cbn [map rev]. unfold get.
        replace (length above + 0 + 1 - 1)%nat with (length above) by lia.
        rewrite !nth_error_app2 by (rewrite rev_length, map_length; lia).
        rewrite !rev_length, !map_length, Nat.sub_diag. cbn [nth_error bind].
        f_equal. injection IH as IH. rewrite IH. cbn [map]. unfold Rsum. cbn [fold_right].
        unfold ice_of_layer_above at 2. rewrite (Rmin_right (l_ice l)); [lra|].
        apply Rmax_lub; lra.
      * pose proof (search_le (rev (map l_depth above)) d) as Ls. rewrite rev_length, map_length in Ls.
        set (k := searchsorted_right (rev (map l_depth above)) d) in *.
        destruct (Nat.leb_spec (k + 1) (length above)) as [L1|L1]; [|lia].
        destruct (Nat.leb_spec (k + 1) (S (length above))) as [L2|L2]; [|lia].
        unfold from_end in *. cbn [map rev]. unfold get in *.
        rewrite !nth_error_app1 by (rewrite rev_length, map_length; lia).
        rewrite IH. f_equal. unfold Rsum. cbn [map fold_right].
        assert (Z : ice_of_layer_above d l = 0).
        { assert (T : d < top_of above).
          { destruct above as [|a above']; [cbn in Ne; lia|]. cbn [top_of].
            destruct (Rle_dec (l_depth a) d) as [R|R]; [|lra]. exfalso. apply Ne. apply above_all.
            intros x Hx. specialize (A x Hx). cbn [top_of] in A. lra. }
          unfold ice_of_layer_above. rewrite Rmax_left by lra. apply Rmin_right. lra. }
        rewrite Z. lra.
Qed.

Lemma mapM_ok_map {A B} (f : A -> result B) (g : A -> B) l : (forall a, In a l -> f a = Ok (g a)) -> mapM f l = Ok (map g l).
Proof.
  induction l as [|a l IH]; intros H; [reflexivity|]. cbn [mapM map]. rewrite (H a) by now left. cbn [bind].
  rewrite IH; [reflexivity|]. intros; apply H; now right.
Qed.

Lemma max_depth df : holds_ice df -> fold_right Rmax (hd 0 (map l_depth df)) (map l_depth df) = top_of df.
Proof.
  destruct df as [|l above]; [reflexivity|]. intros H. pose proof (holds_above l above H) as A.
  destruct H as [H1 H2]. cbn [map hd fold_right top_of].
  assert (X : fold_right Rmax (l_depth l) (map l_depth above) = l_depth l).
  { assert (B : forall x, In x above -> l_depth x <= l_depth l) by (intros x Hx; specialize (A x Hx); lra).
    clear -B. induction above as [|a above IH]; auto. cbn [map fold_right]. rewrite IH by (intros; apply B; now right).
    apply Rmax_right. apply B. now left. }
  rewrite X. apply Rmax_left. lra.
Qed.

Lemma agg_csv_ok depths df f :
  filter (fun l => String.eqb (l_label l) "Formation age") df = [f] ->
  let kept := filter (fun l => Rleb (l_time l) (l_time f)) df in
  holds_ice kept ->
  agg_csv depths df = Ok (Some ((map l_ice kept, map l_depth kept, map l_time df),
    (Rsum (map l_ice kept), top_of kept, map (fun d => Rsum (map (ice_of_layer_above d) kept)) depths))).
Proof.
  intros E kept H. unfold agg_csv. rewrite E. cbn [bind]. fold kept.
  assert (K : kept <> []).
  { assert (In f kept).
    { apply filter_In. split.
      - assert (X : In f (filter (fun l => String.eqb (l_label l) "Formation age") df)) by (rewrite E; now left).
        now apply filter_In in X.
      - apply Rleb_true. lra. }
    intros X. rewrite X in *. contradiction. }
  destruct (Nat.eqb_spec (length kept) 0) as [X|X]; [destruct kept; [congruence|discriminate]|].
  rewrite (mapM_ok_map _ (fun d => Rsum (map (ice_of_layer_above d) kept))).
  - cbn [bind]. now rewrite max_depth.
  - intros d _. now apply ice_above_ok.
Qed.

(** * Amounts of ice *)
Lemma above_bounds d l : 0 <= l_ice l -> 0 <= ice_of_layer_above d l <= l_ice l.
Proof.
  intros H. unfold ice_of_layer_above. split; [|apply Rmin_l].
  apply Rmin_glb; auto. apply Rmax_l.
Qed.
Lemma above_mono d d' l : d <= d' -> ice_of_layer_above d l <= ice_of_layer_above d' l.
Proof.
  intros H. unfold ice_of_layer_above. apply Rle_min_compat_l. apply Rle_max_compat_l. lra.
Qed.

Lemma holds_nonneg df : holds_ice df -> Forall (fun l => 0 <= l_ice l) df.
Proof. induction df as [|l df IH]; constructor; destruct H; auto; lra. Qed.

Lemma Rsum_map_le {A} (f g : A -> R) l : Forall (fun x => f x <= g x) l -> Rsum (map f l) <= Rsum (map g l).
Proof. induction 1; unfold Rsum in *; cbn [map fold_right]; lra. Qed.

Lemma total_bounds d df : holds_ice df ->
  0 <= Rsum (map (ice_of_layer_above d) df) <= Rsum (map l_ice df).
Proof.
  intros H. pose proof (holds_nonneg df H) as N. split.
  - replace 0 with (Rsum (map (fun _ : layer => 0) df)).
    + apply Rsum_map_le. eapply Forall_impl; [|exact N]. intros l Hl. now apply above_bounds.
    + clear. induction df; unfold Rsum in *; cbn [map fold_right]; lra.
  - apply Rsum_map_le. eapply Forall_impl; [|exact N]. intros l Hl. now apply above_bounds.
Qed.

Lemma total_all d df : holds_ice df -> top_of df <= d ->
  Rsum (map (ice_of_layer_above d) df) = Rsum (map l_ice df).
Proof.
  intros H T. f_equal. apply map_ext_in. intros l Hl.
  assert (D : l_depth l <= d).
  { destruct df as [|l0 df]; [contradiction|]. cbn [top_of] in T. destruct Hl as [->|Hl]; auto.
    pose proof (holds_above l0 df H l Hl) as A. destruct H as [H _]. lra. }
  unfold ice_of_layer_above. rewrite Rmin_left; auto. eapply Rle_trans; [|apply Rmax_r].
  assert (0 <= l_ice l) by (pose proof (holds_nonneg df H) as N; rewrite Forall_forall in N; now apply N). lra.
Qed.

Lemma total_le_depth d df : holds_ice df -> 0 <= d -> Rsum (map (ice_of_layer_above d) df) <= Rmin d (top_of df).
Proof.
  induction df as [|l above IH]; intros H Hd; [cbn; rewrite Rmin_right; lra|].
  pose proof H as [H1 H2]. specialize (IH H2 Hd). pose proof (top_nonneg above H2) as T.
  unfold Rsum in *. cbn [map fold_right top_of].
  set (s := fold_right Rplus 0 (map (ice_of_layer_above d) above)) in *. clearbody s.
  assert (X : ice_of_layer_above d l <= Rmax 0 (Rmin d (l_depth l) - top_of above)).
  { unfold ice_of_layer_above. destruct (Rle_dec d (top_of above)) as [L|L].
    - rewrite (Rmax_left 0 (d - _)) by lra. rewrite Rmin_right by lra. apply Rmax_l.
    - eapply Rle_trans; [|apply Rmax_r]. destruct (Rle_dec d (l_depth l)).
      + rewrite (Rmin_left d) by lra. eapply Rle_trans; [apply Rmin_r|]. apply Rmax_lub; lra.
      + rewrite (Rmin_right d) by lra. eapply Rle_trans; [apply Rmin_l|]. lra. }
  unfold Rmax in X. unfold Rmin in *.
  repeat match goal with H : context [Rle_dec ?a ?b] |- _ => destruct (Rle_dec a b) | |- context [Rle_dec ?a ?b] => destruct (Rle_dec a b) end; lra.
Qed.

(** * The tables of a run *)
Lemma table_holds rnd thick_min tol aa age steps out :
  make_strat_col rnd thick_min tol aa age steps = Ok out ->
  (forall x, 0 <= x -> 0 <= rnd x) -> Forall (fun '(_, i, e, _) => 0 <= i /\ 0 <= e) steps ->
  holds_ice out.
Proof.
  intros H R N. pose proof (strat_nonneg _ _ _ _ _ _ _ H R N) as P.
  assert (G : forall pre rest, out = pre ++ rest -> holds_ice rest).
  { intros pre rest. revert pre. induction rest as [|l above IH]; intros pre E; [exact I|].
    split.
    - rewrite (table_thick _ _ _ _ _ _ _ _ _ _ H E). rewrite Forall_forall in P.
      destruct (P l) as [P1 P2]; [rewrite E; apply in_or_app; right; now left|]. lra.
    - apply (IH (pre ++ [l])). now rewrite <- app_assoc. }
  apply (G []). reflexivity.
Qed.

Lemma SS_filter {A} (Q : A -> A -> Prop) p l : StronglySorted Q l -> StronglySorted Q (filter p l).
Proof.
  induction 1 as [|x l S IH F]; [constructor|]. cbn [filter]. destruct (p x); auto. constructor; auto.
  apply Forall_forall. intros y Hy. apply filter_In in Hy as [Hy _]. rewrite Forall_forall in F. auto.
Qed.

Lemma agg_table rnd thick_min tol age steps table depths :
  make_strat_col rnd thick_min tol true age steps = Ok table ->
  (forall x, 0 <= x -> 0 <= rnd x) -> Forall (fun '(_, i, e, _) => 0 <= i /\ 0 <= e) steps ->
  StronglySorted (fun a b : R * R * R * string => rnd (fst (fst (fst b))) <= rnd (fst (fst (fst a)))) steps ->
  Forall (fun s => snd s <> "Formation age"%string) steps ->
  agg_csv depths table = Ok (Some ((map l_ice table, map l_depth table, map l_time table),
    (Rsum (map l_ice table), Rsum (map l_ice table) + Rsum (map l_ej table),
     map (fun d => Rsum (map (ice_of_layer_above d) table)) depths))).
Proof.
  intros H R N S F. pose proof H as H'.
  destruct (strat_rest (fun s => s <> "Formation age")%string rnd thick_min tol age steps table)
    as (s & kept & l & rest & K1 & E & K3 & _ & _ & K4 & K5 & K6); auto; try discriminate.
  rewrite E. destruct (split_formation l rest K3 K5) as [E1' _].
  assert (T : filter (fun x => Rleb (l_time x) (l_time l)) (l :: rest) = l :: rest).
  { apply filter_all. constructor; [apply Rleb_true; lra|].
    eapply Forall_impl; [|exact K6]. cbn. intros x (s' & Hs & Hx). apply Rleb_true. rewrite Hx, K4.
    pose proof (SS_filter _ (in_span rnd tol true age) _ S) as Q. rewrite K1 in Q.
    inversion Q as [|? ? _ Q2]; subst. destruct Hs as [->|Hs]; [lra|]. rewrite Forall_forall in Q2. exact (Q2 _ Hs). }
  pose proof (table_holds _ _ _ _ _ _ _ H' R N) as Hh. rewrite E in Hh.
  pose proof (agg_csv_ok depths (l :: rest) l E1') as A. cbv zeta in A. rewrite T in A. rewrite (A Hh).
  cbn [top_of].
  destruct (strat_depth_steps _ _ _ _ _ _ _ H') as (_ & B & _). rewrite (B l rest E). rewrite <- E. reflexivity.
Qed.

Lemma agg_error depths df :
  match agg_csv depths df with
  | Ok p => p <> None /\ exists f, filter (fun l => String.eqb (l_label l) "Formation age") df = [f]
  | Err e => (e = TypeError /\ length (filter (fun l => String.eqb (l_label l) "Formation age") df) <> 1%nat)
  end.
Proof.
  unfold agg_csv. destruct (filter (fun l => String.eqb (l_label l) "Formation age") df) as [|f [|f' fs]] eqn:E; cbn [bind].
  - split; auto.
  - set (kept := filter (fun l => Rleb (l_time l) (l_time f)) df).
    assert (K : kept <> []).
    { assert (In f kept).
      { apply filter_In. split.
        - assert (X : In f (filter (fun l => String.eqb (l_label l) "Formation age") df)) by (rewrite E; now left).
          now apply filter_In in X.
        - apply Rleb_true. lra. }
      intros X. rewrite X in *. contradiction. }
    destruct (Nat.eqb_spec (length kept) 0) as [X|X]; [destruct kept; [congruence|discriminate]|].
    assert (M : exists t, mapM (ice_above (map l_ice kept) (map l_depth kept)) depths = Ok t).
    { clear. induction depths as [|d ds [t IH]]; [exists []; reflexivity|]. cbn [mapM].
      assert (Y : exists x, ice_above (map l_ice kept) (map l_depth kept) d = Ok x).
      { unfold ice_above. set (k := searchsorted_right (rev (map l_depth kept)) d).
        destruct (Nat.leb_spec (k + 1) (length (map l_depth kept))) as [L|L]; [|eauto].
        unfold from_end, get. rewrite map_length in L.
        destruct (nth_error (rev (map l_depth kept)) (k + 1 - 1)) eqn:E1'.
        - cbn [bind]. destruct (nth_error (rev (map l_ice kept)) (k + 1 - 1)) eqn:E2'; [cbn [bind]; eauto|].
          apply nth_error_None in E2'. rewrite rev_length, map_length in E2'. lia.
        - apply nth_error_None in E1'. rewrite rev_length, map_length in E1'. lia. }
      destruct Y as [x ->]. cbn [bind]. rewrite IH. cbn. eauto. }
    destruct M as [t ->]. cbn [bind]. split; [discriminate|eauto].
  - split; [auto|]. cbn. lia.
Qed.

(** * The plotted column of a run *)
Lemma thick_In m strat l : In l (thick_layers m strat) -> In l strat.
Proof. induction strat as [|x s IH]; [tauto|]. cbn [thick_layers]. destruct (Rleb _ _); cbn; intuition. Qed.

Lemma thick_stacked m strat : 0 < m -> holds_ice strat -> stacked (thick_layers m strat).
Proof.
  intros M. induction strat as [|l above IH]; intros H; [split; constructor|].
  pose proof (holds_above l above H) as A. destruct H as [H1 H2]. specialize (IH H2). pose proof (top_nonneg _ H2) as T.
  cbn [thick_layers]. destruct (Rleb m (l_depth l - top_of above)) eqn:E; [|exact IH]. apply Rleb_true in E.
  destruct IH as [I1 I2]. split; constructor; auto; [|lra].
  apply Forall_forall. intros x Hx. apply thick_In in Hx. specialize (A x Hx). lra.
Qed.

Lemma same_stacked a b : Forall2 same_layer a b -> stacked a -> stacked b.
Proof.
  intros F [S1 S2]. split.
  - induction F as [|x y a b Hxy F IH]; constructor.
    + inversion S1; inversion S2; subst. auto.
    + inversion S1 as [|? ? _ G]; subst. clear -F G Hxy. revert G. destruct Hxy as (_ & _ & _ & _ & D & _). rewrite <- D.
      induction F as [|u v a b Huv F IH]; intros G; constructor; inversion G; subst; auto.
      destruct Huv as (_ & _ & _ & _ & D' & _). rewrite D'. auto.
  - clear S1. induction F as [|x y a b Hxy F IH]; constructor; inversion S2; subst; auto.
    destruct Hxy as (_ & _ & _ & _ & D & _). now rewrite D.
Qed.

Lemma run_stacked rnd thick_min tol age steps table m t out :
  make_strat_col rnd thick_min tol true age steps = Ok table ->
  (forall x, 0 <= x -> 0 <= rnd x) -> Forall (fun '(_, i, e, _) => 0 <= i /\ 0 <= e) steps ->
  Forall (fun s => snd s <> "Formation age"%string /\ snd s <> "Other"%string) steps ->
  0 < m -> plot_column m table = Ok (t, out) -> stacked out.
Proof.
  intros H R N F M E. pose proof (plot_run _ _ _ _ _ _ m H F) as P. cbv zeta in P. rewrite E in P.
  destruct P as (_ & P & _). pose proof (table_holds _ _ _ _ _ _ _ H R N) as Hd.
  destruct table as [|l rest].
  - cbn in P. inversion P. split; constructor.
  - cbn [tl] in P. rewrite <- (table_thick_layers _ _ _ _ _ _ _ m [l] rest H eq_refl) in P.
    eapply same_stacked; [exact P|]. apply thick_stacked; auto. now destruct Hd.
Qed.
