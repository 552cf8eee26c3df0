(** C57 and C60: a whole run. *)
From Coq Require Import String List ZArith Reals Lia Lra Bool Permutation Sorted.
From Verif Require Import Base Arith Model_Column Model_Time Model_Geo Model_Interp Model_Crater
  Model_Ice Model_Rng Model_Strat Model_Melt Model_Main Spec_Time Spec_Geo Spec_Ice Spec_Strat Spec_Melt Spec_Main
  Proofs_Base Proofs_Time Proofs_Geo Proofs_Ice Proofs_Rng Proofs_Melt Proofs_Bsed Proofs_Main Proofs_Scaling Props_Rng Props_Melt.
Import ListNotations.
Open Scope R_scope.

(** ** C57 *)
Theorem C57_flag_ignored : forall c b ppf sort craters basins u k,
  main (with_ejecta_basins c b) ppf sort craters basins u k = main c ppf sort craters basins u k.
Proof. intros [] b. reflexivity. Qed.

(** The ejecta that a cold trap receives in a timestep are those of all rows, craters and
    basins, that fall in this timestep. *)
Theorem C57_every_row_counts : forall c ppf sort craters basins u k out k' lo hi,
  sorts_by_age sort -> NoDup (r_names c) -> NoDup (map w_name (craters ++ basins)) ->
  Forall (fun w => 0 <= w_diam w) (craters ++ basins) ->
  main c ppf sort craters basins u k = Ok (out, k') ->
  is_min (o_time out) lo -> is_max (o_time out) hi ->
  exists df k1 (at_ : R -> nat), get_crater_basin_list c ppf sort craters basins u k = Ok (df, k1) /\
    Permutation (map (fun r => d_name (c_rest r)) df) (map w_name (craters ++ basins)) /\
    Forall (fun r => exists w, line_of craters basins r w) df /\
    (forall age, first_nearest (o_time out) age (at_ age)) /\
    forall j n, nth_error (r_names c) j = Some n ->
      exists dst col, In dst df /\ d_name (c_rest dst) = n /\ nth_error (o_ej out) j = Some (n, col) /\
        length col = length (o_time out) /\
        forall i, (i < length (o_time out))%nat ->
          nth_error col i = Some (Rsum (map (ejecta_at c dst)
            (filter (fun r => Rleb (lo - Rabs lo * r_tol c) (c_age r) && Rleb (c_age r) (hi + Rabs hi * r_tol c)
                              && Nat.eqb (at_ (c_age r)) i) df))).
Proof. exact main_ejecta. Qed.

(** ** C60 *)
Theorem C60_total : forall c ppf sort craters basins u k,
  ice_sane c -> bsed_sane c -> data_sane c (craters ++ basins) -> time_sane c (craters ++ basins) ->
  ppf_support ppf -> sorts_by_age sort -> draws u ->
  exists out k', main c ppf sort craters basins u k = Ok (out, k') /\ o_time out <> [].
Proof. exact main_total. Qed.

Theorem C60_ice_bounded : forall c ppf sort craters basins u k out k',
  ice_sane c -> bsed_sane c -> ppf_support ppf -> sorts_by_age sort -> draws u ->
  NoDup (r_names c) -> NoDup (map w_name (craters ++ basins)) ->
  main c ppf sort craters basins u k = Ok (out, k') -> o_time out <> [] ->
  exists df k1 delivered,
    get_crater_basin_list c ppf sort craters basins u k = Ok (df, k1) /\
    get_ice_cols_time (r_i c) ppf (r_tol c) (r_lum c) (r_bhop c) (r_names c) (map impact_of df) (o_time out) u k1
      = Ok (delivered, k') /\
    map fst (o_strat out) = r_names c /\ map fst (o_ice out) = r_names c /\
    forall j n, nth_error (r_names c) j = Some n ->
      exists layers ice col, nth_error (o_strat out) j = Some (n, layers) /\ nth_error (o_ice out) j = Some (n, ice) /\
        column delivered j = Ok col /\
        Forall2 (fun now then_ => 0 <= now <= then_) ice col /\
        (keeps_order (r_rnd c) ->
           Forall (fun l => 0 <= l_ice l) layers /\
           Rsum (map l_ice layers) <= Rsum (map (r_rnd c) ice) /\
           0 <= Rsum (map l_ice layers) <= Rsum (map (r_rnd c) col)).
Proof. exact ice_bound. Qed.

(** ** A concrete configuration: the default values, Faustini at the pole and a basin at the
    equator. *)
Definition rcfg0 (ejecta_basins : bool) : rcfg :=
  mk_rcfg ICFG0 ["Faustini"%string] 4250000000 0 10000000 (1 / 1000000) (1 / 10) 4 5 bcfg0 zero_table
    1 true ejecta_basins [(0, 7 / 10); (457 / 100, 1)] (fun _ => Some (54 / 1000)) (fun x => x).
Definition faustini : raw := mk_raw "Faustini" (- 90) 0 (- 90) 0 41 (35 / 10) (1 / 10) (1 / 10).
Definition basin_b : raw := mk_raw "B" 0 0 0 0 2000 (38 / 10) (1 / 10) (1 / 10).
Definition tape0 : tape := fun _ => 1 / 2.

Lemma rcfg0_ice b : ice_sane (rcfg0 b).
Proof.
  destruct C63_default_sane as (A & B & C). constructor; auto.
  - apply C; [discriminate| |]; repeat constructor; cbn; lra.
  - intros _ n _. exists (54 / 1000). split; [reflexivity|lra].
Qed.
Lemma rcfg0_bsed b : bsed_sane (rcfg0 b).
Proof.
  intros _. cbv zeta. split; [exact zero_good|]. split; [|split; [cbn; lra|split; [|split]]].
  - intros mr temp v H. assert (v = 0); [|lra]. unfold value_at in H.
    destruct H as (i & j & row & _ & _ & H1 & H2). cbn in H1.
    destruct i as [|[|i]]; cbn in H1; [| |destruct i; discriminate]; injection H1 as <-;
      (destruct j as [|[|j]]; cbn in H2; [| |destruct j; discriminate]; now injection H2).
  - intros d Hd. cbn [rcfg0 r_bsed r_melt zero_table t_mrs bcfg0 mr_a mr_b mr_petro].
    pose proof (mr_default_bound d Hd). exists 0, 39. cbn [In]. repeat split; auto; lra.
  - exists 110, 510. cbn. repeat split; auto; lra.
  - exists 110, 510. cbn. repeat split; auto; lra.
Qed.
Lemma rcfg0_data b rows : rows = [faustini] \/ rows = [faustini; basin_b] ->
  data_sane (rcfg0 b) rows /\ time_sane (rcfg0 b) rows.
Proof.
  intros H. split.
  - constructor.
    + repeat constructor. intros [].
    + destruct H as [->| ->]; repeat constructor; cbn; intuition discriminate.
    + intros n [<-|[]]. destruct H as [->| ->]; cbn; auto.
    + destruct H as [->| ->]; repeat constructor; cbn; lra.
  - constructor; [reflexivity|cbn; lia|]. intros _. cbn [rcfg0 r_tol r_rnd r_step r_names]. split; [lra|]. split; [reflexivity|].
    destruct H as [->| ->]; repeat constructor; cbn; try lra; intros [E|[]]; discriminate.
Qed.
Lemma run0 b basins : basins = [] \/ basins = [basin_b] ->
  exists out k', main (rcfg0 b) lin_ppf isort_age [faustini] basins tape0 0%nat = Ok (out, k') /\ o_time out <> [].
Proof.
  intros H. destruct (rcfg0_data b ([faustini] ++ basins)) as [A B]; [destruct H as [->| ->]; cbn; auto|].
  apply C60_total; auto using rcfg0_ice, rcfg0_bsed, lin_support, isort_age_ok.
  intros i. unfold tape0. lra.
Qed.

Example C60_case : exists out k', main (rcfg0 true) lin_ppf isort_age [faustini] [basin_b] tape0 0%nat = Ok (out, k') /\
  map fst (o_strat out) = ["Faustini"%string].
Proof.
  destruct (run0 true [basin_b]) as (out & k' & H & Ne); auto. exists out, k'. split; auto.
  assert (Dr : draws tape0) by (intros i; unfold tape0; lra).
  destruct (rcfg0_data true [faustini; basin_b]) as [[A1 A2 A3 A4] B]; auto.
  destruct (C60_ice_bounded _ _ _ [faustini] [basin_b] _ _ _ _ (rcfg0_ice true) (rcfg0_bsed true) lin_support isort_age_ok
    Dr A1 A2 H Ne) as (df & k1 & del & _ & _ & K & _). exact K.
Qed.

Lemma quarter : gc_dist 1737400 0 0 0 (- 90) = PI * 1737400 / 2.
Proof.
  symmetry. apply gc_dist_unique; [lra|pose proof PI_RGT_0; lra|].
  replace (PI * 1737400 / 2 / 1737400) with (PI / 2) by field. rewrite cos_PI2. unfold dot, pos.
  replace (0 * PI / 180) with 0 by field. replace (-90 * PI / 180) with (- (PI / 2)) by field.
  rewrite cos_neg, cos_PI2, cos_0, sin_0. ring.
Qed.

(** With ejecta_basins off a cold trap still receives the ejecta of a basin. *)
Theorem C57_basins_excluded_refuted :
  exists c ppf sort craters basins u out k1 out' k2,
    r_ejecta_basins c = false /\ ice_sane c /\ bsed_sane c /\ data_sane c (craters ++ basins) /\
    time_sane c (craters ++ basins) /\ ppf_support ppf /\ sorts_by_age sort /\ draws u /\
    main c ppf sort craters basins u 0%nat = Ok (out, k1) /\
    main c ppf sort craters [] u 0%nat = Ok (out', k2) /\
    (exists n x, In (n, x) (o_ej out) /\ exists e, In e x /\ 0 < e) /\
    (forall n x e, In (n, x) (o_ej out') -> In e x -> e = 0).
Proof.
  destruct (run0 false [basin_b]) as (out & k1 & H & Ne); auto.
  destruct (run0 false []) as (out' & k2 & H' & Ne'); auto.
  exists (rcfg0 false), lin_ppf, isort_age, [faustini], [basin_b], tape0, out, k1, out', k2.
  destruct (rcfg0_data false [faustini; basin_b]) as [A B]; auto.
  assert (Dr : draws tape0) by (intros i; unfold tape0; lra).
  repeat (split; [solve [auto using rcfg0_ice, rcfg0_bsed, lin_support, isort_age_ok]|]).
  pose proof (main_time _ _ _ _ _ _ _ _ _ H) as Ht. pose proof (main_time _ _ _ _ _ _ _ _ _ H') as Ht'.
  cbn [rcfg0 r_rnd r_start r_end r_step] in Ht, Ht'.
  destruct (time_bounds 4250000000 0 10000000 _ ltac:(lia) ltac:(lia) ltac:(lia) Ht) as [Lo Hi].
  destruct (time_bounds 4250000000 0 10000000 _ ltac:(lia) ltac:(lia) ltac:(lia) Ht') as [Lo' Hi'].
  assert (Va : forall bs, bs = [] \/ bs = [basin_b] -> Forall (fun w => 0 <= w_diam w) ([faustini] ++ bs)).
  { intros bs [->| ->]; repeat constructor; cbn; lra. }
  assert (Ve : forall bs, bs = [] \/ bs = [basin_b] -> Forall (fun w => 0 <= w_low w /\ 0 <= w_upp w /\ 0 < w_low w + w_upp w) ([faustini] ++ bs)).
  { intros bs [->| ->]; repeat constructor; cbn; lra. }
  split.
  - destruct A as [A1 A2 _ _].
    destruct (C57_every_row_counts _ _ _ [faustini] [basin_b] _ _ _ _ _ _ isort_age_ok A1 A2 (Va [basin_b] ltac:(auto)) H Lo Hi)
      as (df & k3 & at_ & L & P & _ & At & E).
    destruct (E 0%nat "Faustini"%string eq_refl) as (dst & col & Hd & Nd & Hc & Lc & Hcol).
    pose proof (list_lines (rcfg0 false) _ _ _ _ _ _ _ _ isort_age_ok lin_support Dr ltac:(cbn; lia) L (Ve [basin_b] ltac:(auto))) as LL.
    rewrite Forall_forall in LL.
    assert (exists r, In r df /\ d_name (c_rest r) = "B"%string) as (r & Hr & Nr).
    { assert (In "B"%string (map (fun r => d_name (c_rest r)) df)) as I.
      { eapply Permutation_in; [symmetry; exact P|]. cbn. auto. }
      apply in_map_iff in I as (r & I1 & I2). eauto. }
    assert (W : forall x w, line_of [faustini] [basin_b] x w -> w = faustini /\ d_basin (c_rest x) = false \/ w = basin_b /\ d_basin (c_rest x) = true).
    { intros x w [[[[<-|[]] Q]|[[<-|[]] Q]] _]; auto. }
    assert (Fr : forall x, In x df -> d_name (c_rest x) = "Faustini"%string \/ ejecta_at (rcfg0 false) dst x = get_ejecta_thickness CFG0 (Some (PI * 1737400 / 2)) 1000000).
    { intros x Hx. destruct (LL x Hx) as (w & Lw & _). destruct (W x w Lw) as [[-> _]|[-> Q]].
      - left. apply Lw.
      - right. destruct Lw as (_ & N1 & N2 & N3 & N4 & _). cbn [basin_b w_name w_diam w_lon w_lat] in *.
        destruct (LL dst Hd) as (w & Lw & _).
        assert (w = faustini) as ->.
        { destruct (W dst w Lw) as [[-> _]|[-> _]]; auto. destruct Lw as (_ & Q' & _). rewrite Nd in Q'. discriminate. }
        destruct Lw as (_ & _ & _ & _ & _ & M1 & M2 & _). cbn [faustini w_psr_lon w_psr_lat] in *.
        unfold ejecta_at. rewrite N1, N2, N3, N4, M1, M2, Nd, Q. cbv zeta. cbn [String.eqb Ascii.eqb Bool.eqb].
        rewrite quarter. cbn [rcfg0 r_basinthr r_i]. pose proof PI2_3_2. pose proof PI_4.
        assert (Rltb (2000 * 1000 / 2) (PI * 1737400 / 2) = true) as -> by (apply Rltb_true; lra).
        assert (Rltb 5 0 = false) as -> by (apply Rltb_false; lra).
        assert (Rltb (PI * 1737400 / 2) (5 * (2000 * 1000 / 2)) = true) as -> by (apply Rltb_true; lra).
        cbn [andb orb]. f_equal. field. }
    assert (Tp : 0 < get_ejecta_thickness CFG0 (Some (PI * 1737400 / 2)) 1000000).
    { pose proof PI2_3_2. pose proof PI_4. apply thick_basin_pos; lra. }
    assert (Z : forall x, In x df -> 0 <= ejecta_at (rcfg0 false) dst x).
    { intros x Hx. destruct (Fr x Hx) as [Q|Q]; [|rewrite Q; lra]. unfold ejecta_at. rewrite Q, Nd. cbn. lra. }
    assert (Hi0 : (at_ (c_age r) < length (o_time out))%nat).
    { destruct (At (c_age r)) as (t & Ht0 & _). apply nth_error_Some. congruence. }
    exists "Faustini"%string, col. split; [eapply nth_error_In; eauto|].
    eexists. split; [eapply nth_error_In; apply (Hcol _ Hi0)|].
    eapply Rlt_le_trans; [|apply Rsum_pos_in with (x := r)].
    + destruct (Fr r Hr) as [Q|Q]; [rewrite Nr in Q; discriminate|]. rewrite Q. exact Tp.
    + apply Forall_forall. intros x Hx. apply filter_In in Hx as [Hx _]. auto.
    + apply filter_In. split; auto. rewrite Nat.eqb_refl, andb_true_r.
      destruct (LL r Hr) as (w & Lw & _ & Bd & _).
      assert (w = basin_b) as ->.
      { destruct (W r w Lw) as [[-> _]|[-> _]]; auto. destruct Lw as (_ & Q' & _). rewrite Nr in Q'. discriminate. }
      cbn [basin_b w_age w_low w_upp rcfg0 r_step r_tol] in *.
      rewrite (Rabs_right 10000000), (Rabs_right 4250000000) by lra.
      apply andb_true_iff. split; apply Rleb_true; lra.
  - destruct (rcfg0_data false [faustini]) as [[A1 A2 _ _] _]; auto.
    destruct (C57_every_row_counts _ _ _ [faustini] [] _ _ _ _ _ _ isort_age_ok A1 A2 (Va [] ltac:(auto)) H' Lo' Hi')
      as (df & k3 & at_ & L & P & _ & At & E).
    pose proof (list_lines (rcfg0 false) _ _ _ _ _ _ _ _ isort_age_ok lin_support Dr ltac:(cbn; lia) L (Ve [] ltac:(auto))) as LL.
    rewrite Forall_forall in LL.
    assert (NF : forall x, In x df -> d_name (c_rest x) = "Faustini"%string).
    { intros x Hx. destruct (LL x Hx) as (w & Lw & _). destruct Lw as ([[[<-|[]] _]|[[] _]] & Q & _). exact Q. }
    assert (KK : map fst (o_ej out') = ["Faustini"%string]).
    { apply main_ok in H' as (time & df' & q1 & dists & d0 & bd & bf & d1 & G1 & G2 & G3 & G4 & G5 & G6 & G7).
      rewrite L in G2. assert (df' = df) by congruence. subst df'.
      destruct (format_ok _ _ _ _ _ A1 (list_nodup _ _ _ _ _ _ _ _ _ isort_age_ok L A2) G7) as (_ & _ & _ & KK & _). exact KK. }
    destruct (E 0%nat "Faustini"%string eq_refl) as (dst & col & Hd & Nd & Hc & Lc & Hcol).
    intros n x e Hx He. apply In_nth_error in Hx as [j Hj].
    assert (j = 0%nat).
    { assert (j < length (map fst (o_ej out')))%nat by (rewrite map_length; apply nth_error_Some; congruence).
      rewrite KK in H0. cbn in H0. lia. }
    subst j. rewrite Hj in Hc. assert (x = col) by congruence. subst x. apply In_nth_error in He as [i He].
    assert (Hi0 : (i < length (o_time out'))%nat) by (rewrite <- Lc; apply nth_error_Some; congruence).
    rewrite (Hcol i Hi0) in He. assert (Q : forall a b : R, Some a = Some b -> a = b) by congruence. apply Q in He. rewrite <- He.
    assert (Z : forall l, (forall y, In y l -> In y df) -> Rsum (map (ejecta_at (rcfg0 false) dst) l) = 0).
    { induction l as [|y l IH]; intros Hl; [reflexivity|]. cbn [map]. rewrite Rsum_cons, IH by (intros; apply Hl; right; auto).
      unfold ejecta_at. rewrite (NF y), (NF dst) by (auto; apply Hl; left; auto). cbn. lra. }
    apply Z. intros y Hy. apply filter_In in Hy. tauto.
Qed.

Print Assumptions C57_flag_ignored.
Print Assumptions C57_every_row_counts.
Print Assumptions C57_basins_excluded_refuted.
Print Assumptions C60_total.
Print Assumptions C60_ice_bounded.
