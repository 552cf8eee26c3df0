(** Properties C53 and C54: melt fraction lookup and ballistic sedimentation. *)
From Coq Require Import String List ZArith Reals Lia Lra Bool Sorted.
From Verif Require Import Base Model_Time Model_Geo Model_Crater Model_Strat Model_Melt
  Spec_Time Spec_Melt Proofs_Base Proofs_Time Proofs_Geo Proofs_Crater Proofs_Scaling Proofs_Melt Proofs_Bsed.
Import ListNotations.
Open Scope R_scope.

(** ** C53: melt fraction lookup *)

(** What get_melt_frac computes: 0 where there is no mixing ratio, elsewhere linear
    interpolation in the four table values around the query, where the position of the
    query between two labels is counted in labels. *)
Theorem C53_rank_bilinear : forall t temps mrs,
  good_table t -> same_shape temps mrs -> all_within t temps mrs ->
  exists out, get_melt_frac t temps mrs = Ok out /\ same_shape out mrs /\
    (forall i j, cell_is mrs i j None -> cell_is out i j (Some 0)) /\
    (forall M T i j mr temp,
       labels (t_mrs t) (fun y => In (Some y) (concat mrs)) M ->
       labels (t_temps t) (fun y => In y (concat temps)) T ->
       cell_is temps i j temp -> cell_is mrs i j (Some mr) ->
       exists v, cell_is out i j (Some v) /\ bilinear t M T mr temp v).
Proof. exact melt_spec. Qed.

(** It fails with KeyError exactly if a query with a mixing ratio lies off the table. *)
Theorem C53_errors : forall t temps mrs, good_table t -> same_shape temps mrs ->
  (all_within t temps mrs -> exists out, get_melt_frac t temps mrs = Ok out) /\
  (~ all_within t temps mrs -> get_melt_frac t temps mrs = Err KeyError).
Proof.
  intros t temps mrs G Sh. split.
  - intros W. destruct (melt_spec t temps mrs G Sh W) as (out & H & _). eauto.
  - now apply melt_error.
Qed.

Theorem C53_table_values : forall t temps mrs out i j mr temp v,
  good_table t -> same_shape temps mrs -> get_melt_frac t temps mrs = Ok out ->
  cell_is temps i j temp -> cell_is mrs i j (Some mr) -> value_at t mr temp v ->
  cell_is out i j (Some v).
Proof.
  intros t temps mrs out i j mr temp v G Sh Ho Ht Hm Hv.
  assert (W : all_within t temps mrs).
  { apply Classical_Prop.NNPP. intros N. rewrite (melt_error t temps mrs G N) in Ho. discriminate. }
  destruct (melt_spec t temps mrs G Sh W) as (out' & E & _ & _ & B). rewrite Ho in E. injection E as <-.
  pose proof G as (G1 & G2 & _).
  destruct (labels_exist (t_mrs t) (fun y => In (Some y) (concat mrs)) (non_nan mrs)) as [M LM]; auto.
  { intros y. symmetry. apply In_non_nan. }
  destruct (labels_exist (t_temps t) (fun y => In y (concat temps)) (concat temps)) as [T LT]; auto; [tauto|].
  destruct (B M T i j mr temp LM LT Ht Hm) as (w & C & D).
  assert (Bs : forall axis x k, nth_error axis k = Some x -> bracket axis x x x).
  { intros axis x k H. apply nth_error_In in H. repeat split; auto; try lra. intros y _. lra. }
  pose proof Hv as (a & b & row & A1 & A2 & _).
  rewrite (D _ _ _ _ _ _ _ _ (Bs _ _ _ A1) (Bs _ _ _ A2) Hv Hv Hv Hv) in C.
  unfold mix in C. match type of C with cell_is _ _ _ (Some ?x) => replace x with v in C by ring end. exact C.
Qed.

(** Each result lies between the four table values around its query. *)
Theorem C53_bounds : forall t temps mrs out i j mr temp m0 m1 t0 t1 lo hi,
  good_table t -> same_shape temps mrs -> get_melt_frac t temps mrs = Ok out ->
  cell_is temps i j temp -> cell_is mrs i j (Some mr) ->
  bracket (t_mrs t) m0 m1 mr -> bracket (t_temps t) t0 t1 temp ->
  (forall m u w, (m = m0 \/ m = m1) -> (u = t0 \/ u = t1) -> value_at t m u w -> lo <= w <= hi) ->
  exists v, cell_is out i j (Some v) /\ lo <= v <= hi.
Proof.
  intros t temps mrs out i j mr temp m0 m1 t0 t1 lo hi G Sh Ho Ht Hm BM BT V.
  assert (W : all_within t temps mrs).
  { apply Classical_Prop.NNPP. intros N. rewrite (melt_error t temps mrs G N) in Ho. discriminate. }
  destruct (melt_spec t temps mrs G Sh W) as (out' & E & _ & _ & B). rewrite Ho in E. injection E as <-.
  pose proof G as (G1 & G2 & _).
  destruct (labels_exist (t_mrs t) (fun y => In (Some y) (concat mrs)) (non_nan mrs)) as [M LM]; auto.
  { intros y. symmetry. apply In_non_nan. }
  destruct (labels_exist (t_temps t) (fun y => In y (concat temps)) (concat temps)) as [T LT]; auto; [tauto|].
  destruct (B M T i j mr temp LM LT Ht Hm) as (w & C & D). exists w. split; auto.
  eapply (bilinear_between t M T); eauto.
Qed.

(** A table of two mixing ratios at one temperature. *)
Definition small_table : table := mk_table [0; 10] [100] [[0]; [1]].

Lemma small_good : good_table small_table.
Proof.
  unfold good_table, small_table; cbn [t_mrs t_temps t_vals].
  repeat split; try congruence; repeat constructor; lra.
Qed.

Ltac count_tac :=
  unfold rank_frac, count; cbn [filter];
  repeat match goal with
  | |- context [Rleb ?x ?y] => destruct (Rleb x y) eqn:?; [rewrite Rleb_true in *|rewrite Rleb_false in *]; try lra; cbn [andb]
  | |- context [Rltb ?x ?y] => destruct (Rltb x y) eqn:?; [rewrite Rltb_true in *|rewrite Rltb_false in *]; try lra
  end; cbn [length].

Lemma small_lookup mrs M j mr : Forall (fun m => 0 < m < 10) mrs ->
  labels [0; 10] (fun y => In y mrs) M -> nth_error mrs j = Some mr ->
  exists out, get_melt_frac small_table [repeat 100 (length mrs)] [map Some mrs] = Ok out /\
    cell_is out 0 j (Some (rank_frac M 0 10 mr)).
Proof.
  intros HF LM Hj.
  assert (V0 : value_at small_table 0 100 0) by (exists 0%nat, 0%nat, [0]; auto).
  assert (V1 : value_at small_table 10 100 1) by (exists 1%nat, 0%nat, [1]; auto).
  assert (Lj : (j < length mrs)%nat) by (apply nth_error_Some; congruence).
  assert (BM : forall m, 0 < m < 10 -> bracket [0; 10] 0 10 m).
  { intros m Hm. repeat split; cbn; auto; try lra. intros y [<-|[<-|[]]]; lra. }
  assert (Wt : forall i k x, cell_is [repeat 100 (length mrs)] i k x -> x = 100).
  { intros i k x (row & A & B). destruct i as [|[|i]]; cbn in A; try discriminate. injection A as <-.
    apply nth_error_In in B. now apply repeat_spec in B. }
  destruct (melt_spec small_table [repeat 100 (length mrs)] [map Some mrs]) as (out & E & _ & _ & B).
  - exact small_good.
  - repeat constructor. now rewrite repeat_length, map_length.
  - intros i k temp m Ht (row & A & C). split.
    + destruct i as [|[|i]]; cbn in A; try discriminate. injection A as <-.
      rewrite nth_error_map in C. destruct (nth_error mrs k) as [m'|] eqn:Ek; [|discriminate]. cbn in C. injection C as ->.
      pose proof (Forall_nth_error _ _ _ _ HF Ek) as Hm. cbn in Hm.
      exists 0, 10. cbn. repeat split; auto; lra.
    + rewrite (Wt _ _ _ Ht). exists 100, 100. cbn. repeat split; auto; lra.
  - exists out. split; auto.
    destruct (B M [100] 0%nat j mr 100) as (v & C & D).
    + destruct LM as [N LM]. split; auto. intros y. cbn [small_table t_mrs]. rewrite LM.
      cbn [concat]. rewrite app_nil_r. rewrite in_map_iff.
      assert (Q : In y mrs <-> exists x, Some x = Some y /\ In x mrs)
        by (split; [eauto|intros (x & [= ->] & H); auto]).
      tauto.
    + split; [repeat constructor; auto|]. intros y. cbn [small_table t_temps]. split; auto.
      intros [H|(_ & lo & hi & [<-|[]] & [<-|[]] & H)]; auto. lra.
    + exists (repeat 100 (length mrs)). split; auto. now apply nth_error_repeat.
    + exists (map Some mrs). split; auto. now rewrite nth_error_map, Hj.
    + pose proof (Forall_nth_error _ _ _ _ HF Hj) as Hm. cbn in Hm.
      assert (BT : bracket [100] 100 100 100) by (repeat split; cbn; auto; try lra; intros y [<-|[]]; lra).
      rewrite (D 0 10 100 100 0 0 1 1 (BM _ Hm) BT V0 V0 V1 V1) in C. unfold mix in C.
      match type of C with cell_is _ _ _ (Some ?x) => replace x with (rank_frac M 0 10 mr) in C by ring end. exact C.
Qed.

(** A single query anywhere between the labels 0 and 10 gives the middle of their values,
    and not the value interpolated at the mixing ratio. *)
Theorem C53_linear_in_mixing_ratio_refuted :
  good_table small_table /\ value_at small_table 0 100 0 /\ value_at small_table 10 100 1 /\
  forall x, 0 < x < 10 -> exists out,
    get_melt_frac small_table [[100]] [[Some x]] = Ok out /\ cell_is out 0 0 (Some (1 / 2)).
Proof.
  split; [exact small_good|]. split; [exists 0%nat, 0%nat, [0]; auto|].
  split; [exists 1%nat, 0%nat, [1]; auto|]. intros x Hx.
  destruct (small_lookup [x] [0; 10; x] 0 x) as (out & E & C); auto.
  - split.
    + repeat constructor; cbn; intuition lra.
    + intros y. cbn. split.
      * intros [<-|[<-|[<-|[]]]]; auto. right. split; auto. exists 0, 10. intuition.
      * intuition.
  - exists out. split; auto. replace (1 / 2) with (rank_frac [0; 10; x] 0 10 x); auto.
    count_tac. cbn. lra.
Qed.

(** The result for one crater depends on which other craters are in the table: 5 gives 1/2
    on its own and 1/3 next to a query of 9. *)
Theorem C53_independent_of_other_queries_refuted : exists out out',
  get_melt_frac small_table [[100]] [[Some 5]] = Ok out /\
  get_melt_frac small_table [[100; 100]] [[Some 5; Some 9]] = Ok out' /\
  cell_is out 0 0 (Some (1 / 2)) /\ cell_is out' 0 0 (Some (1 / 3)).
Proof.
  destruct C53_linear_in_mixing_ratio_refuted as (_ & _ & _ & H).
  destruct (H 5 ltac:(lra)) as (out & E & C). clear H.
  destruct (small_lookup [5; 9] [0; 10; 5; 9] 0 5) as (out' & E' & C'); auto.
  - repeat constructor; lra.
  - split.
    + repeat constructor; cbn; intuition lra.
    + intros y. cbn. split.
      * intros [<-|[<-|[<-|[<-|[]]]]]; auto; right; (split; [auto|]); exists 0, 10; intuition lra.
      * intuition.
  - exists out, out'. repeat split; auto. replace (1 / 3) with (rank_frac [0; 10; 5; 9] 0 10 5); auto.
    count_tac. cbn. lra.
Qed.

(** ** C54: ballistic sedimentation *)

(** Every query of the configuration lies on the table. *)
Definition on_table (b : bcfg) (t : table) (df : list site) (dists : list (list (option R))) : Prop :=
  (forall i j d, cell_is dists i j (Some d) ->
     within (t_mrs t) (mixing_ratio (mr_a b) (mr_b b) (mr_petro b) d)) /\
  (forall s, In s df -> within (t_temps t)
     (if s_basin s then (if basin_warm b then temp_warm b else temp_cold b) else temp_init b)).

Lemma on_table_within b t ncol df dists : on_table b t df dists ->
  all_within t (ejecta_temp b ncol df) (get_mixing_ratio_oberbeck b dists).
Proof.
  intros [H1 H2] i j temp mr Ht Hm. apply mix_cell in Hm as ([d|] & Hd & E); [|discriminate].
  cbn in E. injection E as ->. split; [eauto|]. apply temp_cell in Ht as (s & Hs & -> & _).
  apply H2. eapply nth_error_In; eauto.
Qed.

(** The depth at each time and cold trap is the total ejecta thickness of the craters of
    that time times the largest of their mixing ratios; the fraction is the largest of
    their melt fractions times the fraction lost. *)
Theorem C54_values : forall c b t thick_min tol ncol time df dists,
  bsed_on b = true -> good_table t -> time <> [] -> length dists = length df ->
  Forall (fun r => length r = ncol) dists -> on_table b t df dists ->
  exists melt depths fracs,
    get_melt_frac t (ejecta_temp b ncol df) (get_mixing_ratio_oberbeck b dists) = Ok melt /\
    get_bsed_depth c b t thick_min tol ncol time df dists = Ok (depths, fracs) /\
    length depths = length time /\ length fracs = length time /\
    Forall (fun r => length r = ncol) depths /\ Forall (fun r => length r = ncol) fracs /\
    forall k j, (k < length time)%nat -> (j < ncol)%nat ->
      exists here mr mf,
        (forall sd, In sd here <-> In sd (combine df dists) /\ counted time tol k (s_age (fst sd))) /\
        (exists p, here = filter p (combine df dists)) /\
        max_of_events time tol (map s_age df) (get_mixing_ratio_oberbeck b dists) k j mr /\
        max_of_events time tol (map s_age df) melt k j mf /\
        cell_is depths k j (Some (mr * Rsum (map (fun sd =>
          get_ejecta_thickness c (nth j (snd sd) None) (s_rad (fst sd))) here))) /\
        cell_is fracs k j (Some (frac_lost b * mf)).
Proof.
  intros c b t thick_min tol ncol time df dists Hon G Ne HL HF HO.
  destruct (melt_spec t (ejecta_temp b ncol df) (get_mixing_ratio_oberbeck b dists) G
              (ejecta_temp_shape b ncol df dists HL HF) (on_table_within b t ncol df dists HO)) as (melt & Hm & Sm & _).
  destruct (get_bsed_spec c b t thick_min tol ncol time df dists melt Hon Ne HL HF Hm Sm)
    as (depths & fracs & A & B & C & D & E & F).
  exists melt, depths, fracs. repeat split; auto. intros k j Lk Lj.
  destruct (F k j Lk Lj) as (here & mr & mf & F1 & F2 & F3 & F4 & F5 & F6).
  exists here, mr, mf. rewrite (Rmult_comm mr). repeat (split; [assumption|]). assumption.
Qed.

(** Where every table value is a fraction and every thickness is not negative, depths are
    not negative and fractions lie between 0 and the fraction lost. *)
Theorem C54_bounds : forall c b t thick_min tol ncol time df dists depths fracs,
  bsed_on b = true -> good_table t -> time <> [] -> length dists = length df ->
  Forall (fun r => length r = ncol) dists -> on_table b t df dists -> 0 <= frac_lost b ->
  (forall mr temp v, value_at t mr temp v -> 0 <= v <= 1) ->
  (forall s row d, In (s, row) (combine df dists) -> In d row -> 0 <= get_ejecta_thickness c d (s_rad s)) ->
  get_bsed_depth c b t thick_min tol ncol time df dists = Ok (depths, fracs) ->
  forall k j, (k < length time)%nat -> (j < ncol)%nat ->
    exists d f, cell_is depths k j (Some d) /\ cell_is fracs k j (Some f) /\
                0 <= d /\ 0 <= f <= frac_lost b.
Proof.
  intros c b t thick_min tol ncol time df dists depths fracs Hon G Ne HL HF HO Hf HV HT Hb k j Lk Lj.
  destruct (C54_values c b t thick_min tol ncol time df dists Hon G Ne HL HF HO)
    as (melt & depths' & fracs' & Hm & E & _ & _ & _ & _ & F). rewrite Hb in E. injection E as <- <-.
  destruct (F k j Lk Lj) as (here & mr & mf & F1 & _ & (M0 & _ & _) & (N0 & _ & N2) & F5 & F6).
  eexists _, _. split; [exact F5|]. split; [exact F6|].
  assert (T0 : 0 <= Rsum (map (fun sd => get_ejecta_thickness c (nth j (snd sd) None) (s_rad (fst sd))) here)).
  { apply Rsum_nonneg. apply Forall_forall. intros x Hx. apply in_map_iff in Hx as ([s row] & <- & Hx).
    apply F1 in Hx as [Hx _]. apply (HT s row); auto. cbn [snd]. apply nth_In.
    apply in_combine_r in Hx. rewrite Forall_forall in HF. rewrite (HF _ Hx). auto. }
  destruct (melt_range t (ejecta_temp b ncol df) (get_mixing_ratio_oberbeck b dists) 0 1 G
              (ejecta_temp_shape b ncol df dists HL HF) (on_table_within b t ncol df dists HO) ltac:(lra) HV)
    as (melt' & Hm' & Sm & R). rewrite Hm in Hm'. injection Hm' as <-.
  assert (U : mf <= 1).
  { destruct N2 as [->|(i & age & _ & _ & C)]; [lra|].
    destruct C as (row & C1 & C2). apply Forall2_nth_error in Sm as [L1 L2].
    destruct (nth_error (get_mixing_ratio_oberbeck b dists) i) as [m|] eqn:Em.
    2:{ apply nth_error_None in Em. assert (i < length melt)%nat by (apply nth_error_Some; congruence). lia. }
    specialize (L2 i row m C1 Em).
    destruct (nth_error m j) as [o|] eqn:Ej.
    2:{ apply nth_error_None in Ej. assert (j < length row)%nat by (apply nth_error_Some; congruence). lia. }
    destruct (R i j o) as (v & (row' & V1 & V2) & V3); [exists m; auto|].
    rewrite C1 in V1. injection V1 as <-. rewrite C2 in V2. injection V2 as <-. lra. }
  split; [apply Rmult_le_pos; auto|]. split; [apply Rmult_le_pos; auto|].
  rewrite <- (Rmult_1_r (frac_lost b)) at 2. apply Rmult_le_compat_l; auto.
Qed.

(** A time to which no crater is assigned has depth and fraction 0. *)
Theorem C54_no_event : forall c b t thick_min tol ncol time df dists depths fracs k j,
  bsed_on b = true -> good_table t -> time <> [] -> length dists = length df ->
  Forall (fun r => length r = ncol) dists -> on_table b t df dists ->
  get_bsed_depth c b t thick_min tol ncol time df dists = Ok (depths, fracs) ->
  (k < length time)%nat -> (j < ncol)%nat ->
  (forall s, In s df -> ~ counted time tol k (s_age s)) ->
  cell_is depths k j (Some 0) /\ cell_is fracs k j (Some 0).
Proof.
  intros c b t thick_min tol ncol time df dists depths fracs k j Hon G Ne HL HF HO Hb Lk Lj HN.
  destruct (C54_values c b t thick_min tol ncol time df dists Hon G Ne HL HF HO)
    as (melt & depths' & fracs' & Hm & E & _ & _ & _ & _ & F). rewrite Hb in E. injection E as <- <-.
  destruct (F k j Lk Lj) as (here & mr & mf & _ & _ & (_ & _ & M0) & (_ & _ & N0) & F5 & F6).
  assert (A : forall vals v, (v = 0 \/ exists i age, nth_error (map s_age df) i = Some age /\ counted time tol k age /\
                                       cell_is vals i j (Some v)) -> v = 0).
  { intros vals v [->|(i & age & A1 & A2 & _)]; auto. rewrite nth_error_map in A1.
    destruct (nth_error df i) as [s|] eqn:Es; [|discriminate]. cbn in A1. injection A1 as <-.
    elim (HN s); auto. eapply nth_error_In; eauto. }
  apply A in M0. apply A in N0. subst. rewrite Rmult_0_l in F5. rewrite Rmult_0_r in F6. auto.
Qed.

Theorem C54_off : forall c b t thick_min tol ncol time df dists, bsed_on b = false ->
  exists z, get_bsed_depth c b t thick_min tol ncol time df dists = Ok (z, z) /\
    length z = length time /\ Forall (fun r => r = repeat (Some 0) ncol) z.
Proof. exact bsed_off. Qed.

(** A mixing ratio off the table stops the run with KeyError. *)
Theorem C54_off_table : forall c b t thick_min tol ncol time df dists i j d,
  bsed_on b = true -> good_table t -> length dists = length df ->
  Forall (fun r => length r = ncol) dists -> cell_is dists i j (Some d) ->
  ~ within (t_mrs t) (mixing_ratio (mr_a b) (mr_b b) (mr_petro b) d) ->
  get_bsed_depth c b t thick_min tol ncol time df dists = Err KeyError.
Proof.
  intros c b t thick_min tol ncol time df dists i j d Hon G HL HF Hd N.
  apply bsed_error; auto. apply melt_error; auto. intros W.
  assert (Hm : cell_is (get_mixing_ratio_oberbeck b dists) i j (Some (mixing_ratio (mr_a b) (mr_b b) (mr_petro b) d)))
    by (apply mix_cell; exists (Some d); auto).
  destruct (shape_cell _ _ (ejecta_temp_shape b ncol df dists HL HF) i j _ Hm) as [temp Ht].
  apply N. apply (W i j temp _ Ht Hm).
Qed.

(** config.py:180-190, the default options. *)
Definition bcfg0 : bcfg := mk_bcfg true (183 / 10000) (87 / 100) true 140 false 420 260 1.

(** With the default options and a table from 0 to 39 and 110 K to 510 K the lookup never
    fails, whatever the craters and cold traps on the Moon. *)
Theorem C54_default_total : forall c t thick_min tol ncol time df dists,
  good_table t -> In 0 (t_mrs t) -> In 39 (t_mrs t) -> In 110 (t_temps t) -> In 510 (t_temps t) ->
  time <> [] -> length dists = length df -> Forall (fun r => length r = ncol) dists ->
  (forall i j d, cell_is dists i j (Some d) -> 0 < d <= PI * 1737400) ->
  exists depths fracs, get_bsed_depth c bcfg0 t thick_min tol ncol time df dists = Ok (depths, fracs).
Proof.
  intros c t thick_min tol ncol time df dists G H0 H39 H110 H510 Ne HL HF HD.
  destruct (C54_values c bcfg0 t thick_min tol ncol time df dists eq_refl G Ne HL HF)
    as (melt & depths & fracs & _ & E & _); [|eauto].
  split.
  - intros i j d Hd. pose proof (mr_default_bound d (HD i j d Hd)). cbn [bcfg0 mr_a mr_b mr_petro].
    exists 0, 39. repeat split; auto; lra.
  - intros s _. cbn [bcfg0 basin_warm temp_warm temp_cold temp_init]. exists 110, 510.
    repeat split; auto; destruct (s_basin s); lra.
Qed.

(** The documentation says the maximum depth of the events of a time step is taken.  Two
    equal craters at the same time give twice the depth of either of them. *)
Definition zero_table : table := mk_table [0; 39] [110; 510] [[0; 0]; [0; 0]].
Definition crater_a : site := mk_site "A" 0 0 0 0 5000 1 false.
Definition crater_b : site := mk_site "B" 0 0 0 0 5000 1 false.

Lemma zero_good : good_table zero_table.
Proof.
  unfold good_table, zero_table; cbn [t_mrs t_temps t_vals].
  repeat split; try congruence; repeat constructor; lra.
Qed.

Lemma counted_1 : counted [1; 0] 0 0 1.
Proof.
  split.
  - exists 0, 1. unfold is_min, is_max. cbn. repeat split; auto; try lra;
      try (intros t [<-|[<-|[]]]; lra); rewrite ?Rmult_0_r; lra.
  - exists 1. repeat split.
    + intros [|[|j]] u H; cbn in H; try discriminate; [| |destruct j; discriminate]; injection H as <-;
        replace (1 - 1) with 0 by lra; rewrite Rabs_R0; first [apply Rle_refl|apply Rabs_pos].
    + intros j u H. lia.
Qed.

Lemma filter_all {A} (p : A -> bool) l : (forall x, In x l -> p x = true) -> filter p l = l.
Proof.
  induction l as [|a l IH]; intros H; cbn [filter]; auto.
  rewrite (H a) by now left. f_equal. apply IH. intros. apply H. now right.
Qed.

Lemma same_crater_depth (df : list site) (dists : list (list (option R))) depths fracs : df <> [] ->
  length dists = length df ->
  (forall sd, In sd (combine df dists) -> s_age (fst sd) = 1 /\ s_rad (fst sd) = 5000 /\ snd sd = [Some 10000]) ->
  get_bsed_depth CFG0 bcfg0 zero_table 0 0 1 [1; 0] df dists = Ok (depths, fracs) ->
  cell_is depths 0 0 (Some (mixing_ratio (183 / 10000) (87 / 100) true 10000 * (INR (length df) * 25))).
Proof.
  intros Ne HL HA E.
  assert (HI : forall i s row, nth_error df i = Some s -> nth_error dists i = Some row ->
               s_age s = 1 /\ s_rad s = 5000 /\ row = [Some 10000]).
  { intros i s row A B. apply (HA (s, row)). apply In_combine_nth. eauto. }
  assert (HR : forall i row, nth_error dists i = Some row -> row = [Some 10000]).
  { intros i row H. destruct (nth_error df i) as [s|] eqn:Es.
    - eapply HI; eauto.
    - apply nth_error_None in Es. assert (i < length dists)%nat by (apply nth_error_Some; congruence). lia. }
  assert (HC : forall i j d, cell_is dists i j (Some d) -> d = 10000).
  { intros i j d (row & A & B). rewrite (HR i row A) in B. destruct j as [|[|j]]; cbn in B; try discriminate. now injection B. }
  pose proof (mr_default_bound 10000 ltac:(pose proof PI2_3_2; lra)) as MB.
  destruct (C54_values CFG0 bcfg0 zero_table 0 0 1 [1; 0] df dists) as (melt & depths' & fracs' & _ & E' & _ & _ & _ & _ & F);
    auto using zero_good; try congruence.
  - apply Forall_forall. intros row Hr. apply In_nth_error in Hr as [i Hr]. now rewrite (HR i row Hr).
  - split.
    + intros i j d Hd. rewrite (HC i j d Hd). cbn [bcfg0 mr_a mr_b mr_petro].
      exists 0, 39. cbn [zero_table t_mrs In]. repeat split; auto; lra.
    + intros s _. cbn [bcfg0 basin_warm temp_warm temp_cold temp_init]. exists 110, 510. cbn.
      repeat split; auto; destruct (s_basin s); lra.
  - rewrite E in E'. injection E' as <- <-.
    destruct (F 0%nat 0%nat) as (here & mr & mf & F1 & (p & F2) & (M0 & M1 & M2) & _ & F5 & _); [cbn; lia|lia|].
    assert (Hh : here = combine df dists).
    { rewrite F2. apply filter_all. intros sd Hsd.
      assert (Q : In sd here). { apply F1. split; auto. destruct (HA sd Hsd) as (-> & _). apply counted_1. }
      rewrite F2 in Q. now apply filter_In in Q. }
    assert (Hmr : mr = mixing_ratio (183 / 10000) (87 / 100) true 10000).
    { apply Rle_antisym.
      - destruct M2 as [->|(i & age & _ & _ & C)]; [lra|]. apply mix_cell in C as ([d|] & C1 & C2); [|discriminate].
        rewrite (HC _ _ _ C1) in C2. cbn [option_map bcfg0 mr_a mr_b mr_petro] in C2. assert (Q : forall x y : R, Some x = Some y -> x = y) by congruence. rewrite (Q _ _ C2). apply Rle_refl.
      - destruct df as [|s df]; [congruence|]. destruct dists as [|row dists]; [discriminate|].
        apply (M1 0%nat (s_age s)); [reflexivity| |].
        + destruct (HI 0%nat s row eq_refl eq_refl) as (-> & _). apply counted_1.
        + apply mix_cell. exists (Some 10000). split; auto.
          exists row. split; auto. rewrite (HR 0%nat row eq_refl). reflexivity. }
    clear F2. subst mr here.
    match type of F5 with cell_is _ _ _ (Some (_ * ?x)) => replace x with (INR (length df) * 25) in F5; auto end.
    rewrite (map_ext_in _ (fun _ => 25)).
    + rewrite Rsum_map_const, combine_length, HL, Nat.min_id. reflexivity.
    + intros sd Hsd. destruct (HA sd Hsd) as (_ & -> & ->). cbn [nth].
      replace 10000 with (2 * 5000) by lra.
      assert (H0 : simple2complex CFG0 <= complex2peakring CFG0) by (cbn; lra).
      assert (Or : ordinary CFG0 5000) by (split; cbn; lra).
      destruct (thick_law CFG0 H0 5000 5000 Or) as (_ & T & _); [lra|]. rewrite T by lra.
      rewrite thick_rim; auto. rcase 5000 (simple2complex CFG0 / 2) E1'; [|cbn in E1'; lra].
      cbn [ej_exp CFG0]. replace (-3) with (- (3)) by lra. rewrite Rpower_Ropp.
      replace 3 with (INR 3) by (rewrite INR_IZR_INZ; reflexivity). rewrite Rpower_pow by lra. cbn. lra.
Qed.

(** Two equal craters of one step stir twice as deep as either of them, not the maximum. *)
Theorem C54_maximum_depth_refuted : exists d,
  0 < d /\
  (forall s, s = crater_a \/ s = crater_b -> exists depths fracs,
     get_bsed_depth CFG0 bcfg0 zero_table 0 0 1 [1; 0] [s] [[Some 10000]] = Ok (depths, fracs) /\
     cell_is depths 0 0 (Some d)) /\
  exists depths fracs,
    get_bsed_depth CFG0 bcfg0 zero_table 0 0 1 [1; 0] [crater_a; crater_b]
                   [[Some 10000]; [Some 10000]] = Ok (depths, fracs) /\
    cell_is depths 0 0 (Some (2 * d)).
Proof.
  pose proof (mr_default_bound 10000 ltac:(pose proof PI2_3_2; lra)) as MB.
  assert (Tot : forall df dists, length dists = length df -> Forall (fun r => r = [Some 10000]) dists ->
    exists depths fracs, get_bsed_depth CFG0 bcfg0 zero_table 0 0 1 [1; 0] df dists = Ok (depths, fracs)).
  { intros df dists HL HF. apply C54_default_total; auto using zero_good; cbn; auto; try congruence.
    - eapply Forall_impl; [|exact HF]. intros r ->. reflexivity.
    - intros i j d (row & A & B). pose proof (Forall_nth_error _ _ _ _ HF A) as ->.
      destruct j as [|[|j]]; cbn in B; try discriminate. injection B as <-. pose proof PI2_3_2. lra. }
  exists (mixing_ratio (183 / 10000) (87 / 100) true 10000 * 25). split; [lra|]. split.
  - intros s Hs. destruct (Tot [s] [[Some 10000]]) as (depths & fracs & E); auto.
    exists depths, fracs. split; auto.
    assert (C : cell_is depths 0 0 (Some (mixing_ratio (183 / 10000) (87 / 100) true 10000 * (INR (length [s]) * 25)))).
    { apply same_crater_depth with (dists := [[Some 10000]]) (fracs := fracs); auto; try congruence.
      intros sd [<-|[]]. destruct Hs as [->| ->]; cbn; auto. }
    cbn [length] in C. change (INR 1) with 1 in C. rewrite Rmult_1_l in C. exact C.
  - destruct (Tot [crater_a; crater_b] [[Some 10000]; [Some 10000]]) as (depths & fracs & E); auto.
    exists depths, fracs. split; auto.
    assert (C : cell_is depths 0 0 (Some (mixing_ratio (183 / 10000) (87 / 100) true 10000 * (INR (length [crater_a; crater_b]) * 25)))).
    { apply same_crater_depth with (dists := [[Some 10000]; [Some 10000]]) (fracs := fracs); auto; try congruence.
      intros sd [<-|[<-|[]]]; cbn; auto. }
    cbn [length] in C. replace (INR 2) with 2 in C by (cbn; lra).
    match type of C with cell_is _ _ _ (Some ?x) => replace x with (2 * (mixing_ratio (183 / 10000) (87 / 100) true 10000 * 25)) in C by ring end.
    exact C.
Qed.

(** The hypotheses of the theorems above hold in these cases. *)
Example C53_case : all_within small_table [[100; 100]] [[Some 5; None]].
Proof.
  intros i j temp mr (row & A & B) (row' & A' & B').
  destruct i as [|[|i]]; cbn in A, A'; try discriminate. injection A as <-. injection A' as <-.
  destruct j as [|[|[|j]]]; cbn in B, B'; try discriminate. injection B as <-. injection B' as <-.
  split; [exists 0, 10|exists 100, 100]; cbn; repeat split; auto; lra.
Qed.

Example C54_case : on_table bcfg0 zero_table [crater_a] [[Some 10000; None]].
Proof.
  split.
  - intros i j d (row & A & B). destruct i as [|[|i]]; cbn in A; try discriminate. injection A as <-.
    destruct j as [|[|[|j]]]; cbn in B; try discriminate. injection B as <-.
    pose proof (mr_default_bound 10000 ltac:(pose proof PI2_3_2; lra)). cbn [bcfg0 mr_a mr_b mr_petro].
    exists 0, 39. cbn [zero_table t_mrs In]. repeat split; auto; lra.
  - intros s [<-|[]]. cbn. exists 110, 510. cbn. repeat split; auto; lra.
Qed.

Print Assumptions C53_rank_bilinear.
Print Assumptions C53_errors.
Print Assumptions C53_table_values.
Print Assumptions C53_bounds.
Print Assumptions C53_linear_in_mixing_ratio_refuted.
Print Assumptions C53_independent_of_other_queries_refuted.
Print Assumptions C54_values.
Print Assumptions C54_bounds.
Print Assumptions C54_no_event.
Print Assumptions C54_off.
Print Assumptions C54_off_table.
Print Assumptions C54_default_total.
Print Assumptions C54_maximum_depth_refuted.
