(** Proofs about the tables of whole runs. *)
From Coq Require Import ZArith QArith Bool Ascii String List Reals Lra Lia Sorted Permutation.
From Verif Require Import Base Model_Column Model_Cfg Model_Time Model_Geo Model_Crater Model_Ice Model_Rng Model_Strat Model_Melt Model_Main Model_Run Model_Outputs
  Spec_Cfg Spec_Time Spec_Geo Spec_Ice Spec_Strat Spec_Main Spec_Run Spec_Outputs
  Proofs_Base Proofs_Column Proofs_ColumnP Proofs_Time Proofs_Geo Proofs_Crater Proofs_Strat Proofs_Labels Proofs_Main Proofs_Whole Proofs_Run Proofs_Shipped Spec_Options Proofs_Options Spec_Plot Model_Plot Proofs_Plot Proofs_Agg Proofs_Ranges.
Import ListNotations.
Open Scope R_scope.

Lemma combine_fst_map {A B C} (f : A -> C) (p : A * B -> bool) (a : list A) (b : list B) x :
  In x (map (fun ab => f (fst ab)) (filter p (combine a b))) -> In x (map f a).
Proof.
  intros H. apply in_map_iff in H as ([y z] & <- & H). apply filter_In in H as [H _]. apply in_combine_l in H. now apply in_map.
Qed.
Lemma nodup_filter_combine {A B C} (f : A -> C) (p : A * B -> bool) (a : list A) : forall b : list B, NoDup (map f a) ->
  NoDup (map (fun ab => f (fst ab)) (filter p (combine a b))).
Proof.
  induction a as [|x a IH]; intros [|y b] N; try constructor. cbn [map] in N. inversion N as [|? ? X N']; subst. cbn [combine filter].
  destruct (p (x, y)); [|auto]. cbn [map fst]. constructor; auto. intros Y. apply X. eapply combine_fst_map. exact Y.
Qed.
Lemma filter_filter {A} (p q : A -> bool) l : filter p (filter q l) = filter (fun x => q x && p x) l.
Proof. induction l as [|x l IH]; auto. cbn. destruct (q x); cbn; [destruct (p x)|]; congruence. Qed.

(** The rows behind the table of each cold trap. *)
Lemma main_steps c ppf sort craters basins u k out k' :
  ice_sane c -> bsed_sane c -> ppf_support ppf -> sorts_by_age sort -> draws u ->
  NoDup (r_names c) -> NoDup (map w_name (craters ++ basins)) ->
  Forall (fun w => 0 <= w_diam w) (craters ++ basins) ->
  (forall r w dst, line_of craters basins r w -> 0 <= ejecta_at c dst r) -> 0 <= r_min c ->
  Forall (fun w => w_name w <> ""%string /\ no_comma (w_name w)) (craters ++ basins) ->
  main c ppf sort craters basins u k = Ok (out, k') -> o_time out <> [] ->
  forall j n, nth_error (r_names c) j = Some n ->
  exists age ice ej src layers,
    make_strat_col (r_rnd c) (r_min c) (r_tol c) (r_after_age c) age (combine (combine (combine (o_time out) ice) ej) src) = Ok layers /\
    nth_error (o_strat out) j = Some (n, layers) /\
    Forall (fun x => 0 <= x) ice /\ Forall (fun x => 0 <= x) ej /\
    Forall (fun s => exists ns, NoDup ns /\ incl ns (map w_name (craters ++ basins)) /\ ~ In n ns /\ s = String.concat "," ns) src.
Proof.
  intros Hi Hb Hp Hs Hu N Nr Va Ej Hm Nm H Ne j n Hj. pose proof H as M.
  destruct (minmax_spec (o_time out) (r_tol c) Ne) as (lo & hi & Hlo & Hhi & _).
  destruct (ice_bound c ppf sort craters basins u k out k' Hi Hb Hp Hs Hu N Nr M Ne) as (df' & k1' & del & G1 & _ & _ & _ & G2).
  destruct (main_ejecta c ppf sort craters basins u k out k' lo hi Hs N Nr Va M Hlo Hhi) as (df'' & k1'' & at'' & G3 & _ & G4 & _ & G5).
  apply main_ok in H as (time & df & k1 & dists & d0 & bd & bf & d1 & H1 & H2 & H3 & H4 & H5 & H6 & H7).
  rewrite H2 in G1, G3. assert (df' = df /\ df'' = df) as [-> ->] by (split; congruence). clear G1 G3.
  pose proof (list_nodup _ _ _ _ _ _ _ _ _ Hs H2 Nr) as Nd.
  destruct (format_ok c d1 time df out N Nd H7) as (Et & K1 & K2 & K3 & F). rewrite Et in *.
  destruct (dists_ok _ _ _ _ _ ltac:(rewrite site_names; exact Nd) H3) as (Ld & Fd & _).
  destruct (init_ok c ppf time df dists u k1 d0 k' N H4) as (ej & src & ice & I1 & I2 & I3 & I4).
  destruct (ejecta_sources (crat (r_i c)) (r_min c) (r_tol c) (length (r_names c)) time (map site_of df) dists lo hi Hlo Hhi Ld Fd)
    as (at_ & ej' & src' & A1 & J1 & Je & Js & E).
  rewrite I1 in J1. assert (ej' = ej /\ src' = src) as [-> ->] by (split; congruence). clear J1.
  destruct (F j n Hj) as (dst & s & layers & F1 & F2 & F3 & F4 & F5 & F6 & F7).
  destruct (I4 j n Hj) as (x & y & z & X1 & X2 & X3 & X4).
  destruct (update_times_at _ _ _ _ _ _ n j _ _ _ _ _ N Hj H6 X4) as (h & ice' & _ & _ & U).
  rewrite F3 in U. cbn [s_ej s_src] in U. assert (s_src s = z) as Ez.
  { assert (Q : forall a b : @strat R, Ok a = Ok b -> a = b) by congruence. apply Q in U. rewrite U. reflexivity. }
  assert (DN : Permutation (names_of df) (map w_name (craters ++ basins))) by (eapply list_names; eauto).
  exists (c_age dst), (s_ice s), (s_ej s), (s_src s), layers. split; [exact F4|]. split; [exact F5|]. split; [|split].
  - destruct (G2 j n Hj) as (la & ic & col & _ & Q2 & _ & Q4 & _). rewrite F6 in Q2. injection Q2 as <-.
    clear - Q4. induction Q4; constructor; auto. lra.
  - destruct (G5 j n Hj) as (dst' & col & _ & _ & Q3 & Q4 & Q5). rewrite F7 in Q3. injection Q3 as <-.
    apply Forall_forall. intros v Hv. apply In_nth_error in Hv as [i Hv].
    assert (Li : (i < length time)%nat) by (rewrite <- Q4; apply nth_error_Some; congruence).
    rewrite (Q5 i Li) in Hv. injection Hv as <-. apply Rsum_nonneg. apply Forall_forall. intros q Hq.
    apply in_map_iff in Hq as (r & <- & Hr). apply filter_In in Hr as [Hr _]. rewrite Forall_forall in G4.
    destruct (G4 r Hr) as (w & Lw). eauto.
  - rewrite Ez. destruct (column_nth _ _ _ X3) as [Lz Nz]. apply Forall_forall. intros v Hv. apply In_nth_error in Hv as [i Hv].
    assert (Li : (i < length time)%nat) by (rewrite <- Js, <- Lz; apply nth_error_Some; congruence).
    assert (Lj : (j < length (r_names c))%nat) by (apply nth_error_Some; congruence).
    destruct (E i j Li Lj) as (ej_i & src_i & B1 & B2 & B3 & B4 & B5 & B6). cbv zeta in B6.
    specialize (Nz i). rewrite B2 in Nz. destruct Nz as (v' & V1 & V2). assert (v' = v) by congruence. subst v'.
    rewrite B6 in V1.
    2: { apply Forall_map. apply Forall_forall. intros r Hr. cbn [site_of s_name].
         assert (In (d_name (c_rest r)) (map w_name (craters ++ basins))) as Y.
         { eapply Permutation_in; [exact DN|]. unfold names_of. apply in_map_iff. eauto. }
         apply in_map_iff in Y as (w & <- & Hw). rewrite Forall_forall in Nm. auto. }
    rewrite filter_filter in V1. injection V1 as <-. eexists. split; [|split; [|split; [|reflexivity]]].
    + apply (nodup_filter_combine s_name). rewrite site_names. exact Nd.
    + intros q Hq. eapply Permutation_in; [exact DN|]. rewrite <- site_names. eapply (combine_fst_map s_name). exact Hq.
    + intros Hq. apply in_map_iff in Hq as ([st ds] & En & Hq). cbn [fst] in En. apply filter_In in Hq as [Hq T].
      apply andb_prop in T as [_ T]. apply Rltb_true in T. cbn [fst snd] in T.
      apply In_nth_error in Hq as [i0 Hq].
      assert (Q : nth_error (map site_of df) i0 = Some st /\ nth_error dists i0 = Some ds).
      { clear - Hq. revert Hq. generalize (map site_of df) as a. intros a. revert dists i0. induction a as [|p a IH]; intros [|q b] [|i] Hq; try discriminate; cbn in *; [injection Hq as -> ->; auto|auto]. }
      destruct Q as [Q1 Q2]. unfold get_coldtrap_dists in H3. destruct (mapM_nth _ _ _ H3) as [_ MM].
      destruct (MM i0 st Q1) as (row & R1 & R2). rewrite Q2 in R1. injection R1 as <-.
      destruct (mapM_nth _ _ _ R2) as [_ MN]. destruct (MN j n Hj) as (o & O1 & O2).
      unfold coldtrap_dist in O2. rewrite En, String.eqb_refl in O2. assert (o = None) by congruence. subst o.
      rewrite (nth_error_nth ds j None O1), thick_none in T. lra.
Qed.

(** ** The shipped settings *)
Lemma scaling_shipped E kw c fs rnd rc : Cfg E kw = Ok c -> only_switches kw -> rcfg_of fs rnd c = Ok rc ->
  crat (r_i rc) = CFG0 /\ r_min rc = 1 / 1000 /\ r_ejthr rc = 4 /\ r_basinthr rc = 5.
Proof.
  intros H U R. destruct (settings _ _ _ _ R) as (N & _). rewrite Forall_forall in N.
  assert (G : forall o f q, In (o, f) numbers -> getv c o = VFloat (Fin q) -> f rc = Q2R q).
  { intros o f q I V. apply (N (o, f) I). left. cbn [fst]. eauto. }
  assert (In_n : forall o f, In (o, f) numbers -> In (o, f) numbers) by auto.
  phys H U "simple2complex"%string V1. phys H U "complex2peakring"%string V2. phys H U "ej_thickness_exp"%string V3.
  phys H U "rad_moon"%string V4. phys H U "grav_moon"%string V5. phys H U "impact_angle"%string V6.
  phys H U "impactor_density"%string V7. phys H U "target_density"%string V8.
  phys H U "thickness_min"%string V9. phys H U "ej_threshold"%string Va. phys H U "basin_ej_threshold"%string Vb.
  apply (G _ (fun c => simple2complex (crat (r_i c)))) in V1; [|unfold numbers; cbn [In]; tauto].
  apply (G _ (fun c => complex2peakring (crat (r_i c)))) in V2; [|unfold numbers; cbn [In]; tauto].
  apply (G _ (fun c => ej_exp (crat (r_i c)))) in V3; [|unfold numbers; cbn [In]; tauto].
  apply (G _ (fun c => rad_moon (crat (r_i c)))) in V4; [|unfold numbers; cbn [In]; tauto].
  apply (G _ (fun c => grav_moon (crat (r_i c)))) in V5; [|unfold numbers; cbn [In]; tauto].
  apply (G _ (fun c => impact_angle (crat (r_i c)))) in V6; [|unfold numbers; cbn [In]; tauto].
  apply (G _ (fun c => impactor_density (crat (r_i c)))) in V7; [|unfold numbers; cbn [In]; tauto].
  apply (G _ (fun c => target_density (crat (r_i c)))) in V8; [|unfold numbers; cbn [In]; tauto].
  apply (G _ r_min) in V9; [|unfold numbers; cbn [In]; tauto].
  apply (G _ r_ejthr) in Va; [|unfold numbers; cbn [In]; tauto].
  apply (G _ r_basinthr) in Vb; [|unfold numbers; cbn [In]; tauto].
  cbv beta in *. split; [|rewrite V9, Va, Vb; unfold Q2R; cbn [Qnum Qden]; repeat split; lra].
  destruct (crat (r_i rc)) as [a1 a2 a3 a4 a5 a6 a7 a8].
  cbn [simple2complex complex2peakring ej_exp rad_moon grav_moon impact_angle impactor_density target_density] in *.
  subst. unfold CFG0, Q2R. cbn [Qnum Qden]. f_equal; lra.
Qed.

(** No crater or basin reaches so far that the curved thickness law fails. *)
Lemma ejecta_nonneg c dst r : crat (r_i c) = CFG0 -> r_ejthr c = 4 -> r_basinthr c = 5 ->
  0 < d_rad (c_rest r) <= 1000000 -> 0 <= ejecta_at c dst r.
Proof.
  intros C E1 E2 Hr. unfold ejecta_at. cbv zeta. destruct (String.eqb _ _); [lra|].
  set (d := gc_dist _ _ _ _ _). set (rad := d_rad (c_rest r)) in *.
  set (reach := if d_basin (c_rest r) then r_basinthr c else r_ejthr c).
  assert (Re : 4 <= reach <= 5) by (unfold reach; destruct (d_basin (c_rest r)); lra).
  destruct (Rltb rad d) eqn:D; [|cbn; lra]. apply Rltb_true in D. cbn [andb].
  destruct (Rltb reach 0) eqn:Z; [apply Rltb_true in Z; lra|]. cbn [orb].
  destruct (Rltb d (reach * rad)) eqn:L; [|lra]. apply Rltb_true in L. rewrite C.
  destruct (Rlt_le_dec rad 70000) as [S|S].
  - destruct (Req_dec rad 9000) as [Q|Q].
    + rewrite Q. assert (X : get_ejecta_thickness CFG0 (Some d) (simple2complex CFG0 / 2) = 0) by (apply thick_transition; cbn; lra).
      replace (simple2complex CFG0 / 2) with 9000 in X by (cbn; lra). lra.
    + left. eapply (thick_law CFG0); cbn [simple2complex complex2peakring ej_exp rad_moon CFG0]; try lra.
      unfold ordinary; cbn [simple2complex complex2peakring CFG0]; lra.
  - left. pose proof PI2_3_2. apply thick_basin_pos; try lra. nra.
Qed.
Definition names_ok (l : line) : bool :=
  negb (String.eqb (ln_name l) "") && negb (existsb (Ascii.eqb ","%char) (list_ascii_of_string (ln_name l))).
Lemma no_comma_b s : existsb (Ascii.eqb ","%char) (list_ascii_of_string s) = false -> no_comma s.
Proof.
  induction s as [|a s IH]; cbn [list_ascii_of_string existsb no_comma]; [auto|]. intros H. apply orb_false_iff in H as [H1 H2].
  apply Ascii.eqb_neq in H1. split; [congruence|auto].
Qed.
Lemma lines_shipped : Forall (fun w => 0 < w_diam w * 1000 / 2 <= 1000000 /\ w_name w <> ""%string /\ no_comma (w_name w) /\
  In (w_name w) listed) (map raw0 clines ++ map raw0 blines).
Proof.
  rewrite <- map_app. apply Forall_map.
  apply forallb_Forall with (f := fun l => Qle_bool (ln_diam l) 2000 && negb (Qle_bool (ln_diam l) 0) && names_ok l && existsb (String.eqb (ln_name l)) listed).
  - intros l Q. apply andb_prop in Q as [Q Q3]. apply andb_prop in Q as [Q Q2]. apply andb_prop in Q as [Q0 Q1]. apply qle in Q0. apply qlt in Q1.
    cbn [w_diam w_name raw0]. assert (Z : Q2R 0 = 0) by (unfold Q2R; cbn [Qnum Qden]; lra).
    assert (Z2 : Q2R 2000 = 2000) by (unfold Q2R; cbn [Qnum Qden]; lra). unfold names_ok in Q2. apply andb_prop in Q2 as [Q2 Q4].
    apply negb_true_iff in Q2, Q4. apply String.eqb_neq in Q2. split; [lra|]. split; [auto|]. split; [now apply no_comma_b|].
    now apply existsb_eqb.
  - vm_compute. reflexivity.
Qed.

(** ** The tables *)
(** A table of a run and what is known of the rows behind it. *)
Definition from_rows (n : string) (table : list layer) : Prop := exists rnd thick_min tol age steps,
  make_strat_col rnd thick_min tol true age steps = Ok table /\
  (forall x, 0 <= x -> 0 <= rnd x) /\ Forall (fun '(_, i, e, _) => 0 <= i /\ 0 <= e) steps /\
  StronglySorted (fun a b : R * R * R * string => rnd (fst (fst (fst b))) <= rnd (fst (fst (fst a)))) steps /\
  Forall (fun s => snd s = ""%string \/ layer_label n (snd s)) steps.

Lemma combine_sorted {A B} (R : A -> A -> Prop) (a : list A) : forall b : list B, StronglySorted R a ->
  StronglySorted (fun x y => R (fst x) (fst y)) (combine a b).
Proof.
  induction a as [|x a IH]; intros [|y b] S; try constructor.
  - apply IH. now inversion S.
  - inversion S as [|? ? _ F]; subst. apply Forall_forall. intros [x' y'] I. apply in_combine_l in I.
    rewrite Forall_forall in F. cbn. auto.
Qed.
Lemma nth_error_same {A} (a : list A) : forall b, (forall i, nth_error a i = nth_error b i) -> a = b.
Proof.
  induction a as [|x a IH]; intros [|y b] H; auto.
  - specialize (H 0%nat). discriminate.
  - specialize (H 0%nat). discriminate.
  - f_equal; [specialize (H 0%nat); cbn in H; congruence|]. apply IH. intros i. exact (H (Datatypes.S i)).
Qed.
Lemma axis_sorted rnd l : keeps_order rnd -> length l = 425%nat ->
  (forall i, (i < 425)%nat -> nth_error l i = Some (rnd (4250000000 - INR i * 10000000))) ->
  StronglySorted (fun a b => rnd b <= rnd a) l.
Proof.
  intros [O _] L N.
  assert (E : l = map (fun i => rnd (4250000000 - INR i * 10000000)) (seq 0 425)).
  { apply nth_error_same. intros i. rewrite nth_error_map. destruct (Nat.lt_ge_cases i 425) as [I|I].
    - rewrite N by exact I. rewrite (nth_error_nth' _ 0%nat) by (rewrite seq_length; exact I). rewrite seq_nth by exact I. reflexivity.
    - rewrite (proj2 (nth_error_None l i)) by lia.
      rewrite (proj2 (nth_error_None (seq 0 425) i)) by (rewrite seq_length; exact I). reflexivity. }
  rewrite E. clear E L N. generalize 0%nat at 1. generalize 425%nat. intros m. induction m as [|m IH]; intros s; [constructor|].
  cbn [seq map]. constructor; [apply IH|]. apply Forall_forall. intros x X. apply in_map_iff in X as (i & <- & I).
  apply in_seq in I. apply O, O. assert (INR s <= INR i) by (apply le_INR; lia). lra.
Qed.

Local Opaque clines blines listed.
Lemma shipped_rows names out : shipped_run names out ->
  map fst (o_strat out) = names /\ Forall (fun t => from_rows (fst t) (snd t)) (o_strat out).
Proof.
  intros (E & kw & c & fs & rnd & ppf & sort & u & k & k' & H & U & F & K & O & Rn1 & P & S & D & A & Rn).
  destruct (run_shipped E kw c fs rnd ppf sort names u k H U F K O Rn1 P S D) as (out' & k2 & Rn' & L & T & Sn & _).
  rewrite Rn in Rn'. assert (out' = out) as -> by congruence. clear Rn'. split; [exact Sn|].
  destruct K as (K & N & I & Hn). apply run_ok in Rn as (rc & cr & ba & R1 & R2 & R3 & R4).
  destruct (rcfg_shipped E kw c fs rnd names H U F K) as (rc' & RC & Nm & Rr & _ & _ & _ & _ & Bs & Is).
  rewrite R1 in RC. assert (rc' = rc) as -> by congruence. clear RC. specialize (Is Hn). rewrite Nm in R2, R3.
  destruct (read_craters E kw c fs names H U F I) as [C1 C2]. rewrite C1 in R2. rewrite C2 in R3.
  assert (cr = map raw0 clines /\ ba = map raw0 blines) as [-> ->] by (split; congruence). clear R2 R3 C1 C2.
  destruct (scaling_shipped E kw c fs rnd rc H U R1) as (Sc & Sm & Se & Sb).
  rewrite <- Nm in N, I. pose proof (data_shipped rc N I) as Ds. pose proof lines_shipped as Ls. rewrite Forall_forall in Ls.
  set (cl := map raw0 clines) in *. set (bl := map raw0 blines) in *. clearbody cl bl.
  assert (Aa : r_after_age rc = true).
  { destruct (settings _ _ _ _ R1) as (_ & B & _). rewrite Forall_forall in B.
    apply (B ("strat_after_age"%string, r_after_age)); [unfold flags; cbn [In]; tauto|exact A]. }
  assert (Ne : o_time out <> []) by (intros Q; rewrite Q in L; discriminate).
  apply Forall_forall. intros [n table] In_. cbn [fst snd]. apply In_nth_error in In_ as (j & J).
  assert (Jn : nth_error (r_names rc) j = Some n) by (rewrite Nm, <- Sn, nth_error_map, J; reflexivity).
  destruct (main_steps rc ppf sort cl bl u k out k' Is Bs P S D N (n_rows _ _ Ds)) with (j := j) (n := n)
    as (age & ice & ej & src & layers & M & Q & I1 & I2 & I3); auto.
  - apply Forall_forall. intros w W. apply Ls in W. lra.
  - intros r w dst (W & _ & W2 & _). apply ejecta_nonneg; auto. rewrite W2. apply Ls. apply in_app_iff. tauto.
  - lra.
  - apply Forall_forall. intros w W. apply Ls in W. tauto.
  - rewrite J in Q. injection Q as <-. rewrite Aa in M. do 5 eexists. split; [exact M|]. rewrite Rr. split; [|split; [|split]].
    + intros x X. destruct O as [O O0]. rewrite <- O0. now apply O.
    + apply Forall_forall. intros [[[t i] e] s] X. apply in_combine_l in X. pose proof X as Y. apply in_combine_r in X.
      apply in_combine_l, in_combine_r in Y. rewrite Forall_forall in I1, I2. auto.
    + apply (combine_sorted (fun a b : R * R * R => rnd (fst (fst b)) <= rnd (fst (fst a)))).
      apply (combine_sorted (fun a b : R * R => rnd (fst b) <= rnd (fst a))).
      apply (combine_sorted (fun a b : R => rnd b <= rnd a)). now apply axis_sorted.
    + apply Forall_forall. intros [x s] X. apply in_combine_r in X. cbn [snd]. rewrite Forall_forall in I3.
      destruct (I3 s X) as (ns & N1 & N2 & N3 & ->). destruct ns as [|a ns]; [left; reflexivity|]. right. right. right.
      exists (a :: ns). split; [discriminate|]. split; [exact N1|]. split; [|auto]. intros y Y. apply N2 in Y.
      apply in_map_iff in Y as (w & <- & W). now apply Ls in W.
Qed.

Local Transparent clines blines listed.
Lemma listed_ok : Forall (fun n => n <> ""%string /\ no_comma n /\ n <> "Formation age"%string /\ n <> "Other"%string) listed.
Proof.
  apply Forall_forall. intros n I.
  assert (B : forallb (fun n => negb (String.eqb n "") && negb (existsb (Ascii.eqb ","%char) (list_ascii_of_string n)) &&
    negb (String.eqb n "Formation age") && negb (String.eqb n "Other")) listed = true) by (vm_compute; reflexivity).
  rewrite forallb_forall in B. specialize (B n I). apply andb_prop in B as [B B4]. apply andb_prop in B as [B B3].
  apply andb_prop in B as [B1 B2]. apply negb_true_iff in B1, B2, B3, B4. apply String.eqb_neq in B1, B3, B4.
  split; [auto|]. split; [now apply no_comma_b|auto].
Qed.
(** The names behind a label can be read off it. *)
Lemma label_parts n l : layer_label n l -> l <> "Formation age"%string /\ l <> "Other"%string /\
  (split l = [l] \/ incl (split l) listed).
Proof.
  intros [->|[->|(ns & N0 & _ & I & _ & ->)]].
  - split; [discriminate|]. split; [discriminate|]. left. reflexivity.
  - split; [discriminate|]. split; [discriminate|]. left. reflexivity.
  - pose proof listed_ok as L. rewrite Forall_forall in L.
    assert (Sj : split (String.concat "," ns) = ns).
    { apply (split_join ns N0). apply Forall_forall. intros x X. apply (L x). auto. }
    assert (X : forall s, no_comma s -> (forall m, In m listed -> m <> s) -> String.concat "," ns <> s).
    { intros s C Z Q. rewrite Q, (split_no_comma s C) in Sj. subst ns. apply (Z s); [|reflexivity]. apply I. now left. }
    split; [apply X|split; [apply X|]].
    + cbn. repeat split; discriminate.
    + intros m M. apply L in M. tauto.
    + cbn. repeat split; discriminate.
    + intros m M. apply L in M. tauto.
    + right. now rewrite Sj.
Qed.
Lemma rows_named n table : from_rows n table -> exists f rest, table = f :: rest /\
  l_label f = "Formation age"%string /\ l_ice f = 0 /\ l_ej f = 0 /\ Forall (fun l => layer_label n (l_label l)) rest.
Proof.
  intros (rnd & tm & tol & age & steps & H & _ & _ & _ & L).
  destruct (strat_rest_named (layer_label n) rnd tm tol age steps table H) as (s & kept & l & rest & _ & -> & A & B & C & _ & D & _); auto.
  - now left.
  - right. now left.
  - intros X. apply label_parts in X as (X & _). now apply X.
  - exists l, rest. auto.
Qed.
Lemma rows_plain n table : from_rows n table -> exists rnd thick_min tol age steps,
  make_strat_col rnd thick_min tol true age steps = Ok table /\
  (forall x, 0 <= x -> 0 <= rnd x) /\ Forall (fun '(_, i, e, _) => 0 <= i /\ 0 <= e) steps /\
  StronglySorted (fun a b : R * R * R * string => rnd (fst (fst (fst b))) <= rnd (fst (fst (fst a)))) steps /\
  Forall (fun s => snd s <> "Formation age"%string /\ snd s <> "Other"%string) steps.
Proof.
  intros (rnd & tm & tol & age & steps & H1 & H2 & H3 & H4 & H5). exists rnd, tm, tol, age, steps. repeat (split; [assumption|]).
  eapply Forall_impl; [|exact H5]. cbn beta. intros s [->|X]; [split; discriminate|]. apply label_parts in X. tauto.
Qed.

(** ** Plots of tables *)
Lemma table_rows n table : shipped_table n table -> from_rows n table.
Proof.
  intros (names & out & R & I). apply shipped_rows in R as [_ R]. rewrite Forall_forall in R. apply (R _ I).
Qed.
Lemma Forall2_In_r {A B} (R : A -> B -> Prop) a b y : Forall2 R a b -> In y b -> exists x, In x a /\ R x y.
Proof.
  intros F. induction F as [|x y' a b H F IH]; [contradiction|]. intros [->|I]; [exists x; split; [now left|auto]|].
  destruct (IH I) as (x' & X1 & X2). exists x'. split; [now right|auto].
Qed.
Lemma table_errors by_depth by_diam hash cdf m n table e :
  sorts_by l_depth by_depth -> sorts_by snd by_diam -> (forall s, In s listed -> exists d, In (s, d) cdf) -> 0 < m ->
  shipped_table n table ->
  (plot_column m table = Err e \/
   exists t col, plot_column m table = Ok (t, col) /\ get_strat_col_ranges by_depth by_diam hash cdf col = Err e) ->
  e = KeyError /\ tl table <> [] /\ Forall (fun l => l_ice l + l_ej l < m) (tl table).
Proof.
  intros S1 S2 C M T H. apply table_rows in T. pose proof (rows_named _ _ T) as Nm.
  apply rows_plain in T as (rnd & tm & tol & age & steps & A1 & A2 & A3 & A4 & A5).
  pose proof (plot_run rnd tm tol age steps table m A1 A5) as P. cbv zeta in P.
  destruct H as [H|(t & col & H & G)]; rewrite H in P.
  - destruct P as (P1 & P2 & P3). split; auto. split; auto. apply Forall_forall. intros l L.
    destruct (Rle_lt_dec m (l_ice l + l_ej l)) as [Q|Q]; [|exact Q]. exfalso.
    assert (X : In l (filter (fun l => Rleb m (l_ice l + l_ej l)) (tl table))) by (apply filter_In; split; auto; now apply Rleb_true).
    rewrite P3 in X. exact X.
  - exfalso. destruct P as (_ & P & _).
    pose proof (run_stacked rnd tm tol age steps table m t col A1 A2 A3 A5 M H) as K.
    pose proof (ranges_errors by_depth by_diam hash cdf col S1 S2 K) as Q. cbv zeta in Q. rewrite G in Q.
    destruct Q as (_ & l & L & L1 & s & L2 & L3). destruct (Forall2_In_r _ _ _ _ P L) as (l0 & Z1 & Z2).
    apply filter_In in Z1 as [Z1 _]. destruct Nm as (f & rest & -> & _ & _ & _ & Nm). cbn [tl] in Z1.
    rewrite Forall_forall in Nm. apply Nm in Z1. replace (l_label l0) with (l_label l) in Z1 by (destruct Z2 as (?&?&?&?); congruence).
    apply label_parts in Z1 as (_ & _ & [Z1|Z1]); [rewrite Z1 in L1; cbn in L1; lia|].
    apply Z1 in L2. destruct (C _ L2) as (d & Cd). apply (L3 d Cd).
Qed.

(** ** The crater list of the plots *)
Lemma list_diams c ppf sort craters basins u k df k1 : sorts_by_age sort ->
  get_crater_basin_list c ppf sort craters basins u k = Ok (df, k1) ->
  Permutation (map (fun r => (d_name (c_rest r), 2 * d_rad (c_rest r))) df)
    (map (fun w => (w_name w, w_diam w * 1000)) (craters ++ basins)).
Proof.
  intros Hs H. apply list_ok in H as (icy & us & Li & Lu & _ & P); auto. cbv zeta in Lu, P.
  rewrite P, map_map.
  rewrite (map_ext _ (fun '(r, _) => (d_name (c_rest r), 2 * d_rad (c_rest r)))) by (intros [r v]; reflexivity).
  rewrite (map_ext _ (fun rv => (fun r => (d_name (c_rest r), 2 * d_rad (c_rest r))) (fst rv))) by (intros [r v]; reflexivity).
  rewrite <- (map_map fst (fun r => (d_name (c_rest r), 2 * d_rad (c_rest r)))).
  assert (Fst : forall A B (a : list A) (b : list B), length b = length a -> map fst (combine a b) = a).
  { clear. intros A B a. induction a as [|x a IH]; intros [|y b] L; try discriminate; auto. cbn. f_equal. apply IH. now injection L. }
  rewrite Fst by exact Lu. rewrite !map_app, !map_map. apply Permutation_app.
  - rewrite (map_ext _ (fun w => (w_name w, w_diam w * 1000))); [apply Permutation_refl|]. intros w. cbn. f_equal. lra.
  - rewrite (map_ext _ (fun wi => (fun w => (w_name w, w_diam w * 1000)) (fst wi))) by (intros [w i]; cbn; f_equal; lra).
    rewrite <- (map_map fst (fun w => (w_name w, w_diam w * 1000))), Fst by exact Li. apply Permutation_refl.
Qed.
Lemma cdf_shipped E c fs rnd ppf sort names u k : Cfg E [("seed"%string, VInt 1)] = Ok c -> installed fs c -> known_traps c names ->
  sorts_by_age sort ->
  exists cdf k', plotting_cdf E fs rnd ppf sort u k = Ok (cdf, k') /\
    Permutation cdf (map (fun w => (w_name w, w_diam w * 1000)) (map raw0 clines ++ map raw0 blines)).
Proof.
  intros H F (K & N & I & Hn) S.
  assert (U : only_switches [("seed"%string, VInt 1)]).
  { intros o O. apply Proofs_Cfg.lookup_none. intros [<-|[]]. apply in_app_iff, existsb_eqb in O. vm_compute in O. discriminate. }
  destruct (rcfg_shipped E _ c fs rnd names H U F K) as (rc & RC & Nm & _).
  destruct (read_craters E _ c fs names H U F I) as [C1 C2].
  destruct (list_total rc ppf sort (map raw0 clines) (map raw0 blines) u k) as (df & k1 & L).
  eexists. exists k1. split.
  - unfold plotting_cdf, rbind, lift, ret. rewrite H. cbn [bind]. rewrite RC. cbn [bind]. rewrite Nm, C1. cbn [bind].
    rewrite C2. cbn [bind]. rewrite L. cbn [bind]. reflexivity.
  - eapply list_diams; eauto.
Qed.
Lemma names_listed : Permutation (map w_name (map raw0 clines ++ map raw0 blines)) listed.
Proof.
  apply NoDup_Permutation.
  - apply nodupb_ok. vm_compute. reflexivity.
  - apply nodupb_ok. vm_compute. reflexivity.
  - assert (A : incl (map w_name (map raw0 clines ++ map raw0 blines)) listed) by (apply inclb_ok; vm_compute; reflexivity).
    assert (B : incl listed (map w_name (map raw0 clines ++ map raw0 blines))) by (apply inclb_ok; vm_compute; reflexivity).
    intros n. split; [apply A|apply B].
Qed.
