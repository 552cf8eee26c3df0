(** A run with the shipped files succeeds. *)
From Coq Require Import ZArith QArith Bool Ascii String List Reals Qreals Lia Lra Sorted.
From Verif Require Import Base Proofs_Base Model_Csv Data_Shipped Model_Cfg Spec_Cfg Proofs_Cfg Proofs_Default Props_Cfg
  Model_Time Model_Geo Model_Interp Model_Crater Model_Ice Model_Rng Model_Strat Model_Melt Model_Main Model_Run
  Spec_Time Spec_Ice Spec_Melt Spec_Main Spec_Run Proofs_Time Proofs_Crater Proofs_Scaling Proofs_Ice Proofs_Neukum Proofs_Rng Props_Ice Props_Rng Proofs_Main Proofs_Run.
Import ListNotations.
Open Scope R_scope.

Lemma PI_le : PI <= 52 / 15.
Proof.
  destruct (PI_ineq 1) as [_ H]. cbn [sum_f_R0 Nat.mul Nat.add] in H. unfold tg_alt, PI_tg in H.
  replace (INR (2 * 0 + 1)) with 1 in H by (rewrite INR_IZR_INZ; cbn; lra).
  replace (INR (2 * 1 + 1)) with 3 in H by (rewrite INR_IZR_INZ; cbn; lra).
  replace (INR (2 * 2 + 1)) with 5 in H by (rewrite INR_IZR_INZ; cbn; lra).
  cbn [pow] in H. lra.
Qed.
Lemma mr_bound petro d : 0 < d <= PI * 1737400 -> 0 < mixing_ratio (183 / 10000) (87 / 100) petro d < 39.
Proof.
  intros Hd. destruct petro; [now apply mr_default_bound|].
  destruct (mr_spec (183 / 10000) (87 / 100) false d ltac:(lra) ltac:(lra) ltac:(lra)) as [[H0 H1] _].
  split; auto. unfold mixing_ratio in *.
  assert (Hx : d / 1000 <= 6100) by (pose proof PI_le; nra).
  assert (HP : Rpower (d / 1000) (87 / 100) < 2131).
  { apply Rle_lt_trans with (Rpower 6100 (87 / 100)).
    - destruct Hx as [Hx| ->]; [left; apply Rpower_lt_pos; lra|lra].
    - apply Rle_lt_trans with (Rpower 6100 (7 / 8)).
      + apply Rle_Rpower; lra.
      + rewrite <- (Rpower_inv_exp 2131 8) by lra.
        replace (7 / 8) with (INR 7 * (1 / 8)) by (rewrite INR_IZR_INZ; cbn; lra).
        rewrite <- Rpower_mult. apply Rpower_lt_pos; [lra|apply Rpower_pos|].
        rewrite Rpower_pow by lra. replace 8 with (INR 8) by (rewrite INR_IZR_INZ; cbn; lra).
        rewrite Rpower_pow by lra. lra. }
  rewrite ?andb_false_l in *. cbn [andb] in *. lra.
Qed.

Lemma bcfg_shipped E kw c : Cfg E kw = Ok c -> only_switches kw ->
  exists b, bcfg_of c = Ok b /\ 
    mr_a b = 183 / 10000 /\ mr_b b = 87 / 100 /\ temp_init b = 140 /\ temp_warm b = 420 /\ temp_cold b = 260 /\ frac_lost b = 1.
Proof.
  intros H U. eexists. split.
  { unfold bcfg_of. cbv zeta. repeat (eapply bind_ok; [opt H U|]; cbv beta). reflexivity. }
  cbn [mr_a mr_b temp_init temp_warm temp_cold frac_lost]. unfold Q2R. cbn [Qnum Qden]. repeat split; lra.
Qed.

Lemma strs_back names : mapM opt_str (map VStr names) = Ok names.
Proof. induction names as [|n l IH]; [reflexivity|]. cbn [map mapM opt_str bind]. now rewrite IH. Qed.

Lemma rcfg_shipped E kw c fs rnd names : Cfg E kw = Ok c -> only_switches kw -> installed fs c ->
  getv c "coldtrap_names" = VTuple (map VStr names) ->
  exists rc, rcfg_of fs rnd c = Ok rc /\ r_names rc = names /\ r_rnd rc = rnd /\
    r_start rc = 4250000000%Z /\ r_end rc = 0%Z /\ r_step rc = 10000000%Z /\ r_tol rc = 1 / 1000000 /\ bsed_sane rc /\
    ((getv c "ballistic_hop_moores" = VBool true -> incl names with_hop) -> ice_sane rc).
Proof.
  intros H U F K. destruct (icfg_shipped E kw c H U) as (i & I & Si & Sv & Sm & St & Son & Sf & Sh).
  destruct (bcfg_shipped E kw c H U) as (b & B & B1 & B2 & B3 & B4 & B5 & B6).
  assert (HB : exists x, getv c "ballistic_hop_moores" = VBool x).
  { pose proof (proj2 (C41_typed E kw c H) "ballistic_hop_moores"%string ltac:(inn)) as T.
    change (type_of "ballistic_hop_moores") with TBool in T. destruct (getv c "ballistic_hop_moores"); try discriminate. eauto. }
  destruct HB as (x & HB). rewrite HB in Sh. cbn [opt_bool truthy] in Sh.
  eexists. split.
  { unfold rcfg_of. rewrite I, B. cbn [bind]. unfold opt_strs. rewrite K, strs_back. cbn [bind].
    eapply bind_ok; [opt H U|cbv beta]. eapply bind_ok; [opt H U|cbv beta]. eapply bind_ok; [opt H U|cbv beta].
    eapply bind_ok; [opt H U|cbv beta]. eapply bind_ok; [opt H U|cbv beta]. eapply bind_ok; [opt H U|cbv beta].
    rewrite (read_lum fs c F), (read_hop fs c F), (read_melt fs c F).
    eapply bind_ok; [instantiate (1 := if solar_wind_on i && faint_young_sun i then to_reals lrows else []);
      destruct (solar_wind_on i && faint_young_sun i); reflexivity|cbv beta].
    eapply bind_ok; [instantiate (1 := if hop_moores i then hop_of hrows else fun _ => None); destruct (hop_moores i); reflexivity|cbv beta].
    eapply bind_ok; [instantiate (1 := if bsed_on b then real_table mtable else mk_table [] [] []); destruct (bsed_on b); reflexivity|cbv beta].
    reflexivity. }
  cbn [r_names r_rnd r_start r_end r_step r_tol]. do 6 (split; [reflexivity|]). split.
  - unfold bsed_sane. cbn [r_bsed r_melt]. intros On. rewrite On. destruct melt_good as [G1 G2].
    assert (W1 : forall x, 0 <= x <= 39 -> within (t_mrs (real_table mtable)) x).
    { intros y Y. exists (Q2R 0), (Q2R 39). cbn [t_mrs real_table].
      split; [apply axis_in; vm_compute; reflexivity|]. split; [apply axis_in; vm_compute; reflexivity|].
      unfold Q2R. cbn [Qnum Qden]. lra. }
    assert (W2 : forall x, 110 <= x <= 510 -> within (t_temps (real_table mtable)) x).
    { intros y Y. exists (Q2R 110), (Q2R 510). cbn [t_temps real_table].
      split; [apply axis_in; vm_compute; reflexivity|]. split; [apply axis_in; vm_compute; reflexivity|].
      unfold Q2R. cbn [Qnum Qden]. lra. }
    split; [exact G1|]. split; [exact G2|]. split; [rewrite B6; lra|]. split; [|split].
    + intros d D. rewrite B1, B2. apply W1. pose proof (mr_bound (mr_petro b) d D). lra.
    + rewrite B3. apply W2. lra.
    + rewrite B4, B5. apply W2. destruct (basin_warm b); lra.
  - intros Hh. constructor; cbn [r_i r_lum r_bhop r_names]; auto.
    + intros On. rewrite Sm, On. split; [left; apply lower_iff; [repeat constructor; vm_compute; intuition lia|reflexivity]|].
      intros Fy. rewrite Fy. cbn [andb]. exact lum_shipped.
    + intros On n N. rewrite On. apply hop_shipped. apply Hh; auto. rewrite HB, <- Sh, On. reflexivity.
Qed.

Lemma time_425 rnd l : get_time_array rnd 4250000000 0 10000000 = Ok l ->
  length l = 425%nat /\ forall i, (i < 425)%nat -> nth_error l i = Some (rnd (4250000000 - INR i * 10000000)).
Proof.
  intros H. destruct (time_array_axis 4250000000 10000000 425 ltac:(lia) ltac:(lia) eq_refl) as (m & M & L & N).
  unfold get_time_array in H, M. cbn [Z.eqb] in H, M.
  change (Z.quot (4250000000 - 0) 10000000 <? 0)%Z with false in H, M. cbv iota in H, M.
  assert (Inj : forall a b : list R, Ok a = Ok b -> a = b) by congruence. apply Inj in H, M. rewrite map_id in M. rewrite M in H.
  change (Z.to_nat 425) with 425%nat in *. rewrite <- H. split; [rewrite map_length; exact L|].
  intros i I. rewrite nth_error_map, (N i I). reflexivity.
Qed.

Lemma run_shipped E kw c fs rnd ppf sort names u k : Cfg E kw = Ok c -> only_switches kw -> installed fs c ->
  known_traps c names -> keeps_order rnd -> rnd 10000000 = 10000000 ->
  ppf_support ppf -> sorts_by_age sort -> draws u ->
  exists out k', run fs rnd ppf sort c u k = Ok (out, k') /\
    length (o_time out) = 425%nat /\
    (forall i, (i < 425)%nat -> nth_error (o_time out) i = Some (rnd (4250000000 - INR i * 10000000))) /\
    map fst (o_strat out) = names /\ map fst (o_ice out) = names /\ map fst (o_ej out) = names /\
    Forall (fun t => Forall (fun l => 0 <= l_ice l) (snd t)) (o_strat out) /\
    Forall (fun t => Forall (fun x => 0 <= x) (snd t)) (o_ice out).
Proof.
  intros H U F (K & N & Sn & Hn) O R P S D.
  destruct (rcfg_shipped E kw c fs rnd names H U F K) as (rc & RC & Nm & Rr & T0 & T1 & T2 & T3 & Bs & Is).
  specialize (Is Hn). destruct (read_craters E kw c fs names H U F Sn) as [RD RB].
  rewrite <- Nm in N, Sn. pose proof (data_shipped rc N Sn) as Ds.
  pose proof (time_shipped rc T0 T1 T2 ltac:(rewrite T3; lra) ltac:(rewrite Rr; exact R)) as Ts.
  destruct (main_total rc ppf sort (map raw0 clines) (map raw0 blines) u k Is Bs Ds Ts P S D) as (out & k' & M & Ne).
  exists out, k'. split.
  { unfold run, rbind, lift. rewrite RC. cbn [bind]. rewrite Nm, RD. cbn [bind]. rewrite RB. cbn [bind]. exact M. }
  pose proof (main_time _ _ _ _ _ _ _ _ _ M) as MT. rewrite Rr, T0, T1, T2 in MT. destruct (time_425 _ _ MT) as [L1 L2].
  split; [exact L1|]. split; [exact L2|].
  destruct (ice_bound rc ppf sort _ _ u k out k' Is Bs P S D N (n_rows _ _ Ds) M Ne) as (df & k1 & del & _ & _ & S1 & S2 & S3).
  rewrite Nm in S1, S2. split; [exact S1|]. split; [exact S2|].
  assert (S4 : map fst (o_ej out) = names).
  { pose proof M as M'. apply main_ok in M' as (time & df' & k1' & dists & d0 & bd & bf & d1 & H1 & H2 & H3 & H4 & H5 & H6 & H7).
    pose proof (list_nodup _ _ _ _ _ _ _ _ _ S H2 (n_rows _ _ Ds)) as Nd.
    apply format_ok in H7; auto. rewrite <- Nm. tauto. }
  split; [exact S4|].
  assert (X : forall A (l : list (string * A)) t, map fst l = names -> In t l -> exists j n, nth_error (r_names rc) j = Some n /\ nth_error l j = Some t).
  { intros A l t Q I. apply In_nth_error in I as (j & J). exists j, (fst t). split; [|exact J].
    rewrite Nm, <- Q, nth_error_map, J. reflexivity. }
  split; apply Forall_forall; intros t I.
  - destruct (X _ _ t S1 I) as (j & n & J1 & J2). destruct (S3 j n J1) as (la & ice & col & A1 & A2 & A3 & A4 & A5).
    rewrite J2 in A1. injection A1 as ->. cbn [snd]. rewrite Rr in A5. now apply A5.
  - destruct (X _ _ t S2 I) as (j & n & J1 & J2). destruct (S3 j n J1) as (la & ice & col & A1 & A2 & A3 & A4 & A5).
    rewrite J2 in A2. injection A2 as ->. cbn [snd]. clear - A4. induction A4; constructor; auto. lra.
Qed.

(** ** Runs that cannot succeed *)

Lemma run_ok fs rnd ppf sort c u k out k' : run fs rnd ppf sort c u k = Ok (out, k') ->
  exists rc craters basins, rcfg_of fs rnd c = Ok rc /\ read_crater_list fs c (r_names rc) = Ok craters /\
    read_basin_list fs c (r_names rc) = Ok basins /\ main rc ppf sort craters basins u k = Ok (out, k').
Proof.
  intros H. unfold run in H. apply rbind_ok in H as (rc & k1 & H1 & H). apply lift_ok in H1 as [H1 ->].
  apply rbind_ok in H as (cr & k2 & H2 & H). apply lift_ok in H2 as [H2 ->].
  apply rbind_ok in H as (ba & k3 & H3 & H). apply lift_ok in H3 as [H3 ->]. exists rc, cr, ba. auto.
Qed.
Lemma main_traps_listed rc ppf sort craters basins u k out k' : sorts_by_age sort ->
  main rc ppf sort craters basins u k = Ok (out, k') ->
  forall n, In n (r_names rc) -> In n (map w_name (craters ++ basins)).
Proof.
  intros S M n N. apply main_ok in M as (time & df & k1 & dists & d0 & bd & bf & d1 & H1 & H2 & H3 & H4 & H5 & H6 & H7).
  eapply Permutation.Permutation_in; [exact (list_names _ _ _ _ _ _ _ _ _ S H2)|].
  unfold format_csv_outputs in H7. destruct (ages_of df (r_names rc)) as [cdf|] eqn:A; [|discriminate].
  unfold ages_of in A. destruct (mapM _ (r_names rc)) as [l|] eqn:B in A; [|discriminate].
  apply In_nth_error in N as (j & J). destruct (Proofs_Geo.mapM_nth _ _ _ B) as [_ X].
  destruct (X j n J) as (b & _ & Hb). destruct (filter _ df) as [|r rows] eqn:F; [discriminate|].
  assert (I : In r (filter (fun r => String.eqb (d_name (c_rest r)) n) df)) by (rewrite F; left; reflexivity).
  apply filter_In in I as [I Q]. apply String.eqb_eq in Q. rewrite <- Q. unfold names_of. apply in_map_iff. eauto.
Qed.
Lemma raw_names names lines l : mapM (raw_of names) lines = Ok l -> map w_name l = map ln_name lines.
Proof.
  revert l. induction lines as [|a lines IH]; cbn [mapM map]; intros l H; [injection H as <-; reflexivity|].
  destruct (raw_of names a) as [w|] eqn:W; [|discriminate]. cbn [bind] in H.
  destruct (mapM (raw_of names) lines) as [l'|]; [|discriminate]. cbn [bind] in H.
  assert (Inj : forall x y : list raw, Ok x = Ok y -> x = y) by congruence. apply Inj in H. subst l. cbn [map]. rewrite (IH l' eq_refl).
  f_equal. unfold raw_of in W. destruct (_ && _)%bool in W; [discriminate|].
  assert (Inj' : forall x y : raw, Ok x = Ok y -> x = y) by congruence. apply Inj' in W. subst w. reflexivity.
Qed.
Lemma rcfg_names fs rnd c rc : rcfg_of fs rnd c = Ok rc -> opt_strs (getv c "coldtrap_names") = Ok (r_names rc) /\
  icfg_of c = Ok (r_i rc).
Proof.
  intros H. unfold rcfg_of in H. cbv zeta in H.
  destruct (icfg_of c) as [i|]; [|discriminate]. cbn [bind] in H.
  destruct (bcfg_of c) as [b|]; [|discriminate]. cbn [bind] in H.
  destruct (opt_strs (getv c "coldtrap_names")) as [names|]; [|discriminate]. cbn [bind] in H.
  repeat (match type of H with bind ?m _ = _ => destruct m; [|discriminate]; cbn [bind] in H end).
  assert (Inj : forall x y : rcfg, Ok x = Ok y -> x = y) by congruence. apply Inj in H. subst rc. auto.
Qed.
Lemma run_traps_listed E kw c fs rnd ppf sort u k out k' names : Cfg E kw = Ok c -> only_switches kw -> installed fs c ->
  getv c "coldtrap_names" = VTuple (map VStr names) -> sorts_by_age sort ->
  run fs rnd ppf sort c u k = Ok (out, k') -> incl names (map ln_name (clines ++ blines)).
Proof.
  intros H U F K S R. apply run_ok in R as (rc & cr & ba & R1 & R2 & R3 & R4).
  apply rcfg_names in R1 as [R1 _]. rewrite K in R1. unfold opt_strs in R1. rewrite strs_back in R1.
  assert (Inj : forall x y : list string, Ok x = Ok y -> x = y) by congruence. apply Inj in R1. subst names.
  intros n N. pose proof (main_traps_listed _ _ _ _ _ _ _ _ _ S R4 n N) as X.
  rewrite map_app in *. apply in_app_iff in X. apply in_app_iff.
  unfold installed in F. inversion F as [|? ? (p & P1 & P2) F']; subst. inversion F' as [|? ? (q & Q1 & Q2) _]; subst.
  cbn [fst snd] in *. unfold read_crater_list, read_text in R2. unfold read_basin_list, read_text in R3.
  rewrite P1 in R2. rewrite Q1 in R3. cbn [opt_str bind] in R2, R3. rewrite P2 in R2. rewrite Q2 in R3.
  assert (C : opt_strs (getv c "crater_cols") = Ok ccols).
  { rewrite (physics_value E kw c _ H U) by (apply existsb_eqb; vm_compute; reflexivity). vm_compute. reflexivity. }
  assert (B : opt_strs (getv c "basin_cols") = Ok bcols).
  { rewrite (physics_value E kw c _ H U) by (apply existsb_eqb; vm_compute; reflexivity). vm_compute. reflexivity. }
  rewrite C in R2. rewrite B in R3. cbn [bind] in R2, R3.
  assert (L : read_lines crater_list_csv ccols true = Ok clines) by (vm_compute; reflexivity).
  assert (M : read_lines basin_list_csv bcols (existsb (String.eqb "psr_lat") bcols && existsb (String.eqb "psr_lon") bcols) = Ok blines)
    by (vm_compute; reflexivity).
  rewrite L in R2. rewrite M in R3. cbn [bind] in R2, R3. apply raw_names in R2, R3. rewrite <- R2, <- R3. exact X.
Qed.
Lemma run_head fs rnd ppf sort c u k out k' : run fs rnd ppf sort c u k = Ok (out, k') -> 
  getv c "volc_mode" = VStr "Head".
Proof.
  intros R. apply run_ok in R as (rc & cr & ba & R1 & R2 & R3 & R4). apply rcfg_names in R1 as [_ R1].
  apply main_ok in R4 as (time & df & k1 & dists & d0 & bd & bf & d1 & _ & _ & _ & H4 & _).
  unfold init_strat_columns in H4. apply rbind_ok in H4 as ([ej src] & k2 & _ & H). apply rbind_ok in H as (ice & k3 & H & _).
  unfold get_ice_cols_time in H. apply rbind_ok in H as (polar & k4 & _ & H). apply rbind_ok in H as (volc & k5 & H & _).
  apply lift_ok in H as [H _]. apply C61_head_only in H. rewrite <- H. clear - R1.
  unfold icfg_of in R1. cbv zeta in R1.
  assert (B : forall A (m : result A) (f : A -> result icfg) r, bind m f = Ok r -> exists a, m = Ok a /\ f a = Ok r)
    by (intros A [a|e] f r Q; [exists a; auto|discriminate]).
  do 2 (apply B in R1 as (? & _ & R1)). do 6 (apply B in R1 as (? & _ & R1)).
  apply B in R1 as (vm & V & R1). repeat (apply B in R1 as (? & _ & R1)).
  assert (Inj : forall x y : icfg, Ok x = Ok y -> x = y) by congruence. apply Inj in R1. rewrite <- R1.
  cbn [volc_mode]. destruct (getv c "volc_mode"); try discriminate V. cbn [opt_str] in V. congruence.
Qed.
