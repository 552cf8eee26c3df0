(** The options of a run, one by one. *)
From Coq Require Import ZArith QArith Bool String List Reals Qreals Lra Lia.
From Verif Require Import Base Proofs_Base Data_Shipped Model_Csv Model_Cfg Spec_Cfg Proofs_Cfg Props_Cfg Model_Time Model_Crater Model_Ice Model_Rng Model_Strat
  Model_Melt Model_Main Model_Run Spec_Time Spec_Ice Spec_Main Spec_Run Spec_Mono Spec_Options Proofs_Rng Proofs_Ice Proofs_Main Proofs_Run Proofs_Shipped Proofs_Mono Props_Mono.
Import ListNotations.
Open Scope R_scope.

Lemma outside o l : existsb (String.eqb o) l = false -> ~ In o l.
Proof.
  intros H I. assert (existsb (String.eqb o) l = true) by (apply existsb_exists; exists o; split; [exact I|apply String.eqb_refl]). congruence.
Qed.

(** ** What is not read has no effect *)
Definition unread : list string := (idle ++ map fst data_files)%list.
Lemma icfg_same c c2 : agree_but unread c c2 -> icfg_of c = icfg_of c2.
Proof.
  intros G. unfold icfg_of, ccfg_of. cbv zeta.
  repeat match goal with |- context [getv c ?k] => rewrite (G k) by (apply outside; reflexivity) end. reflexivity.
Qed.
Lemma bcfg_same c c2 : agree_but unread c c2 -> bcfg_of c = bcfg_of c2.
Proof.
  intros G. unfold bcfg_of. cbv zeta.
  repeat match goal with |- context [getv c ?k] => rewrite (G k) by (apply outside; reflexivity) end. reflexivity.
Qed.
(** Stepping through the options of a configuration. *)
Ltac step H := match type of H with bind ?m _ = _ => let E := fresh "E" in destruct m eqn:E in H; [|discriminate H]; cbn [bind] in H end.
Lemma icfg_switches c i : icfg_of c = Ok i ->
  solar_wind_on i = opt_bool (getv c "solar_wind_ice") /\ faint_young_sun i = opt_bool (getv c "faint_young_sun") /\
  hop_moores i = opt_bool (getv c "ballistic_hop_moores").
Proof.
  unfold icfg_of. cbv zeta. intros H. repeat step H.
  assert (Inj : forall a b : icfg, Ok a = Ok b -> a = b) by congruence. apply Inj in H. rewrite <- H. auto.
Qed.
Lemma bcfg_switch c b : bcfg_of c = Ok b -> bsed_on b = opt_bool (getv c "ballistic_sed").
Proof.
  unfold bcfg_of. cbv zeta. intros H. repeat step H.
  assert (Inj : forall a b : bcfg, Ok a = Ok b -> a = b) by congruence. apply Inj in H. rewrite <- H. reflexivity.
Qed.
Lemma truthy_on c s : opt_bool (getv c s) = true -> getv c s <> VBool false.
Proof. intros H E. rewrite E in H. discriminate. Qed.
(** The switch for basin ejecta. *)
Definition with_eb (c : rcfg) (b : bool) : rcfg :=
  mk_rcfg (r_i c) (r_names c) (r_start c) (r_end c) (r_step c) (r_tol c) (r_min c) (r_ejthr c)
    (r_basinthr c) (r_bsed c) (r_melt c) (r_shield c) (r_after_age c) b (r_lum c) (r_bhop c) (r_rnd c).
Lemma main_eb c b : main (with_eb c b) = main c.
Proof. destruct c. reflexivity. Qed.
Section Files.
  Variables (fs fs2 : disk) (c c2 : cfg).
  Hypothesis G : agree_but unread c c2.
  Hypothesis F : forall o sw, In (o, sw) data_files -> in_use c sw ->
    exists p p2, getv c o = VStr p /\ getv c2 o = VStr p2 /\ fs p = fs2 p2.
  Lemma craters_same names : read_crater_list fs c names = read_crater_list fs2 c2 names.
  Proof.
    destruct (F "crater_csv_in"%string [] ltac:(cbn; tauto) ltac:(intros s [])) as (p & p2 & P & P2 & Q).
    unfold read_crater_list, read_text. rewrite P, P2, (G "crater_cols"%string) by (apply outside; reflexivity). cbn [opt_str bind].
    destruct (opt_strs (getv c2 "crater_cols")); [|reflexivity]. cbn [bind]. rewrite Q. reflexivity.
  Qed.
  Lemma basins_same names : read_basin_list fs c names = read_basin_list fs2 c2 names.
  Proof.
    destruct (F "basin_csv_in"%string [] ltac:(cbn; tauto) ltac:(intros s [])) as (p & p2 & P & P2 & Q).
    unfold read_basin_list, read_text. rewrite P, P2, (G "basin_cols"%string) by (apply outside; reflexivity). cbn [opt_str bind].
    destruct (opt_strs (getv c2 "basin_cols")); [|reflexivity]. cbn [bind]. rewrite Q. reflexivity.
  Qed.
  Lemma lum_same : opt_bool (getv c "solar_wind_ice") = true -> opt_bool (getv c "faint_young_sun") = true ->
    read_solar_luminosity fs c = read_solar_luminosity fs2 c2.
  Proof.
    intros A B. destruct (F "bahcall_csv_in"%string _ ltac:(cbn; tauto)) as (p & p2 & P & P2 & Q).
    { intros s [<-|[<-|[]]]; now apply truthy_on. }
    unfold read_solar_luminosity, read_text. rewrite P, P2. cbn [opt_str bind]. now rewrite Q.
  Qed.
  Lemma hop_same : opt_bool (getv c "ballistic_hop_moores") = true -> read_ballistic_hop fs c = read_ballistic_hop fs2 c2.
  Proof.
    intros A. destruct (F "bhop_csv_in"%string _ ltac:(cbn; tauto)) as (p & p2 & P & P2 & Q).
    { intros s [<-|[]]; now apply truthy_on. }
    unfold read_ballistic_hop, read_text. rewrite P, P2. cbn [opt_str bind]. now rewrite Q.
  Qed.
  Lemma melt_same : opt_bool (getv c "ballistic_sed") = true -> read_ballistic_melt_frac fs c = read_ballistic_melt_frac fs2 c2.
  Proof.
    intros A. destruct (F "bsed_frac_mean_in"%string _ ltac:(cbn; tauto)) as (p & p2 & P & P2 & Q).
    { intros s [<-|[]]; now apply truthy_on. }
    unfold read_ballistic_melt_frac, read_text. rewrite P, P2. cbn [opt_str bind]. now rewrite Q.
  Qed.
  Lemma rcfg_same rnd : rcfg_of fs rnd c =
    let* rc := rcfg_of fs2 rnd c2 in Ok (with_eb rc (opt_bool (getv c "ejecta_basins"))).
  Proof.
    unfold rcfg_of. cbv zeta. rewrite (icfg_same c c2 G), (bcfg_same c c2 G).
    destruct (icfg_of c2) as [i|] eqn:I; [|reflexivity]. cbn [bind]. destruct (bcfg_of c2) as [b|] eqn:B; [|reflexivity]. cbn [bind].
    rewrite <- (icfg_same c c2 G) in I. rewrite <- (bcfg_same c c2 G) in B.
    apply icfg_switches in I as (I1 & I2 & I3). apply bcfg_switch in B.
    assert (L : (if solar_wind_on i && faint_young_sun i then read_solar_luminosity fs c else Ok []) =
                (if solar_wind_on i && faint_young_sun i then read_solar_luminosity fs2 c2 else Ok [])).
    { destruct (solar_wind_on i && faint_young_sun i)%bool eqn:X; [|reflexivity]. apply andb_true_iff in X as [X1 X2]. apply lum_same; congruence. }
    assert (Hp : (if hop_moores i then read_ballistic_hop fs c else Ok (fun _ => None)) =
                (if hop_moores i then read_ballistic_hop fs2 c2 else Ok (fun _ => None))).
    { destruct (hop_moores i) eqn:X; [|reflexivity]. apply hop_same; congruence. }
    assert (Mt : (if bsed_on b then read_ballistic_melt_frac fs c else Ok (mk_table [] [] [])) =
                (if bsed_on b then read_ballistic_melt_frac fs2 c2 else Ok (mk_table [] [] []))).
    { destruct (bsed_on b) eqn:X; [|reflexivity]. apply melt_same; congruence. }
    rewrite L, Hp, Mt.
    repeat match goal with |- context [getv c ?k] => rewrite (G k) by (apply outside; reflexivity) end.
    repeat (match goal with |- bind ?m _ = _ => destruct m; [|reflexivity]; cbn [bind] end). reflexivity.
  Qed.
  Lemma run_same rnd ppf sort u k : run fs rnd ppf sort c u k = run fs2 rnd ppf sort c2 u k.
  Proof.
    unfold run, rbind, lift. rewrite (rcfg_same rnd). destruct (rcfg_of fs2 rnd c2) as [rc|]; [|reflexivity].
    cbn [bind]. change (r_names (with_eb rc (opt_bool (getv c "ejecta_basins")))) with (r_names rc). rewrite craters_same. destruct (read_crater_list fs2 c2 (r_names rc)); [|reflexivity].
    cbn [bind]. rewrite basins_same. destruct (read_basin_list fs2 c2 (r_names rc)); [|reflexivity]. cbn [bind]. now rewrite main_eb.
  Qed.
End Files.

(** ** Single options and the ice left *)
Definition tuned : list string :=
  ["solar_wind_ice"; "volc_total_vol"; "ice_erosion_rate"; "overturn_depth_present"; "ballistic_sed"]%string.
Lemma icfg_tuned c c2 i i2 : agree_but tuned c c2 -> icfg_of c = Ok i -> icfg_of c2 = Ok i2 ->
  i2 = with_rates i (solar_wind_on i2) (volc_total_vol i2) (ice_erosion_rate i2) (overturn_present i2) /\
  opt_real (getv c "volc_total_vol") = Ok (volc_total_vol i) /\ opt_real (getv c2 "volc_total_vol") = Ok (volc_total_vol i2) /\
  opt_real (getv c "ice_erosion_rate") = Ok (ice_erosion_rate i) /\ opt_real (getv c2 "ice_erosion_rate") = Ok (ice_erosion_rate i2) /\
  opt_real (getv c "overturn_depth_present") = Ok (overturn_present i) /\ opt_real (getv c2 "overturn_depth_present") = Ok (overturn_present i2).
Proof.
  intros G H H2. unfold icfg_of, ccfg_of in H, H2. cbv zeta in H, H2.
  repeat match type of H with context [getv c ?k] => rewrite (G k) in H by (apply outside; reflexivity) end.
  repeat step H.
  repeat (match type of H2 with bind ?m _ = _ => match goal with E : m = Ok _ |- _ => rewrite E in H2; cbn [bind] in H2 end end || step H2).
  assert (Inj : forall a b : icfg, Ok a = Ok b -> a = b) by congruence. apply Inj in H, H2. subst i i2.
  cbn [solar_wind_on volc_total_vol ice_erosion_rate overturn_present]. repeat split; assumption.
Qed.
Lemma bcfg_tuned c c2 b b2 : agree_but tuned c c2 -> bcfg_of c = Ok b -> bcfg_of c2 = Ok b2 ->
  (getv c2 "ballistic_sed" = getv c "ballistic_sed" \/ getv c2 "ballistic_sed" = VBool false) -> b2 = b \/ b2 = no_bsed b.
Proof.
  intros G H H2 X. unfold bcfg_of in H, H2. cbv zeta in H, H2.
  repeat match type of H with context [getv c ?k] => rewrite (G k) in H by (apply outside; reflexivity) end.
  repeat step H. repeat (match type of H2 with bind ?m _ = _ => match goal with E : m = Ok _ |- _ => rewrite E in H2; cbn [bind] in H2 end end || step H2).
  assert (Inj : forall a b : bcfg, Ok a = Ok b -> a = b) by congruence. apply Inj in H, H2. subst b b2.
  destruct X as [X|X]; rewrite X; [left|right]; reflexivity.
Qed.
Lemma rcfg_split fs rnd c rc : rcfg_of fs rnd c = Ok rc ->
  icfg_of c = Ok (r_i rc) /\ bcfg_of c = Ok (r_bsed rc) /\ opt_strs (getv c "coldtrap_names") = Ok (r_names rc) /\
  opt_int (getv c "timestart") = Ok (r_start rc) /\ opt_int (getv c "timeend") = Ok (r_end rc) /\ opt_int (getv c "timestep") = Ok (r_step rc) /\
  opt_real (getv c "thickness_min") = Ok (r_min rc) /\ opt_real (getv c "ej_threshold") = Ok (r_ejthr rc) /\
  opt_real (getv c "basin_ej_threshold") = Ok (r_basinthr rc) /\
  (if solar_wind_on (r_i rc) && faint_young_sun (r_i rc) then read_solar_luminosity fs c else Ok []) = Ok (r_lum rc) /\
  (if hop_moores (r_i rc) then read_ballistic_hop fs c else Ok (fun _ => None)) = Ok (r_bhop rc) /\
  (if bsed_on (r_bsed rc) then read_ballistic_melt_frac fs c else Ok (mk_table [] [] [])) = Ok (r_melt rc) /\
  r_tol rc = 1 / 1000000 /\ r_shield rc = 4 / 10 /\ r_after_age rc = opt_bool (getv c "strat_after_age") /\
  r_ejecta_basins rc = opt_bool (getv c "ejecta_basins") /\ r_rnd rc = rnd.
Proof.
  unfold rcfg_of. cbv zeta. intros H. repeat step H.
  assert (Inj : forall a b : rcfg, Ok a = Ok b -> a = b) by congruence. apply Inj in H. subst rc.
  cbn [r_i r_names r_start r_end r_step r_tol r_min r_ejthr r_basinthr r_bsed r_melt r_shield r_after_age r_ejecta_basins r_lum r_bhop r_rnd].
  repeat split; assumption.
Qed.
(** The tables of modules that are off. *)
Definition with_tables (c : rcfg) (lum : list (R * R)) (melt : table) : rcfg :=
  mk_rcfg (r_i c) (r_names c) (r_start c) (r_end c) (r_step c) (r_tol c) (r_min c) (r_ejthr c)
    (r_basinthr c) (r_bsed c) melt (r_shield c) (r_after_age c) (r_ejecta_basins c) lum (r_bhop c) (r_rnd c).
Lemma sun_off i l l2 time : solar_wind_on i && faint_young_sun i = false -> get_solar_wind_ice i l time = get_solar_wind_ice i l2 time.
Proof.
  intros H. unfold get_solar_wind_ice. destruct (solar_wind_on i); [|reflexivity]. cbn [andb] in H.
  unfold solar_wind_ice_mass. rewrite H. reflexivity.
Qed.
Lemma rand_ext {A B} (m : rand A) (f g : A -> rand B) u k : (forall a k', f a u k' = g a u k') -> rbind m f u k = rbind m g u k.
Proof. intros H. unfold rbind. destruct (m u k) as [[a k']|]; [apply H|reflexivity]. Qed.
Lemma main_tables c ppf sort craters basins lum melt u k :
  (lum = r_lum c \/ solar_wind_on (r_i c) && faint_young_sun (r_i c) = false) -> (melt = r_melt c \/ bsed_on (r_bsed c) = false) ->
  main (with_tables c lum melt) ppf sort craters basins u k = main c ppf sort craters basins u k.
Proof.
  intros L M. unfold main. cbv zeta. apply rand_ext. intros time k1. apply rand_ext. intros df k2. apply rand_ext. intros dists k3.
  assert (A : forall k', init_strat_columns (with_tables c lum melt) ppf time df dists u k' = init_strat_columns c ppf time df dists u k').
  { intros k'. destruct L as [-> |L]; [reflexivity|]. unfold init_strat_columns. apply rand_ext. intros [ej src] k4.
    change (r_i (with_tables c lum melt)) with (r_i c). change (r_lum (with_tables c lum melt)) with lum.
    change (r_bhop (with_tables c lum melt)) with (r_bhop c). change (r_names (with_tables c lum melt)) with (r_names c).
    change (r_tol (with_tables c lum melt)) with (r_tol c).
    assert (B : forall k', get_ice_cols_time (r_i c) ppf (r_tol c) lum (r_bhop c) (r_names c) (map impact_of df) time u k' =
                           get_ice_cols_time (r_i c) ppf (r_tol c) (r_lum c) (r_bhop c) (r_names c) (map impact_of df) time u k').
    { intros k5. unfold get_ice_cols_time.
      assert (C : get_polar_ice (r_i c) ppf (r_tol c) lum (map impact_of df) time u k5 = get_polar_ice (r_i c) ppf (r_tol c) (r_lum c) (map impact_of df) time u k5).
      { unfold get_polar_ice. apply rand_ext. intros imp k6. apply rand_ext. intros com k7. cbv zeta. unfold rbind, lift.
        now rewrite (sun_off (r_i c) lum (r_lum c) time L). }
      unfold rbind. now rewrite C. }
    unfold rbind. now rewrite B. }
  unfold rbind. rewrite A. destruct (init_strat_columns c ppf time df dists u k3) as [[d k4]|]; [|reflexivity]. cbn [bind].
  destruct M as [-> |M]; [reflexivity|].
  change (r_bsed (with_tables c lum melt)) with (r_bsed c). change (crat (r_i (with_tables c lum melt))) with (crat (r_i c)).
  unfold get_bsed_depth. rewrite M. reflexivity.
Qed.
Lemma icfg_slope c i : icfg_of c = Ok i -> opt_real (getv c "overturn_ancient_slope") = Ok (overturn_slope i).
Proof.
  unfold icfg_of. cbv zeta. intros H. repeat step H.
  assert (Inj : forall a b : icfg, Ok a = Ok b -> a = b) by congruence. apply Inj in H. rewrite <- H. assumption.
Qed.
Lemma real_opt v x : real_value v x -> opt_real v = Ok x.
Proof. intros [(q & -> & ->)|(z & -> & ->)]; reflexivity. Qed.
Lemma rises_le c c2 o x x2 : rises c c2 o -> opt_real (getv c o) = Ok x -> opt_real (getv c2 o) = Ok x2 -> x <= x2.
Proof.
  intros (y & y2 & A & B & L) X X2. apply real_opt in A, B. rewrite X in A. rewrite X2 in B.
  assert (Inj : forall a b : R, Ok a = Ok b -> a = b) by congruence. apply Inj in A, B. now subst.
Qed.
Lemma lists_tuned fs c c2 names : agree_but tuned c c2 ->
  read_crater_list fs c2 names = read_crater_list fs c names /\ read_basin_list fs c2 names = read_basin_list fs c names /\
  read_solar_luminosity fs c2 = read_solar_luminosity fs c /\ read_ballistic_hop fs c2 = read_ballistic_hop fs c /\
  read_ballistic_melt_frac fs c2 = read_ballistic_melt_frac fs c.
Proof.
  intros G. unfold read_crater_list, read_basin_list, read_solar_luminosity, read_ballistic_hop, read_ballistic_melt_frac.
  repeat match goal with |- context [getv c ?k] => rewrite (G k) by (apply outside; reflexivity) end. repeat split; reflexivity.
Qed.
Lemma run_tuned E kw c c2 fs rnd ppf sort names u k out k1 out2 k2 :
  Cfg E kw = Ok c -> only_switches kw -> installed fs c -> known_traps c names ->
  keeps_order rnd -> rnd 10000000 = 10000000 -> ppf_support ppf -> sorts_by_age sort -> draws u ->
  agree_but tuned c c2 ->
  (getv c2 "solar_wind_ice" = getv c "solar_wind_ice" \/ getv c2 "solar_wind_ice" = VBool true) ->
  (getv c2 "ballistic_sed" = getv c "ballistic_sed" \/ getv c2 "ballistic_sed" = VBool false) ->
  rises c c2 "volc_total_vol" -> rises c2 c "ice_erosion_rate" -> rises c2 c "overturn_depth_present" ->
  run fs rnd ppf sort c u k = Ok (out, k1) -> run fs rnd ppf sort c2 u k = Ok (out2, k2) ->
  no_less_ice out out2 /\ k2 = k1.
Proof.
  intros H U F K O Rn P S D G Sw Bs V Er Ov R1 R2. pose proof K as (Kn & Kd & Ks & Kh).
  destruct (run_shipped E kw c fs rnd ppf sort names u k H U F K O Rn P S D) as (out' & k' & R' & L & _).
  assert (out = out') by congruence. subst out'. clear R' k'.
  assert (Ne : o_time out <> []) by (intros X; rewrite X in L; discriminate).
  destruct (rcfg_shipped E kw c fs rnd names H U F Kn) as (rc & RC & Nm & Rr & T0 & T1 & T2 & T3 & B1 & I1). specialize (I1 Kh).
  destruct (icfg_shipped E kw c H U) as (i & Ic & _ & _ & Mo & _ & _).
  destruct (read_craters E kw c fs names H U F Ks) as [RD RB].
  assert (Ds : data_sane rc (map raw0 clines ++ map raw0 blines)) by (apply data_shipped; rewrite Nm; assumption).
  apply run_ok in R1 as (rc' & cr & ba & A1 & A2 & A3 & A4). assert (rc' = rc) by congruence. subst rc'.
  rewrite Nm in A2, A3.
  assert (Inj : forall a b : list raw, Ok a = Ok b -> a = b) by congruence. rewrite RD in A2. rewrite RB in A3. apply Inj in A2, A3. subst cr ba.
  apply run_ok in R2 as (rc2 & cr & ba & C1 & C2 & C3 & C4).
  destruct (lists_tuned fs c c2 (r_names rc2) G) as (J1 & J2 & J3 & J4 & J5). rewrite J1 in C2. rewrite J2 in C3.
  pose proof (rcfg_split _ _ _ _ RC) as (X1 & X2 & X3 & X4 & X5 & X6 & X7 & X8 & X9 & X10 & X11 & X12 & X13 & X14 & X15 & X16 & X17).
  pose proof (rcfg_split _ _ _ _ C1) as (Y1 & Y2 & Y3 & Y4 & Y5 & Y6 & Y7 & Y8 & Y9 & Y10 & Y11 & Y12 & Y13 & Y14 & Y15 & Y16 & Y17).
  destruct (icfg_tuned c c2 _ _ G X1 Y1) as (W & V1 & V2 & E1 & E2 & O1 & O2).
  pose proof (bcfg_tuned c c2 _ _ G X2 Y2 Bs) as Wb.
  assert (i = r_i rc) by congruence. subst i.
  assert (Sl : 0 <= overturn_slope (r_i rc)).
  { pose proof (icfg_slope c _ X1) as Z. phys H U "overturn_ancient_slope"%string v. rewrite v in Z. cbn [opt_real] in Z.
    assert (Inj' : forall a b : R, Ok a = Ok b -> a = b) by congruence. apply Inj' in Z. rewrite <- Z. unfold Q2R. cbn [Qnum Qden]. lra. }
  assert (InjT : forall a b : table, Ok a = Ok b -> a = b) by congruence.
  assert (InjL : forall a b : list (R * R), Ok a = Ok b -> a = b) by congruence.
  assert (InjH : forall a b : string -> option R, Ok a = Ok b -> a = b) by congruence.
  assert (InjZ : forall a b : Z, Ok a = Ok b -> a = b) by congruence.
  assert (InjR : forall a b : R, Ok a = Ok b -> a = b) by congruence.
  assert (InjS : forall a b : list string, Ok a = Ok b -> a = b) by congruence.
  set (lum := to_reals lrows).
  assert (M1 : lum = r_lum rc \/ solar_wind_on (r_i rc) && faint_young_sun (r_i rc) = false).
  { destruct (solar_wind_on (r_i rc) && faint_young_sun (r_i rc)); [left|now right]. rewrite (read_lum fs c F) in X10. now apply InjL in X10. }
  assert (M2 : lum = r_lum rc2 \/ solar_wind_on (r_i rc2) && faint_young_sun (r_i rc2) = false).
  { destruct (solar_wind_on (r_i rc2) && faint_young_sun (r_i rc2)); [left|now right]. rewrite J3, (read_lum fs c F) in Y10. now apply InjL in Y10. }
  assert (M3 : r_melt rc = r_melt rc2 \/ bsed_on (r_bsed rc2) = false).
  { destruct (bsed_on (r_bsed rc2)) eqn:Q; [left|now right]. destruct Wb as [Wb|Wb]; [|rewrite Wb in Q; discriminate].
    rewrite Wb in Q. rewrite Q in X12. rewrite J5, X12 in Y12. now apply InjT in Y12. }
  rewrite <- (main_tables rc ppf sort _ _ lum (r_melt rc) u k M1 (or_introl eq_refl)) in A4.
  rewrite <- (main_tables rc2 ppf sort _ _ lum (r_melt rc) u k M2 M3) in C4.
  assert (N2 : r_names rc2 = r_names rc).
  { rewrite <- (G "coldtrap_names"%string) in Y3 by (apply outside; reflexivity). rewrite X3 in Y3. now apply InjS in Y3. }
  rewrite N2, Nm in C2, C3. rewrite RD in C2. rewrite RB in C3. apply Inj in C2, C3. subst cr ba.
  assert (Hp : r_bhop rc2 = r_bhop rc).
  { assert (Q : hop_moores (r_i rc2) = hop_moores (r_i rc)) by (rewrite W; reflexivity).
    rewrite Q, J4, X11 in Y11. now apply InjH in Y11. }
  rewrite <- (G "timestart"%string), X4 in Y4 by (apply outside; reflexivity). rewrite <- (G "timeend"%string), X5 in Y5 by (apply outside; reflexivity).
  rewrite <- (G "timestep"%string), X6 in Y6 by (apply outside; reflexivity). rewrite <- (G "thickness_min"%string), X7 in Y7 by (apply outside; reflexivity).
  rewrite <- (G "ej_threshold"%string), X8 in Y8 by (apply outside; reflexivity). rewrite <- (G "basin_ej_threshold"%string), X9 in Y9 by (apply outside; reflexivity).
  rewrite <- (G "strat_after_age"%string), <- X15 in Y15 by (apply outside; reflexivity). rewrite <- (G "ejecta_basins"%string), <- X16 in Y16 by (apply outside; reflexivity).
  apply InjZ in Y4, Y5, Y6. apply InjR in Y7, Y8, Y9.
  assert (EQ : with_tables rc2 lum (r_melt rc) = with_settings (with_tables rc lum (r_melt rc)) (r_i rc2) (r_bsed rc2) (r_bhop rc)).
  { unfold with_tables, with_settings. cbn [r_i r_names r_start r_end r_step r_tol r_min r_ejthr r_basinthr r_bsed r_melt r_shield r_after_age r_ejecta_basins r_lum r_bhop r_rnd].
    rewrite N2, Hp, <- Y4, <- Y5, <- Y6, <- Y7, <- Y8, <- Y9, Y13, X13, Y14, X14, Y15, Y16, Y17, X17. reflexivity. }
  rewrite EQ, W in C4. 
  eapply (C79_settings (with_tables rc lum (r_melt rc)) (solar_wind_on (r_i rc2)) (volc_total_vol (r_i rc2)) (ice_erosion_rate (r_i rc2)) (overturn_present (r_i rc2))
    (r_bsed rc2) (r_bhop rc) ppf sort (map raw0 clines) (map raw0 blines) u k out k1 out2 k2); [| | | | | |exact Sl|exact Wb| |exact A4|exact Ne|exact C4].
  - constructor; auto.
    + destruct I1 as [Z1 Z2 Z3 Z4]. constructor; auto. cbn [r_i r_lum with_tables]. intros On. destruct (Z2 On) as [Q1 Q2]. split; [exact Q1|]. intros _. exact lum_shipped.
    + cbn [r_names with_tables]. now rewrite Nm.
    + apply (n_rows _ _ Ds).
    + cbn [r_rnd with_tables]. now rewrite X17.
  - intros _. cbn [with_tables r_i r_lum with_rates solar_wind_mode faint_young_sun]. rewrite Mo.
    split; [left; apply lower_iff; [repeat constructor; vm_compute; intuition lia|reflexivity]|]. intros _. exact lum_shipped.
  - cbn [with_tables r_i]. intros On. apply icfg_switches in X1 as (X1 & _). apply icfg_switches in Y1 as (Y1 & _).
    destruct Sw as [Sw|Sw]; rewrite Y1, Sw; [congruence|reflexivity].
  - cbn [with_tables r_i]. exact (rises_le c c2 _ _ _ V V1 V2).
  - cbn [with_tables r_i]. exact (rises_le c2 c _ _ _ Er E2 E1).
  - cbn [with_tables r_i]. exact (rises_le c2 c _ _ _ Ov O2 O1).
  - cbn [with_tables r_i r_names r_bhop]. intros On n N. destruct (i_hop _ I1 On n N) as (h & Hh & _). exists h, h. split; [exact Hh|]. split; [exact Hh|lra].
Qed.

(** A check that two given objects agree. *)
Definition others (ks : list string) (c : cfg) : cfg := filter (fun e => negb (existsb (String.eqb (fst e)) ks)) c.
Lemma getv_others ks c o : ~ In o ks -> getv (others ks c) o = getv c o.
Proof.
  intros N. unfold getv, others. induction c as [|[k v] c IH]; [reflexivity|]. cbn [filter fst].
  destruct (existsb (String.eqb k) ks) eqn:X; cbn [negb].
  - rewrite IH. unfold lookup. cbn [find fst]. destruct (String.eqb_spec k o) as [-> |_]; [|reflexivity].
    exfalso. apply N. apply existsb_exists in X as (y & I & Y). apply String.eqb_eq in Y. now subst.
  - unfold lookup in *. cbn [find fst]. destruct (String.eqb k o); [reflexivity|exact IH].
Qed.
Lemma agree_check ks c c2 : others ks c = others ks c2 -> agree_but ks c c2.
Proof. intros H o N. rewrite <- (getv_others ks c o N), <- (getv_others ks c2 o N). now rewrite H. Qed.

(** ** Settings *)
Lemma inj_ok {A} (a b : A) : Ok a = Ok b -> a = b.
Proof. congruence. Qed.
Lemma opt_real_is v a x : opt_real v = Ok a -> real_value v x -> a = x.
Proof. intros H V. apply real_opt in V. rewrite V in H. now apply inj_ok in H. Qed.
Lemma opt_int_is v z x : opt_int v = Ok z -> real_value v x -> IZR z = x.
Proof. intros H [(q & -> & ->)|(y & -> & ->)]; [discriminate|]. cbn in H. apply inj_ok in H. now subst. Qed.
Lemma opt_reals_is v l xs : opt_reals v = Ok l -> tuple_value v xs -> l = xs.
Proof.
  intros H (vs & -> & F). cbn [opt_reals] in H. revert l H. induction F as [|v x vs xs V F IH]; intros l H; cbn [mapM] in H.
  - apply inj_ok in H. now subst.
  - destruct (opt_real v) as [y|] eqn:Y; [|discriminate]. cbn [bind] in H. destruct (mapM opt_real vs) as [ys|]; [|discriminate].
    cbn [bind] in H. apply inj_ok in H. subst l. f_equal; [exact (opt_real_is _ _ _ Y V)|now apply IH].
Qed.
Lemma opt_pair_is v p xs : opt_pair v = Ok p -> tuple_value v xs -> [fst p; snd p] = xs.
Proof.
  intros H V. unfold opt_pair in H. destruct (opt_reals v) as [l|] eqn:L; [|discriminate]. cbn [bind] in H.
  pose proof (opt_reals_is _ _ _ L V) as ->. destruct xs as [|a [|b [|? ?]]]; try discriminate. apply inj_ok in H. subst p. reflexivity.
Qed.
Lemma tuple_opt v xs : tuple_value v xs -> exists vs, v = VTuple vs /\ mapM opt_real vs = Ok xs.
Proof.
  intros (vs & -> & F). exists vs. split; [reflexivity|]. induction F as [|v x vs xs V F IH]; [reflexivity|].
  cbn [mapM]. now rewrite (real_opt _ _ V), IH.
Qed.
Lemma regime_is v r xs : regime_value v r xs -> opt_regime v r = Some xs.
Proof.
  destruct xs as [[[a b] st] sl]. intros (be & t & af & -> & N & T). unfold opt_regime.
  assert (X : find (fun e : val * val => match fst e with VStr s => String.eqb s r | _ => false end) (be ++ (VStr r, t) :: af) = Some (VStr r, t)).
  { clear T. induction be as [|e be IH]; cbn [app find fst].
    - now rewrite String.eqb_refl.
    - pose proof (N e (or_introl eq_refl)) as Ne. destruct (fst e) as [| | | |s| | |]; try (apply IH; intros; apply N; now right).
      destruct (String.eqb_spec s r) as [-> |_]; [congruence|]. apply IH. intros; apply N; now right. }
  rewrite X. apply tuple_opt in T as (vs & -> & M). now rewrite M.
Qed.
Ltac deep := repeat match goal with E : bind ?m _ = Ok _ |- _ => let F := fresh "F" in destruct m eqn:F in E; [|discriminate E]; cbn [bind] in E end.
Lemma settings fs rnd c rc : rcfg_of fs rnd c = Ok rc ->
  Forall (fun of => forall x, real_value (getv c (fst of)) x -> snd of rc = x) numbers /\
  Forall (fun of => forall b, getv c (fst of) = VBool b -> snd of rc = b) flags /\
  Forall (fun of => forall s, getv c (fst of) = VStr s -> snd of rc = s) words /\
  Forall (fun of => forall xs, tuple_value (getv c (fst of)) xs -> snd of rc = xs) tuples /\
  (forall names, getv c "coldtrap_names" = VTuple (map VStr names) -> r_names rc = names) /\
  (forall r xs, regime_value (getv c "impact_regimes") r xs -> regimes (r_i rc) r = Some xs).
Proof.
  unfold rcfg_of, icfg_of, ccfg_of, bcfg_of. cbv zeta. intros H. deep.
  repeat match goal with E : Ok _ = Ok _ |- _ => apply inj_ok in E end. subst.
  split; [|split; [|split; [|split; [|split]]]]; unfold numbers, flags, words, tuples.
  - repeat (apply Forall_cons; [cbn [fst snd]; intros x V;
      match type of V with real_value (getv c ?k) _ =>
        (match goal with E : opt_real (getv c k) = Ok _ |- _ = x => exact (opt_real_is _ _ _ E V) end) ||
        (match goal with E : opt_int (getv c k) = Ok _ |- _ = x => exact (opt_int_is _ _ _ E V) end) end|]). apply Forall_nil.
  - repeat (apply Forall_cons; [cbn [fst snd]; intros x V;
      cbn [r_i r_bsed r_after_age r_ejecta_basins is_comet comets_on basins_on solar_wind_on faint_young_sun use_volc_dep hop_moores neukum_new costello bsed_on mr_petro basin_warm];
      rewrite V; reflexivity|]). apply Forall_nil.
  - repeat (apply Forall_cons; [cbn [fst snd]; intros x V;
      match type of V with getv c ?k = _ => match goal with E : opt_str (getv c k) = Ok _ |- _ => rewrite V in E; cbn [opt_str] in E; apply inj_ok in E; symmetry; exact E end end|]). apply Forall_nil.
  - repeat (apply Forall_cons; [cbn [fst snd]; intros x V;
      match type of V with tuple_value (getv c ?k) _ =>
        (match goal with E : opt_pair (getv c k) = Ok _ |- _ = x => exact (opt_pair_is _ _ _ E V) end) ||
        (match goal with E : opt_reals (getv c k) = Ok _ |- _ = x => exact (opt_reals_is _ _ _ E V) end) end|]). apply Forall_nil.
  - intros names V. match goal with E : opt_strs _ = Ok _ |- _ => rewrite V in E; unfold opt_strs in E; rewrite strs_back in E; apply inj_ok in E; symmetry; exact E end.
  - cbn [r_i regimes]. intros r xs V. now apply regime_is.
Qed.
