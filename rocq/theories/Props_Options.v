(** Properties of single options of a run. *)
From Coq Require Import ZArith QArith Bool String List Reals Qreals Lra.
From Verif Require Import Base Data_Shipped Model_Cfg Spec_Cfg Props_Cfg Model_Time Model_Ice Model_Rng Model_Strat Model_Melt Model_Main Model_Run
  Spec_Time Spec_Ice Spec_Main Spec_Run Spec_Mono Spec_Options Proofs_Cfg Proofs_Time Proofs_Rng Proofs_Main Proofs_Run Proofs_Shipped Props_Run Proofs_Options.
Import ListNotations.
Open Scope R_scope.

(** ** C82: what an option changes *)

(** Two configurations that differ only in idle options and in the places of their data
    files give the same results from the same random stream, errors included; a file counts
    only if its module is on. *)
Theorem C82_idle : forall fs fs2 rnd ppf sort c c2 u k,
  agree_but (idle ++ map fst data_files) c c2 ->
  (forall o switches, In (o, switches) data_files -> in_use c switches ->
     exists p p2, getv c o = VStr p /\ getv c2 o = VStr p2 /\ fs p = fs2 p2) ->
  run fs rnd ppf sort c u k = run fs2 rnd ppf sort c2 u k.
Proof. intros fs fs2 rnd ppf sort c c2 u k G F. exact (run_same fs fs2 c c2 G F rnd ppf sort u k). Qed.

(** The options that can only help: from the shipped configuration, turning the solar wind
    on, a larger volcanic volume, less erosion or overturn and turning ballistic
    sedimentation off never cost a cold trap ice. *)
Theorem C82_helps : forall E kw c c2 fs rnd ppf sort names u k out k1 out2 k2,
  Cfg E kw = Ok c -> only_switches kw -> installed fs c -> known_traps c names ->
  keeps_order rnd -> rnd 10000000 = 10000000 -> ppf_support ppf -> sorts_by_age sort -> draws u ->
  agree_but ["solar_wind_ice"; "volc_total_vol"; "ice_erosion_rate"; "overturn_depth_present"; "ballistic_sed"]%string c c2 ->
  (getv c2 "solar_wind_ice" = getv c "solar_wind_ice" \/ getv c2 "solar_wind_ice" = VBool true) ->
  (getv c2 "ballistic_sed" = getv c "ballistic_sed" \/ getv c2 "ballistic_sed" = VBool false) ->
  rises c c2 "volc_total_vol" -> rises c2 c "ice_erosion_rate" -> rises c2 c "overturn_depth_present" ->
  run fs rnd ppf sort c u k = Ok (out, k1) -> run fs rnd ppf sort c2 u k = Ok (out2, k2) ->
  no_less_ice out out2 /\ k2 = k1.
Proof. exact run_tuned. Qed.

(** Each setting is the option of its name; a run is the computation with these settings on
    the crater and basin files. *)
Theorem C82_settings : forall fs rnd c rc, rcfg_of fs rnd c = Ok rc ->
  (Forall (fun of => forall x, real_value (getv c (fst of)) x -> snd of rc = x) numbers /\
   Forall (fun of => forall b, getv c (fst of) = VBool b -> snd of rc = b) flags /\
   Forall (fun of => forall s, getv c (fst of) = VStr s -> snd of rc = s) words /\
   Forall (fun of => forall xs, tuple_value (getv c (fst of)) xs -> snd of rc = xs) tuples /\
   (forall names, getv c "coldtrap_names" = VTuple (map VStr names) -> r_names rc = names) /\
   (forall r xs, regime_value (getv c "impact_regimes") r xs -> regimes (r_i rc) r = Some xs)) /\
  (solar_wind_on (r_i rc) = true -> faint_young_sun (r_i rc) = true -> read_solar_luminosity fs c = Ok (r_lum rc)) /\
  (hop_moores (r_i rc) = true -> read_ballistic_hop fs c = Ok (r_bhop rc)) /\
  (bsed_on (r_bsed rc) = true -> read_ballistic_melt_frac fs c = Ok (r_melt rc)) /\
  (forall ppf sort u k craters basins, read_crater_list fs c (r_names rc) = Ok craters -> read_basin_list fs c (r_names rc) = Ok basins ->
     run fs rnd ppf sort c u k = main rc ppf sort craters basins u k).
Proof.
  intros fs rnd c rc H. split; [exact (settings fs rnd c rc H)|].
  pose proof (rcfg_split _ _ _ _ H) as (_ & _ & _ & _ & _ & _ & _ & _ & _ & A & B & C & _).
  split; [intros X Y; rewrite X, Y in A; exact A|]. split; [intros X; rewrite X in B; exact B|]. split; [intros X; rewrite X in C; exact C|].
  intros ppf sort u k cr ba R1 R2. unfold run, rbind, lift. rewrite H. cbn [bind]. rewrite R1. cbn [bind]. rewrite R2. reflexivity.
Qed.

(** The time axis starts at timestart and goes down by timestep. *)
Theorem C82_time : forall fs rnd ppf sort c u k out k1 n dt,
  (0 < n)%Z -> (0 < dt)%Z -> getv c "timestart" = VInt (n * dt) -> getv c "timeend" = VInt 0 -> getv c "timestep" = VInt dt ->
  run fs rnd ppf sort c u k = Ok (out, k1) ->
  length (o_time out) = Z.to_nat n /\
  forall i, (i < Z.to_nat n)%nat -> nth_error (o_time out) i = Some (rnd (IZR (n * dt) - INR i * IZR dt)).
Proof.
  intros fs rnd ppf sort c u k out k1 n dt Hn Hd A B C R. apply run_ok in R as (rc & cr & ba & R1 & _ & _ & R4).
  apply rcfg_split in R1 as (_ & _ & _ & X4 & X5 & X6 & _ & _ & _ & _ & _ & _ & _ & _ & _ & _ & X17).
  rewrite A in X4. rewrite B in X5. rewrite C in X6. cbn [opt_int] in X4, X5, X6.
  assert (Inj : forall a b : Z, Ok a = Ok b -> a = b) by congruence. apply Inj in X4, X5, X6.
  pose proof (main_time _ _ _ _ _ _ _ _ _ R4) as M. rewrite <- X4, <- X5, <- X6, X17 in M.
  destruct (time_array_axis (n * dt) dt n Hd Hn eq_refl) as (l & L & L1 & L2).
  unfold get_time_array in M, L. destruct (dt =? 0)%Z; [discriminate|]. destruct (Z.quot (n * dt - 0) dt <? 0)%Z; [discriminate|].
  assert (InjL : forall a b : list R, Ok a = Ok b -> a = b) by congruence. apply InjL in M, L. rewrite map_id in L. rewrite L in M.
  rewrite <- M, map_length. split; [exact L1|]. intros i I. rewrite nth_error_map, (L2 i I). reflexivity.
Qed.

(** ** Concrete cases *)
Definition moved (p : string) : option string :=
  if String.eqb p "/lib/moonpies/data/c.csv" then Some crater_list_csv else if String.eqb p "/lib/moonpies/data/b.csv" then Some basin_list_csv else None.
(** Without the modules that need them, the other files may be missing. *)
Definition no_modules : cfg := [("solar_wind_ice", VBool false); ("ballistic_hop_moores", VBool false); ("ballistic_sed", VBool false)]%string.
Definition elsewhere : cfg := (no_modules ++ [("crater_csv_in", VStr "c.csv"); ("basin_csv_in", VStr "b.csv");
    ("seed", VInt 77); ("bulk_density", VFloat (Fin 5)); ("ejecta_basins", VBool false)])%list%string.
Example C82_idle_case : forall rnd ppf sort u k,
  run disk0 rnd ppf sort (built_from day no_modules) u k = run moved rnd ppf sort (built_from day elsewhere) u k /\
  getv (built_from day no_modules) "ejecta_basins" = VBool true /\ getv (built_from day elsewhere) "ejecta_basins" = VBool false.
Proof.
  intros rnd ppf sort u k. split; [|split; vm_compute; reflexivity]. apply C82_idle.
  - apply agree_check. vm_compute. reflexivity.
  - intros o sw [E|[E|[E|[E|[E|[]]]]]] U; injection E as <- <-.
    + eexists. eexists. split; [vm_compute; reflexivity|]. split; [vm_compute; reflexivity|reflexivity].
    + eexists. eexists. split; [vm_compute; reflexivity|]. split; [vm_compute; reflexivity|reflexivity].
    + exfalso. apply (U "solar_wind_ice"%string); [cbn; tauto|vm_compute; reflexivity].
    + exfalso. apply (U "ballistic_hop_moores"%string); [cbn; tauto|vm_compute; reflexivity].
    + exfalso. apply (U "ballistic_sed"%string); [cbn; tauto|vm_compute; reflexivity].
Qed.

(** The default run against one without sedimentation, with more volcanism and less
    gardening. *)
Definition helped : cfg := [("ballistic_sed", VBool false); ("volc_total_vol", VFloat (Fin 100000000000000000)); ("overturn_depth_present", VFloat (Fin (1 # 1000)))]%string.
Example C82_helps_case : exists c c2, Cfg day [] = Ok c /\ Cfg day helped = Ok c2 /\ installed disk0 c /\ known_traps c with_hop /\
  agree_but ["solar_wind_ice"; "volc_total_vol"; "ice_erosion_rate"; "overturn_depth_present"; "ballistic_sed"]%string c c2 /\
  rises c c2 "volc_total_vol" /\ rises c2 c "ice_erosion_rate" /\ rises c2 c "overturn_depth_present" /\
  getv c2 "solar_wind_ice" = getv c "solar_wind_ice" /\ getv c "ballistic_sed" = VBool true /\ getv c2 "ballistic_sed" = VBool false.
Proof.
  exists (built_from day []), (built_from day helped).
  split; [vm_compute; reflexivity|]. split; [vm_compute; reflexivity|]. split; [apply disk0_installed; cbn [In]; tauto|].
  split; [split; [vm_compute; reflexivity|]; split; [apply nodupb_ok; reflexivity|]; split; [apply inclb_ok; reflexivity|]; intros _ n I; exact I|].
  split; [apply agree_check; vm_compute; reflexivity|].
  assert (Y : forall c c2 o q q2, getv c o = VFloat (Fin q) -> getv c2 o = VFloat (Fin q2) -> Qle_bool q q2 = true -> rises c c2 o).
  { intros c c2 o q q2 A B L. exists (Q2R q), (Q2R q2). split; [left; eauto|]. split; [left; eauto|]. apply Qle_Rle. now apply Qle_bool_iff. }
  split; [eapply Y; [vm_compute; reflexivity|vm_compute; reflexivity|reflexivity]|].
  split; [eapply Y; [vm_compute; reflexivity|vm_compute; reflexivity|reflexivity]|].
  split; [eapply Y; [vm_compute; reflexivity|vm_compute; reflexivity|reflexivity]|].
  split; [vm_compute; reflexivity|]. split; vm_compute; reflexivity.
Qed.
(** The default configuration has such settings. *)
Example C82_settings_case : exists rc, rcfg_of disk0 (fun x => x) (built_from day []) = Ok rc /\
  real_value (getv (built_from day []) "comet_density") 600 /\ comet_density (r_i rc) = 600 /\ neukum_new (r_i rc) = true.
Proof.
  assert (H : Cfg day [] = Ok (built_from day [])) by (vm_compute; reflexivity).
  destruct (rcfg_shipped day [] (built_from day []) disk0 (fun x => x) with_hop H) as (rc & R & _).
  - apply unset. reflexivity.
  - apply disk0_installed. cbn [In]. tauto.
  - vm_compute. reflexivity.
  - exists rc. split; [exact R|]. destruct (C82_settings _ _ _ _ R) as ((N & F & _) & _).
    rewrite Forall_forall in N, F.
    assert (V : real_value (getv (built_from day []) "comet_density") 600) by (left; exists 600%Q; split; [vm_compute; reflexivity|unfold Q2R; cbn; lra]).
    split; [exact V|]. split; [exact (N ("comet_density"%string, fun c => comet_density (r_i c)) ltac:(unfold numbers; cbn [In]; tauto) 600 V)|].
    apply (F ("neukum_pf_new"%string, fun c => neukum_new (r_i c)) ltac:(unfold flags; cbn [In]; tauto)). vm_compute. reflexivity.
Qed.
Example C82_time_case : getv (built_from day [("timestart", VInt 1000); ("timestep", VInt 10)])%string "timestart" = VInt (100 * 10) /\
  getv (built_from day [("timestart", VInt 1000); ("timestep", VInt 10)])%string "timeend" = VInt 0 /\
  getv (built_from day [("timestart", VInt 1000); ("timestep", VInt 10)])%string "timestep" = VInt 10.
Proof. repeat split; vm_compute; reflexivity. Qed.

Print Assumptions C82_idle.
Print Assumptions C82_helps.
Print Assumptions C82_settings.
Print Assumptions C82_time.
