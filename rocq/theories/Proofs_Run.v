(** A run with the shipped files. *)
From Coq Require Import ZArith QArith Bool Ascii String List Reals Qreals Lia Lra Sorted.
From Verif Require Import Base Proofs_Base Model_Csv Data_Shipped Model_Cfg Spec_Cfg Proofs_Cfg Proofs_Default Props_Cfg
  Model_Time Model_Geo Model_Interp Model_Crater Model_Ice Model_Rng Model_Strat Model_Melt Model_Main Model_Run
  Spec_Time Spec_Ice Spec_Melt Spec_Main Spec_Run Proofs_Crater Proofs_Scaling Proofs_Ice Proofs_Neukum Props_Rng Proofs_Main.
Import ListNotations.
Open Scope R_scope.

(** ** Options *)

Definition ev : env := env0.
(** The stored default of an option. *)
Definition sval (k : string) (v : val) : val :=
  match enforce_field ev (k, v) with Ok (_, w) => w | Err _ => VNone end.

Lemma physics_plain : forall E, Forall (fun k => plain_key k = true /\ In k options /\ default_of k <> VNone /\
  forall v, stored E k (default_of k) v -> v = sval k (default_of k)) physics.
Proof.
  intros E.
  assert (S : forall k w, stored E k w (sval k w) -> forall v, stored E k w v -> v = sval k w).
  { intros k w A v B. unfold stored in *. destruct (has_type w (type_of k)); congruence. }
  let l := eval vm_compute in physics in change physics with l.
  repeat (apply Forall_cons; [split; [vm_compute; reflexivity|split; [inn|split; [vm_compute; discriminate|
    apply S; vm_compute; reflexivity]]]|]). apply Forall_nil.
Qed.
Lemma physics_value E kw c k : Cfg E kw = Ok c -> only_switches kw -> In k physics ->
  getv c k = sval k (default_of k).
Proof.
  intros H U I. pose proof (physics_plain E) as P. rewrite Forall_forall in P. destruct (P k I) as (K & O & N & V).
  apply V. assert (S : start kw k = default_of k) by (unfold start; rewrite U; auto).
  pose proof (C39_user_wins E kw c k H O K) as X. rewrite S in X. auto.
Qed.
Lemma physics_literal E kw c : Cfg E kw = Ok c -> only_switches kw ->
  forall k x, (existsb (String.eqb k) physics, sval k (default_of k)) = (true, x) -> getv c k = x.
Proof.
  intros H U k x Q. assert (I : existsb (String.eqb k) physics = true) by congruence.
  assert (X : sval k (default_of k) = x) by congruence. rewrite <- X. apply (physics_value E kw c k H U).
  apply existsb_exists in I as (y & I & J). apply String.eqb_eq in J. now subst.
Qed.
(** The same as an equation with a literal. *)
Ltac phys H U k v :=
  pose proof (physics_literal _ _ _ H U k _ ltac:(vm_compute; reflexivity)) as v.

Lemma polar_plain E : Forall (fun r => Forall (fun k => exists v, in_table POLE_DEFAULTS r k = Some v /\
  default_of k = VNone /\ exists q, Qle_bool 0 q = true /\ (k <> "coldtrap_area_CO2"%string -> Qle_bool q 0 = false) /\
  forall w, stored E k v w -> w = VFloat (Fin q)) polar) ["s"; "n"]%string.
Proof.
  repeat constructor; (eexists; split; [vm_compute; reflexivity|]; split; [vm_compute; reflexivity|];
    eexists; split; [|split]; [| |let w := fresh "w" in let H := fresh "H" in intros w H; unfold stored in H; vm_compute in H;
      first [injection H as <-; reflexivity | rewrite H; reflexivity]]; try reflexivity;
      intros X; try reflexivity; exfalso; apply X; reflexivity).
Qed.
Lemma polar_value E kw c k : Cfg E kw = Ok c -> only_switches kw -> In k polar ->
  exists q, getv c k = VFloat (Fin q) /\ 0 <= Q2R q /\ (k <> "coldtrap_area_CO2"%string -> 0 < Q2R q).
Proof.
  intros H U I. pose proof H as H'. apply Cfg_built in H' as (s & m & p & op & B).
  destruct (b_pole _ _ _ _ _ _ _ B) as (r & P1 & P2).
  assert (R : In r ["s"; "n"]%string).
  { apply lookup_some_in in P2. destruct P2 as [X|[X|[]]]; injection X as X _; subst; cbn [In]; auto. }
  pose proof (polar_plain E) as F. rewrite Forall_forall in F. specialize (F r R). rewrite Forall_forall in F.
  destruct (F k I) as (v & T & D & q & Q0 & Q1 & W).
  assert (S : start kw k = VNone) by (unfold start; rewrite U; auto).
  exists q. split; [|split].
  - apply W. exact (C39_pole_fills E kw c k r v H P1 T S).
  - apply Qle_bool_iff, Qle_Rle in Q0. unfold Q2R at 1 in Q0. cbn [Qnum Qden] in Q0. lra.
  - intros N. specialize (Q1 N). apply Rnot_le_lt. intros X.
    assert (Y : (q <= 0)%Q) by (apply Rle_Qle; unfold Q2R at 2; cbn [Qnum Qden]; lra).
    apply Qle_bool_iff in Y. congruence.
Qed.
Lemma mode_value E kw c : Cfg E kw = Ok c -> exists r, getv c "mode" = VStr r.
Proof.
  intros H. pose proof H as H'. apply Cfg_built in H' as (s & m & p & op & B).
  destruct (b_mode _ _ _ _ _ _ _ B) as (r & P1 & P2). exists r.
  pose proof (C39_user_wins E kw c "mode" H ltac:(inn) eq_refl) as X. rewrite P1 in X. apply X. discriminate.
Qed.

(** ** The ice module *)

Lemma bind_ok {A B} (m : result A) (f : A -> result B) a r : m = Ok a -> f a = r -> bind m f = r.
Proof. now intros ->. Qed.
Ltac opt H U := match goal with |- context [getv _ ?k] =>
  let v := fresh "V" in phys H U k v; rewrite v; clear v; unfold opt_pair, opt_reals; cbn [opt_real opt_str bind mapM]; reflexivity end.

Ltac parts := repeat match goal with |- (_, _) = (_, _) => apply f_equal2 | |- _ :: _ = _ :: _ => apply f_equal2 end; try reflexivity.

Lemma icfg_shipped E kw c : Cfg E kw = Ok c -> only_switches kw ->
  exists i, icfg_of c = Ok i /\ sane i /\ volc_sane i /\
    solar_wind_mode i = "Benna"%string /\ timestep i = 10000000 /\
    solar_wind_on i = opt_bool (getv c "solar_wind_ice") /\ faint_young_sun i = opt_bool (getv c "faint_young_sun") /\
    hop_moores i = opt_bool (getv c "ballistic_hop_moores").
Proof.
  intros H U. destruct (mode_value E kw c H) as (mode & Vm).
  destruct (polar_value E kw c "ballistic_hop_effcy" H U ltac:(cbn; tauto)) as (hop & Vhop & _ & Hhop).
  destruct (polar_value E kw c "volc_dep_effcy" H U ltac:(cbn; tauto)) as (vde & Vvde & Hvde & _).
  destruct (polar_value E kw c "coldtrap_area_H2O" H U ltac:(cbn; tauto)) as (h2o & Vh2o & _ & Hh2o).
  destruct (polar_value E kw c "coldtrap_area_CO2" H U ltac:(cbn; tauto)) as (co2 & Vco2 & Hco2 & _).
  specialize (Hhop ltac:(discriminate)). specialize (Hh2o ltac:(discriminate)).
  phys H U "impact_regimes"%string Vr.
  eexists. split.
  { unfold icfg_of, ccfg_of. cbv zeta.
    eapply bind_ok.
    { repeat (eapply bind_ok; [opt H U|]; cbv beta). reflexivity. }
    cbv beta. rewrite Vr. clear Vr.
    repeat (eapply bind_ok; [first [rewrite ?Vm, ?Vhop, ?Vvde, ?Vh2o, ?Vco2; reflexivity | opt H U]|]; cbv beta).
    reflexivity. }
  clear Vr Vm Vhop Vvde Vh2o Vco2.
  match goal with |- sane ?x /\ _ => set (i := x) end.
  assert (R0 : forall r, In r ["b"; "c"; "d"; "e"]%string -> regimes i r = regimes0 r).
  { intros r [<-|[<-|[<-|[<-|[]]]]]; cbn -[Q2R]; f_equal; unfold Q2R; cbn [Qnum Qden]; parts; lra. }
  assert (N1 : neukum_2001 i = neukum_2001 ICFG0)
    by (cbn [neukum_2001 i ICFG0]; unfold Q2R; cbn [Qnum Qden]; parts; lra).
  assert (N2 : neukum_1983 i = neukum_1983 ICFG0)
    by (cbn [neukum_1983 i ICFG0]; unfold Q2R; cbn [Qnum Qden]; parts; lra).
  assert (CR : crat i = crat ICFG0).
  { cbn [crat i ICFG0]. unfold CFG0, Q2R. cbn [Qnum Qden].
    match goal with |- mk_ccfg ?a ?b ?c ?d ?e ?f ?g ?h = mk_ccfg ?a' ?b' ?c' ?d' ?e' ?f' ?g' ?h' =>
      replace a with a' by lra; replace b with b' by lra; replace c with c' by lra; replace d with d' by lra;
      replace e with e' by lra; replace f with f' by lra; replace g with g' by lra; replace h with h' by lra end. reflexivity. }
  pose proof (neukum_both i N1 N2) as (K1 & K2 & K3).
  assert (SP : speeds_sane i).
  { repeat split; cbn [escape_vel impact_speed_sd jfc_sd lpc_sd jfc_frac lpc_frac comet_speed_min comet_speed_max jfc_mean lpc_mean i];
      unfold Q2R; cbn [Qnum Qden]; lra. }
  split; [|split; [|repeat split]].
  - constructor; try (rewrite CR; cbn [crat ICFG0 impactor_density target_density grav_moon simple2complex complex2peakring CFG0]; lra);
      try (cbn [ice_species area_H2O ice_density hop_effcy timestep mm_mass_rate ctype_frac ctype_hydrated
        hydrated_wt_pct impact_mass_retained comet_ast_frac comet_density comet_hydrated_wt_pct comet_mass_retained
        brown_d0 earth_moon_ratio sa_moon impact_speed_mean i]; unfold Q2R in *; cbn [Qnum Qden]; lra).
    + reflexivity.
    + rewrite CR, (R0 "c"%string) by (cbn; tauto). do 4 eexists. split; [reflexivity|]. apply f2t_default_le.
    + exact SP.
    + intros r I. destruct I as [<-|[<-|[<-|[<-|[]]]]]; unfold regime_sane; rewrite R0 by (cbn; tauto);
        do 4 eexists; (split; [reflexivity|]); lra.
    + intros r I. destruct I as [<-|[<-|[<-|[]]]]; unfold counts_sane; rewrite R0 by (cbn; tauto);
        do 4 eexists; (split; [reflexivity|]); lra.
  - unfold volc_sane. cbn [volc_mode volc_total_vol volc_magma_density volc_ice_ppm volc_early_pct volc_late_pct volc_dep_effcy i].
    split; [reflexivity|]. unfold Q2R at 1 2 3 4 5. cbn [Qnum Qden]. lra.
Qed.

(** ** Rational checks *)

Lemma qle a b : Qle_bool a b = true -> Q2R a <= Q2R b.
Proof. intros H. apply Qle_Rle. now apply Qle_bool_iff. Qed.
Lemma qlt a b : negb (Qle_bool b a) = true -> Q2R a < Q2R b.
Proof.
  intros H. apply negb_true_iff in H. apply Qlt_Rlt. apply Qnot_le_lt. intros X. apply Qle_bool_iff in X. congruence.
Qed.
Fixpoint sortedb (l : list Q) : bool :=
  match l with a :: (b :: _) as l' => negb (Qle_bool b a) && sortedb l' | _ => true end.
Lemma sortedb_ok {A} (f : A -> Q) l : sortedb (map f l) = true -> StronglySorted (fun a b => Q2R (f a) < Q2R (f b)) l.
Proof.
  intros H. apply Sorted_StronglySorted; [intros a b c; apply Rlt_trans|].
  induction l as [|a l IH]; [constructor|]. constructor.
  - apply IH. destruct l as [|b l]; [reflexivity|]. cbn [map sortedb] in *. now apply andb_prop in H.
  - destruct l as [|b l]; constructor. cbn [map sortedb] in H. apply andb_prop in H as [H _]. now apply qlt.
Qed.
Lemma StronglySorted_map {A B} (f : A -> B) (P : A -> A -> Prop) (Q : B -> B -> Prop) l :
  (forall a b, P a b -> Q (f a) (f b)) -> StronglySorted P l -> StronglySorted Q (map f l).
Proof.
  intros PQ. induction 1 as [|a l S IH F]; cbn [map]; constructor; auto.
  apply Forall_map. eapply Forall_impl; [|exact F]. auto.
Qed.
Fixpoint nodupb (l : list string) : bool :=
  match l with [] => true | a :: l' => negb (existsb (String.eqb a) l') && nodupb l' end.
Lemma existsb_eqb a l : existsb (String.eqb a) l = true <-> In a l.
Proof.
  rewrite existsb_exists. split; [intros (x & I & J)|intros I; exists a; split; [exact I|apply String.eqb_refl]].
  apply String.eqb_eq in J. now subst.
Qed.
Lemma nodupb_ok l : nodupb l = true -> NoDup l.
Proof.
  induction l as [|a l IH]; cbn [nodupb]; [constructor|]. intros H. apply andb_prop in H as [A B].
  constructor; auto. intros I. apply existsb_eqb in I. now rewrite I in A.
Qed.
Lemma inclb_ok l m : forallb (fun x => existsb (String.eqb x) m) l = true -> incl l m.
Proof. intros H x I. rewrite forallb_forall in H. now apply existsb_eqb, H. Qed.
Lemma forallb_Forall {A} (f : A -> bool) (P : A -> Prop) l : (forall x, f x = true -> P x) -> forallb f l = true -> Forall P l.
Proof. intros FP H. rewrite forallb_forall in H. apply Forall_forall. auto. Qed.

(** ** The crater and basin files *)

Definition ok_or {A} (d : A) (r : result A) : A := match r with Ok a => a | Err _ => d end.
Definition ccols : list string := ok_or [] (opt_strs (sval "crater_cols" (default_of "crater_cols"))).
Definition bcols : list string := ok_or [] (opt_strs (sval "basin_cols" (default_of "basin_cols"))).
Definition clines : list line := ok_or [] (read_lines crater_list_csv ccols true).
Definition blines : list line :=
  ok_or [] (read_lines basin_list_csv bcols (existsb (String.eqb "psr_lat") bcols && existsb (String.eqb "psr_lon") bcols)).
Definition raw0 (l : line) : raw :=
  mk_raw (ln_name l) (Q2R (ln_lat l)) (Q2R (ln_lon l)) (or0 (ln_psr_lat l)) (or0 (ln_psr_lon l))
    (Q2R (ln_diam l)) (Q2R (ln_age l)) (Q2R (ln_low l)) (Q2R (ln_upp l)).
Definition placed (l : line) : bool := match ln_psr_lat l, ln_psr_lon l with Some _, Some _ => true | _, _ => false end.
Lemma raw_lines names lines : incl names shadowed ->
  forallb (fun l => placed l || negb (existsb (String.eqb (ln_name l)) shadowed)) lines = true ->
  mapM (raw_of names) lines = Ok (map raw0 lines).
Proof.
  intros I. induction lines as [|l lines IH]; intros H; [reflexivity|].
  cbn [forallb] in H. apply andb_prop in H as [H1 H2]. cbn [mapM map]. rewrite IH by exact H2.
  unfold raw_of at 1. unfold placed in H1. fold (raw0 l).
  destruct (ln_psr_lat l), (ln_psr_lon l); rewrite ?andb_false_r; try reflexivity;
    (cbn [orb] in H1; apply negb_true_iff in H1;
     destruct (existsb (String.eqb (ln_name l)) names) eqn:X; [|reflexivity];
     apply existsb_eqb, I, existsb_eqb in X; congruence).
Qed.

Lemma read_craters E kw c fs names : Cfg E kw = Ok c -> only_switches kw -> installed fs c -> incl names shadowed ->
  read_crater_list fs c names = Ok (map raw0 clines) /\ read_basin_list fs c names = Ok (map raw0 blines).
Proof.
  intros H U F I. unfold installed in F. inversion F as [|? ? (p & P1 & P2) F']; subst. inversion F' as [|? ? (q & Q1 & Q2) _]; subst.
  cbn [fst snd] in *. unfold read_crater_list, read_basin_list, read_text. rewrite P1, Q1. cbn [opt_str bind].
  rewrite P2, Q2.
  assert (C : opt_strs (getv c "crater_cols") = Ok ccols).
  { rewrite (physics_value E kw c _ H U) by (apply existsb_eqb; vm_compute; reflexivity). vm_compute. reflexivity. }
  assert (B : opt_strs (getv c "basin_cols") = Ok bcols).
  { rewrite (physics_value E kw c _ H U) by (apply existsb_eqb; vm_compute; reflexivity). vm_compute. reflexivity. }
  rewrite C, B. cbn [bind].
  assert (L : read_lines crater_list_csv ccols true = Ok clines) by (vm_compute; reflexivity).
  assert (M : read_lines basin_list_csv bcols (existsb (String.eqb "psr_lat") bcols && existsb (String.eqb "psr_lon") bcols) = Ok blines)
    by (vm_compute; reflexivity).
  rewrite L, M. cbn [bind]. split; apply raw_lines; auto; vm_compute; reflexivity.
Qed.
Lemma names_shipped : map w_name (map raw0 clines ++ map raw0 blines) = map ln_name (clines ++ blines).
Proof. rewrite map_app, !map_map, map_app. reflexivity. Qed.

Lemma data_shipped rc : NoDup (r_names rc) -> incl (r_names rc) shadowed ->
  data_sane rc (map raw0 clines ++ map raw0 blines).
Proof.
  intros N I. constructor; auto; rewrite ?names_shipped.
  - apply nodupb_ok. vm_compute. reflexivity.
  - intros n J. apply I in J. revert n J. apply inclb_ok. vm_compute. reflexivity.
  - rewrite <- map_app. apply Forall_map.
    apply forallb_Forall with (f := fun l => Qle_bool 0 (ln_diam l) && Qle_bool 0 (ln_low l) && Qle_bool 0 (ln_upp l) && negb (Qle_bool (ln_low l + ln_upp l) 0)).
    + intros l Q. apply andb_prop in Q as [Q Q4]. apply andb_prop in Q as [Q Q3]. apply andb_prop in Q as [Q1 Q2].
      apply qle in Q1, Q2, Q3. apply qlt in Q4. rewrite Q2R_plus in Q4. assert (Z : Q2R 0 = 0) by (unfold Q2R; cbn [Qnum Qden]; lra).
      rewrite Z in *. cbn [w_diam w_low w_upp raw0]. lra.
    + vm_compute. reflexivity.
Qed.
Lemma time_shipped rc : r_start rc = 4250000000%Z -> r_end rc = 0%Z -> r_step rc = 10000000%Z -> 0 < r_tol rc ->
  r_rnd rc 10000000 = 10000000 -> time_sane rc (map raw0 clines ++ map raw0 blines).
Proof.
  intros A B C T R. constructor; rewrite ?A, ?B, ?C; try lia. intros _. split; [exact T|]. split; [exact R|].
  rewrite <- map_app. apply Forall_map.
  apply forallb_Forall with (f := fun l => Qle_bool (1 # 100) (ln_age l - ln_low l)).
  - intros l Q _. apply qle in Q. rewrite Q2R_minus in Q. cbn [w_age w_low raw0].
    assert (Z : Q2R (1 # 100) = 1 / 100) by (unfold Q2R; cbn [Qnum Qden]; lra). rewrite Z in Q. lra.
  - vm_compute. reflexivity.
Qed.

(** ** The tables *)

Definition lrows : list (Q * Q) := ok_or [] (luminosity_rows bahcall_csv).
Lemma lum_shipped : to_reals lrows <> [] /\ ages_increasing (to_reals lrows) /\ Forall (fun r => 0 <= snd r) (to_reals lrows).
Proof.
  split; [|split].
  - intros X. apply map_eq_nil in X. vm_compute in X. discriminate.
  - unfold ages_increasing, to_reals. eapply StronglySorted_map; [|apply (sortedb_ok fst); vm_compute; reflexivity].
    intros [a b] [a' b'] L. exact L.
  - unfold to_reals. apply Forall_map.
    apply forallb_Forall with (f := fun r => Qle_bool 0 (snd r)); [|vm_compute; reflexivity].
    intros [a b] Q. cbn [snd] in *. apply qle in Q. unfold Q2R at 1 in Q. cbn [Qnum Qden] in Q. lra.
Qed.
Lemma read_lum fs c : installed fs c -> read_solar_luminosity fs c = Ok (to_reals lrows).
Proof.
  intros F. unfold installed in F. rewrite Forall_forall in F.
  destruct (F ("bahcall_csv_in"%string, bahcall_csv)) as (p & P1 & P2); [cbn [In]; tauto|]. cbn [fst snd] in *.
  unfold read_solar_luminosity, read_text. rewrite P1. cbn [opt_str bind]. rewrite P2. cbn [bind].
  assert (L : luminosity_rows bahcall_csv = Ok lrows) by (vm_compute; reflexivity). rewrite L. reflexivity.
Qed.

Definition hrows : list (string * Q) := ok_or [] (hop_rows ballistic_hop_csv).
Lemma hop_shipped n : In n with_hop -> exists h, hop_of hrows n = Some h /\ 0 <= h.
Proof.
  revert n. apply Forall_forall.
  apply forallb_Forall with (f := fun n => match find (fun e => String.eqb (fst e) n) hrows with Some e => Qle_bool 0 (snd e) | None => false end).
  - intros n Q. unfold hop_of. destruct (find _ _) as [e|]; [|discriminate]. eexists. split; [reflexivity|].
    apply qle in Q. unfold Q2R at 1 in Q. cbn [Qnum Qden] in Q. lra.
  - vm_compute. reflexivity.
Qed.
Lemma read_hop fs c : installed fs c -> read_ballistic_hop fs c = Ok (hop_of hrows).
Proof.
  intros F. unfold installed in F. rewrite Forall_forall in F.
  destruct (F ("bhop_csv_in"%string, ballistic_hop_csv)) as (p & P1 & P2); [cbn [In]; tauto|]. cbn [fst snd] in *.
  unfold read_ballistic_hop, read_text. rewrite P1. cbn [opt_str bind]. rewrite P2. cbn [bind].
  assert (L : hop_rows ballistic_hop_csv = Ok hrows) by (vm_compute; reflexivity). rewrite L. reflexivity.
Qed.

Definition mtable : qtable := ok_or (mk_qtable [] [] []) (melt_table melt_mean_csv).
Lemma read_melt fs c : installed fs c -> read_ballistic_melt_frac fs c = Ok (real_table mtable).
Proof.
  intros F. unfold installed in F. rewrite Forall_forall in F.
  destruct (F ("bsed_frac_mean_in"%string, melt_mean_csv)) as (p & P1 & P2); [cbn [In]; tauto|]. cbn [fst snd] in *.
  unfold read_ballistic_melt_frac, read_text. rewrite P1. cbn [opt_str bind]. rewrite P2. cbn [bind].
  assert (L : melt_table melt_mean_csv = Ok mtable) by (vm_compute; reflexivity). rewrite L. reflexivity.
Qed.
Lemma melt_good : good_table (real_table mtable) /\ (forall mr temp v, value_at (real_table mtable) mr temp v -> 0 <= v <= 1).
Proof.
  split.
  - unfold good_table, real_table. cbn [t_mrs t_temps t_vals]. split; [|split; [|split; [|split; [|split]]]].
    + intros X. apply map_eq_nil in X. vm_compute in X. discriminate.
    + intros X. apply map_eq_nil in X. vm_compute in X. discriminate.
    + eapply StronglySorted_map; [|apply (sortedb_ok (fun x => x)); rewrite map_id; vm_compute; reflexivity]. auto.
    + eapply StronglySorted_map; [|apply (sortedb_ok (fun x => x)); rewrite map_id; vm_compute; reflexivity]. auto.
    + rewrite !map_length. vm_compute. reflexivity.
    + apply Forall_map. rewrite map_length.
      apply forallb_Forall with (f := fun row => Nat.eqb (length row) (length (q_temps mtable))); [|vm_compute; reflexivity].
      intros row Q. rewrite map_length. now apply Nat.eqb_eq.
  - intros mr temp v (i & j & row & _ & _ & R & V). cbn [real_table t_vals] in R.
    assert (F : Forall (Forall (fun v => 0 <= v <= 1)) (map (map Q2R) (q_vals mtable))).
    { apply Forall_map.
      apply forallb_Forall with (f := forallb (fun q => Qle_bool 0 q && Qle_bool q 1)); [|vm_compute; reflexivity].
      intros r Q. apply Forall_map. revert Q. apply forallb_Forall. intros q Q. apply andb_prop in Q as [Q1 Q2].
      apply qle in Q1, Q2. unfold Q2R in Q1 at 1. unfold Q2R in Q2 at 2. cbn [Qnum Qden] in *. lra. }
    rewrite Forall_forall in F. apply nth_error_In in R, V. specialize (F _ R). rewrite Forall_forall in F. exact (F v V).
Qed.
Lemma axis_in x l : existsb (Qeq_bool x) l = true -> In (Q2R x) (map Q2R l).
Proof.
  intros H. apply existsb_exists in H as (y & I & J). apply Qeq_bool_iff, Qeq_eqR in J. rewrite J. now apply in_map.
Qed.
