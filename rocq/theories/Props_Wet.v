(** C79: wetter impactors never cost ice. *)
From Coq Require Import String List ZArith Reals Lia Lra Bool.
From Verif Require Import Base Arith Model_Column Model_Time Model_Geo Model_Crater Model_Ice Model_Rng Model_Strat
  Model_Melt Model_Main Spec_Column Spec_Time Spec_Ice Spec_Melt Spec_Main Spec_Mono Spec_Wet
  Proofs_Base Proofs_Time Proofs_Main Proofs_Mono Proofs_Wet Proofs_Rng Props_Rng Props_Melt Props_Main.
Import ListNotations.
Open Scope R_scope.

(** Two runs with the same files and random numbers: a larger water content of asteroids or
    comets, or a larger share of it retained, never leaves less ice in a layer or a table,
    and uses the same random numbers. *)
Theorem C79_water : forall c hw ret chw cret ppf sort craters basins u k out k1 out2 k2,
  let i2 := with_water (r_i c) hw ret chw cret in
  run_sane c ppf sort (craters ++ basins) u ->
  hydrated_wt_pct (r_i c) <= hw -> impact_mass_retained (r_i c) <= ret ->
  comet_hydrated_wt_pct (r_i c) <= chw -> comet_mass_retained (r_i c) <= cret ->
  main c ppf sort craters basins u k = Ok (out, k1) -> o_time out <> [] ->
  main (with_settings c i2 (r_bsed c) (r_bhop c)) ppf sort craters basins u k = Ok (out2, k2) ->
  no_less_ice out out2 /\ k2 = k1.
Proof.
  intros c hw ret chw cret ppf sort craters basins u k out k1 out2 k2 i2 [] H1 H2 H3 H4 H Ne K.
  eapply (main_wet c hw ret chw cret ppf sort craters basins u k out k1 out2 k2); eauto.
Qed.

(** The ice that impacts of one kind deliver in every step is the ice of dry stone scaled:
    [f] times what micrometeorites, small impactors and small simple craters would deliver
    if they were all water and all of it stayed, and the water content times that of larger
    craters and basins, whose retention follows from their speeds. *)
Theorem C79_linear : forall c ppf tol df time u k, sane c -> ppf_support ppf -> draws u -> time <> [] ->
  exists small large j, good (length time) small /\ good (length time) large /\
  forall hw ret chw cret, exists out,
    get_impact_ice (with_water c hw ret chw cret) ppf tol df time u k = Ok (out, j) /\ length out = length time /\
    let f := if is_comet c then chw * cret else hw * ret in
    forall i x y z, nth_error small i = Some x -> nth_error large i = Some y -> nth_error out i = Some z ->
      z = f * x + hw * y.
Proof. exact impact_linear. Qed.

(** ** Cases *)

(** The default configuration with a basin, with comets of 20% and of 100% water. *)
Example C79_water_case : exists out k1 out2 k2,
  main (rcfg0 true) lin_ppf isort_age [faustini] [basin_b] tape0 0%nat = Ok (out, k1) /\
  comet_hydrated_wt_pct (r_i (rcfg0 true)) = 2 / 10 /\
  main (with_settings (rcfg0 true) (with_water ICFG0 (1 / 10) (165 / 1000) 1 (65 / 1000)) bcfg0 (r_bhop (rcfg0 true)))
    lin_ppf isort_age [faustini] [basin_b] tape0 0%nat = Ok (out2, k2) /\ no_less_ice out out2 /\ k2 = k1.
Proof.
  assert (Dr : draws tape0) by (intros i; unfold tape0; lra).
  destruct (rcfg0_data true [faustini; basin_b]) as [A B]; auto.
  destruct (run0 true [basin_b]) as (out & k1 & H & Ne); auto.
  pose proof (rcfg0_ice true) as I0. pose proof (rcfg0_bsed true) as B0.
  destruct (C60_total (with_settings (rcfg0 true) (with_water ICFG0 (1 / 10) (165 / 1000) 1 (65 / 1000)) bcfg0 (r_bhop (rcfg0 true)))
    lin_ppf isort_age [faustini] [basin_b] tape0 0%nat) as (out2 & k2 & H2 & _); auto using lin_support.
  - destruct I0 as [S0 ? ? ?]. constructor; try assumption. destruct S0. constructor; cbn [r_i with_settings with_water hydrated_wt_pct impact_mass_retained comet_hydrated_wt_pct comet_mass_retained]; try assumption; lra.
  - destruct A. constructor; assumption.
  - destruct B. constructor; assumption.
  - apply isort_age_ok.
  - exists out, k1, out2, k2. split; [exact H|]. split; [reflexivity|]. split; [exact H2|].
    apply (C79_water (rcfg0 true) (1 / 10) (165 / 1000) 1 (65 / 1000) lin_ppf isort_age [faustini] [basin_b] tape0 0%nat); auto;
      try (cbn [r_i rcfg0 ICFG0 hydrated_wt_pct impact_mass_retained comet_hydrated_wt_pct comet_mass_retained]; lra).
    destruct A. constructor; auto using rcfg0_ice, rcfg0_bsed, lin_support; [apply isort_age_ok|].
    split; [auto|reflexivity].
Qed.

(** The default asteroids meet the hypotheses of the linear law. *)
Example C79_linear_case : sane ICFG0 /\ ppf_support lin_ppf /\ draws tape0 /\ [1000; 0] <> [] /\
  is_comet ICFG0 = false /\ is_comet (get_comet_cfg ICFG0) = true.
Proof.
  destruct (rcfg0_ice true) as [S0 _ _ _]. split; [exact S0|]. split; [exact lin_support|].
  split; [intros i; unfold tape0; lra|]. split; [discriminate|]. split; reflexivity.
Qed.

Print Assumptions C79_water.
Print Assumptions C79_linear.
