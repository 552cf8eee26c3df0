(** C79: what never costs ice. *)
From Coq Require Import String List ZArith Reals Lia Lra Bool.
From Verif Require Import Base Arith Model_Column Model_Time Model_Geo Model_Crater Model_Ice Model_Rng Model_Strat
  Model_Melt Model_Main Spec_Column Spec_Time Spec_Ice Spec_Melt Spec_Main Spec_Mono
  Proofs_Base Proofs_Time Proofs_Main Proofs_Mono Proofs_Rng Props_Rng Props_Melt Props_Main.
Import ListNotations.
Open Scope R_scope.

(** One cold trap: more ice, more ejecta and smaller disturbances in every step never leave
    less ice in any layer at the end. *)
Theorem C79_column : forall costello shield names j c d d2 evs evs2 src src2 bd bf bd2 bf2 e e2,
  NoDup names -> nth_error names j = Some c ->
  lookup d c = Ok (mk_strat (map ev_ice evs) (map ev_ej evs) src) ->
  lookup d2 c = Ok (mk_strat (map ev_ice evs2) (map ev_ej evs2) src2) ->
  (forall t v, nth_error evs t = Some v -> get2 bd t j = Ok (ev_bsed_depth v) /\ get2 bf t j = Ok (ev_bsed_frac v)) ->
  (forall t v, nth_error evs2 t = Some v -> get2 bd2 t j = Ok (ev_bsed_depth v) /\ get2 bf2 t j = Ok (ev_bsed_frac v)) ->
  Forall2 event_le evs evs2 ->
  update_strat_cols exactR costello shield names d (map ev_overturn evs) bd bf = Ok e ->
  update_strat_cols exactR costello shield names d2 (map ev_overturn evs2) bd2 bf2 = Ok e2 ->
  exists ice ice2, lookup e c = Ok (mk_strat ice (map ev_ej evs) src) /\
    lookup e2 c = Ok (mk_strat ice2 (map ev_ej evs2) src2) /\
    Forall2 (fun x x2 => 0 <= x <= x2) ice ice2.
Proof. exact column_mono. Qed.

(** ** Two runs with the same files and random numbers *)

(** Switching solar wind ice on, a larger volcanic volume, larger ballistic hop efficiencies,
    smaller overturn and erosion, and no ballistic sedimentation never leave less ice. *)
Theorem C79_settings : forall c sun volc rate present b hop ppf sort craters basins u k out k1 out2 k2,
  let i2 := with_rates (r_i c) sun volc rate present in
  run_sane c ppf sort (craters ++ basins) u ->
  sun_sane i2 (r_lum c) -> (solar_wind_on (r_i c) = true -> sun = true) -> volc_total_vol (r_i c) <= volc ->
  rate <= ice_erosion_rate (r_i c) -> present <= overturn_present (r_i c) -> 0 <= overturn_slope (r_i c) ->
  (b = r_bsed c \/ b = no_bsed (r_bsed c)) ->
  (hop_moores (r_i c) = true -> forall n, In n (r_names c) ->
     exists h h2, r_bhop c n = Some h /\ hop n = Some h2 /\ h <= h2) ->
  main c ppf sort craters basins u k = Ok (out, k1) -> o_time out <> [] ->
  main (with_settings c i2 b hop) ppf sort craters basins u k = Ok (out2, k2) ->
  no_less_ice out out2 /\ k2 = k1.
Proof.
  intros c sun volc rate present b hop ppf sort craters basins u k out k1 out2 k2 i2 [] S1 S2 S3 S4 S5 S6 S7 S8 H Ne H2.
  eapply (main_mono c sun volc rate present b hop ppf sort craters basins u k out k1 out2 k2); eauto.
  destruct S7 as [->| ->]; auto.
Qed.

Lemma rates_id c : with_rates c (solar_wind_on c) (volc_total_vol c) (ice_erosion_rate c) (overturn_present c) = c.
Proof. destruct c. reflexivity. Qed.

Lemma hop_refl c : ice_sane c -> hop_moores (r_i c) = true -> forall n, In n (r_names c) ->
  exists h h2, r_bhop c n = Some h /\ r_bhop c n = Some h2 /\ h <= h2.
Proof. intros H M n Hn. destruct (i_hop _ H M n Hn) as (h & E & _). exists h, h. repeat split; auto. lra. Qed.

Theorem C79_no_sedimentation : forall c ppf sort craters basins u k out k1 out2 k2,
  run_sane c ppf sort (craters ++ basins) u -> 0 <= overturn_slope (r_i c) ->
  main c ppf sort craters basins u k = Ok (out, k1) -> o_time out <> [] ->
  main (with_settings c (r_i c) (no_bsed (r_bsed c)) (r_bhop c)) ppf sort craters basins u k = Ok (out2, k2) ->
  no_less_ice out out2 /\ k2 = k1.
Proof.
  intros c ppf sort craters basins u k out k1 out2 k2 S Hs H Ne H2. rewrite <- (rates_id (r_i c)) in H2.
  apply (C79_settings c (solar_wind_on (r_i c)) (volc_total_vol (r_i c)) (ice_erosion_rate (r_i c)) (overturn_present (r_i c)) (no_bsed (r_bsed c)) (r_bhop c)
    ppf sort craters basins u k out k1 out2 k2); auto; try lra.
  - rewrite rates_id. apply S.
  - apply hop_refl, S.
Qed.

Theorem C79_solar_wind : forall c ppf sort craters basins u k out k1 out2 k2,
  let i2 := with_rates (r_i c) true (volc_total_vol (r_i c)) (ice_erosion_rate (r_i c)) (overturn_present (r_i c)) in
  run_sane c ppf sort (craters ++ basins) u -> 0 <= overturn_slope (r_i c) -> sun_sane i2 (r_lum c) ->
  main c ppf sort craters basins u k = Ok (out, k1) -> o_time out <> [] ->
  main (with_settings c i2 (r_bsed c) (r_bhop c)) ppf sort craters basins u k = Ok (out2, k2) ->
  no_less_ice out out2 /\ k2 = k1.
Proof.
  intros c ppf sort craters basins u k out k1 out2 k2 i2 S Hs Hsun H Ne H2.
  apply (C79_settings c true (volc_total_vol (r_i c)) (ice_erosion_rate (r_i c)) (overturn_present (r_i c)) (r_bsed c) (r_bhop c)
    ppf sort craters basins u k out k1 out2 k2); auto; try lra. apply hop_refl, S.
Qed.

Theorem C79_volcanic : forall c volc ppf sort craters basins u k out k1 out2 k2,
  let i2 := with_rates (r_i c) (solar_wind_on (r_i c)) volc (ice_erosion_rate (r_i c)) (overturn_present (r_i c)) in
  run_sane c ppf sort (craters ++ basins) u -> 0 <= overturn_slope (r_i c) -> volc_total_vol (r_i c) <= volc ->
  main c ppf sort craters basins u k = Ok (out, k1) -> o_time out <> [] ->
  main (with_settings c i2 (r_bsed c) (r_bhop c)) ppf sort craters basins u k = Ok (out2, k2) ->
  no_less_ice out out2 /\ k2 = k1.
Proof.
  intros c volc ppf sort craters basins u k out k1 out2 k2 i2 S Hs Hv H Ne H2.
  apply (C79_settings c (solar_wind_on (r_i c)) volc (ice_erosion_rate (r_i c)) (overturn_present (r_i c)) (r_bsed c) (r_bhop c)
    ppf sort craters basins u k out k1 out2 k2); auto; try lra; [apply S|apply hop_refl, S].
Qed.

(** A table of larger ballistic hop efficiencies. *)
Theorem C79_hop : forall c hop ppf sort craters basins u k out k1 out2 k2,
  run_sane c ppf sort (craters ++ basins) u -> 0 <= overturn_slope (r_i c) ->
  (hop_moores (r_i c) = true -> forall n, In n (r_names c) ->
     exists h h2, r_bhop c n = Some h /\ hop n = Some h2 /\ h <= h2) ->
  main c ppf sort craters basins u k = Ok (out, k1) -> o_time out <> [] ->
  main (with_settings c (r_i c) (r_bsed c) hop) ppf sort craters basins u k = Ok (out2, k2) ->
  no_less_ice out out2 /\ k2 = k1.
Proof.
  intros c hop ppf sort craters basins u k out k1 out2 k2 S Hs Hh H Ne H2. rewrite <- (rates_id (r_i c)) in H2.
  apply (C79_settings c (solar_wind_on (r_i c)) (volc_total_vol (r_i c)) (ice_erosion_rate (r_i c)) (overturn_present (r_i c)) (r_bsed c) hop
    ppf sort craters basins u k out k1 out2 k2); auto; try lra. rewrite rates_id. apply S.
Qed.

(** Less overturn (by impact gardening) and less erosion (Cannon's). *)
Theorem C79_overturn : forall c rate present ppf sort craters basins u k out k1 out2 k2,
  let i2 := with_rates (r_i c) (solar_wind_on (r_i c)) (volc_total_vol (r_i c)) rate present in
  run_sane c ppf sort (craters ++ basins) u -> 0 <= overturn_slope (r_i c) ->
  rate <= ice_erosion_rate (r_i c) -> present <= overturn_present (r_i c) ->
  main c ppf sort craters basins u k = Ok (out, k1) -> o_time out <> [] ->
  main (with_settings c i2 (r_bsed c) (r_bhop c)) ppf sort craters basins u k = Ok (out2, k2) ->
  no_less_ice out out2 /\ k2 = k1.
Proof.
  intros c rate present ppf sort craters basins u k out k1 out2 k2 i2 S Hs Hr Hp H Ne H2.
  apply (C79_settings c (solar_wind_on (r_i c)) (volc_total_vol (r_i c)) rate present (r_bsed c) (r_bhop c)
    ppf sort craters basins u k out k1 out2 k2); auto; try lra; [apply S|apply hop_refl, S].
Qed.

(** ** Cases *)

(** 2 m of ice under 1 m of ejecta, overturned to 2 m or to 3/2 m: 1 or 3/2 m of ice stay. *)
Example C79_column_case :
  let ev o := mk_event 2 1 0 0 o in
  let d := [("A"%string, mk_strat [2] [1] [""%string])] in
  event_le (ev 2) (ev (3 / 2)) /\
  update_strat_cols exactR true 1 ["A"%string] d [2] [[0]] [[0]] = Ok [("A"%string, mk_strat [1] [1] [""%string])] /\
  update_strat_cols exactR true 1 ["A"%string] d [3 / 2] [[0]] [[0]] = Ok [("A"%string, mk_strat [3 / 2] [1] [""%string])].
Proof.
  cbv zeta. split; [unfold event_le; cbn -[Rmax Rle]; pose proof (Rmax_l 0 0); lra|].
  split; (apply column_case; lra).
Qed.

(** The default configuration with a basin, with and without sedimentation. *)
Example C79_case : exists out k1 out2 k2,
  main (rcfg0 true) lin_ppf isort_age [faustini] [basin_b] tape0 0%nat = Ok (out, k1) /\
  main (with_settings (rcfg0 true) ICFG0 (no_bsed bcfg0) (r_bhop (rcfg0 true))) lin_ppf isort_age [faustini] [basin_b] tape0 0%nat
    = Ok (out2, k2) /\ no_less_ice out out2 /\ k2 = k1.
Proof.
  assert (Dr : draws tape0) by (intros i; unfold tape0; lra).
  destruct (rcfg0_data true [faustini; basin_b]) as [A B]; auto.
  destruct (run0 true [basin_b]) as (out & k1 & H & Ne); auto.
  destruct (C60_total (with_settings (rcfg0 true) ICFG0 (no_bsed bcfg0) (r_bhop (rcfg0 true))) lin_ppf isort_age [faustini] [basin_b] tape0 0%nat)
    as (out2 & k2 & H2 & _); auto using lin_support.
  - destruct (rcfg0_ice true). constructor; assumption.
  - discriminate.
  - destruct A. constructor; assumption.
  - destruct B. constructor; assumption.
  - apply isort_age_ok.
  - exists out, k1, out2, k2. split; [exact H|]. split; [exact H2|].
    apply (C79_no_sedimentation (rcfg0 true) lin_ppf isort_age [faustini] [basin_b] tape0 0%nat); auto; [|cbn; lra].
    destruct A. constructor; auto using rcfg0_ice, rcfg0_bsed, lin_support; [apply isort_age_ok|].
    split; [auto|reflexivity].
Qed.

Print Assumptions C79_column.
Print Assumptions C79_settings.
Print Assumptions C79_no_sedimentation.
Print Assumptions C79_solar_wind.
Print Assumptions C79_volcanic.
Print Assumptions C79_hop.
Print Assumptions C79_overturn.
