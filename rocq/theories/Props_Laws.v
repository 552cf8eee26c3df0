(** Properties of the figures of laws (C94). *)
From Coq Require Import String List ZArith Reals Bool Lra Lia.
From Verif Require Import Base Model_Time Model_Crater Model_Ice Model_Curves Model_Laws Spec_Laws Proofs_Base Proofs_Crater Proofs_Scaling Proofs_Ice Proofs_Time Proofs_Laws.
Import ListNotations.
Open Scope R_scope.

(** ** Impactor against crater *)

(** The line of each drawn regime goes from the smallest to the largest crater of the
    regime, in km, with the impactors at 20 km/s that make them, in metres; the crosses are
    those of the proposed regimes; each basin has a mark of its own. *)
Theorem C94_scaling : forall c rs basins, scaling_sane c -> 1500 <= simple2complex c -> regimes_sane c rs -> Forall (fun d => 0 < d) basins ->
  exists f, crater_scaling c rs basins = Ok f /\
    Forall2 (line_of c "-" true) (drawn_regimes rs) (z_lines f) /\
    Forall2 (line_of c "rx" false) [("c", (250, 1500)); ("d", (1500, 15000)); ("e", (19000, 300000))]%string (z_proposed f) /\
    Forall2 (fun d m => fst m = d / 1000 /\ makes c "f" (final2transient c d) d (snd m)) basins (l_marks (z_basins f)) /\
    (exists s, l_label (z_basins f) = Some s /\ says "f" s) /\
    z_transitions f = (simple2complex c / 1000, complex2peakring c / 1000).
Proof.
  intros c rs bs S T G B. unfold crater_scaling.
  destruct (lines_ok c true rs S G) as (own & E1 & F1). rewrite E1. cbn [bind].
  destruct (lines_ok c false proposed S) as (alt & E2 & F2).
  { intros r lo hi I. unfold drawn_regimes, proposed in I. cbn in I.
    destruct I as [I|[I|[I|[]]]]; injection I as <- <- <-; (split; [cbn; tauto|]); (split; [lra|]); intros; try discriminate; lra. }
  rewrite E2. cbn [bind].
  destruct (basins_ok c bs (proj1 S) B) as (ms & E3 & F3). rewrite E3. cbn [bind].
  eexists. split; [reflexivity|]. cbn [z_lines z_proposed z_basins z_transitions l_marks l_label]. do 3 (split; [auto|]).
  split; [|reflexivity]. eexists. split; [reflexivity|]. unfold says. cbn. tauto.
Qed.

(** A regime of another name is a ValueError (of diam2len; the labels are looked up after). *)
Theorem C94_scaling_errors : forall c before r lo hi after basins, scaling_sane c -> regimes_sane c before -> 0 < lo -> 0 < hi ->
  ~ In r ["a"; "b"; "c"; "d"; "e"; "f"]%string ->
  crater_scaling c (before ++ (r, (lo, hi)) :: after) basins = Err ValueError.
Proof. intros. now apply scaling_bad. Qed.

Lemma default_sane : scaling_sane CFG0.
Proof. unfold scaling_sane. cbn. lra. Qed.
Lemma shipped_sane : regimes_sane CFG0 shipped_regimes.
Proof.
  intros r lo hi I. unfold drawn_regimes, shipped_regimes in I. cbn in I.
  destruct I as [I|[I|[I|[]]]]; injection I as <- <- <-; (split; [cbn; tauto|]); (split; [lra|]); intros; try discriminate; cbn; lra.
Qed.

Example C94_scaling_case : exists f, crater_scaling CFG0 shipped_regimes [1200000] = Ok f /\ length (z_lines f) = 3%nat /\ length (l_marks (z_basins f)) = 1%nat.
Proof.
  destruct (C94_scaling CFG0 shipped_regimes [1200000] default_sane ltac:(cbn; lra) shipped_sane ltac:(repeat constructor; lra)) as (f & E & A & _ & B & _).
  exists f. split; [exact E|]. split; [inversion A as [|? ? ? ? _ A1]; inversion A1 as [|? ? ? ? _ A2]; inversion A2 as [|? ? ? ? _ A3]; inversion A3; reflexivity|inversion B as [|? ? ? ? _ B1]; inversion B1; reflexivity].
Qed.

Lemma default_d lo hi ls : regime_line CFG0 ls "d" lo hi = Ok (mk_line (if ls then "-" else "rx") (if ls then Some "D: Large simple craters (Collins et al., 2005)" else None)%string
    [(lo / 1000, diam2len_collins (final2transient CFG0 lo) 20000 1300 1500 (162 / 100) 45); (hi / 1000, diam2len_collins (final2transient CFG0 hi) 20000 1300 1500 (162 / 100) 45)])
  \/ ~ (0 < lo /\ 0 < hi).
Proof.
  destruct (Rlt_dec 0 lo); [|tauto]. destruct (Rlt_dec 0 hi); [|tauto]. left. unfold regime_line.
  rewrite (proj2 (Reqb_false lo 0)) by lra. rewrite (proj2 (Reqb_false hi 0)) by lra. cbn [orb]. rewrite geom2 by lra.
  destruct ls; reflexivity.
Qed.
Lemma default_e lo hi ls : regime_line CFG0 ls "e" lo hi = Ok (mk_line (if ls then "-" else "rx") (if ls then Some "E: Complex craters (Johnson et al., 2016)" else None)%string
    [(lo / 1000, diam2len_johnson (final2transient CFG0 lo) 20000 1300 1500 (162 / 100) 45 18000); (hi / 1000, diam2len_johnson (final2transient CFG0 hi) 20000 1300 1500 (162 / 100) 45 18000)])
  \/ ~ (0 < lo /\ 0 < hi).
Proof.
  destruct (Rlt_dec 0 lo); [|tauto]. destruct (Rlt_dec 0 hi); [|tauto]. left. unfold regime_line.
  rewrite (proj2 (Reqb_false lo 0)) by lra. rewrite (proj2 (Reqb_false hi 0)) by lra. cbn [orb]. rewrite geom2 by lra.
  destruct ls; reflexivity.
Qed.

Lemma default_lines : exists f lc ld le pc pd pe, crater_scaling CFG0 shipped_regimes [] = Ok f /\ z_lines f = [lc; ld; le] /\ z_proposed f = [pc; pd; pe] /\
  z_ylabel f = "Impactor Diameter [km]"%string /\
  (exists y, In (15, y) (l_marks ld) /\ In (15, y) (l_marks pd) /\ 740 < y < 744) /\
  (exists z, In (15, z) (l_marks le) /\ 580 < z < 584) /\ (exists z, In (19, z) (l_marks pe) /\ 754 < z < 760).
Proof.
  assert (T : final2transient CFG0 15000 = 12000).
  { destruct (f2t_cases CFG0 15000 ltac:(lra) ltac:(cbn; lra)) as [[A ->]|[[A _]|[A _]]]; cbn [simple2complex complex2peakring CFG0] in A; lra. }
  pose proof simple_end as B1. pose proof complex_start as B2. pose proof complex_start' as B3.
  unfold crater_scaling, shipped_regimes, proposed. cbn [regime_lines String.eqb Ascii.eqb Bool.eqb orb].
  destruct (marks_two CFG0 100 1500 "c" default_sane ltac:(lra) ltac:(cbn; tauto) ltac:(intros; cbn; lra)) as (y1 & z1 & M1 & _).
  destruct (marks_two CFG0 250 1500 "c" default_sane ltac:(lra) ltac:(cbn; tauto) ltac:(intros; cbn; lra)) as (y2 & z2 & M2 & _).
  assert (C : forall b lo hi y z, 0 < lo -> 0 < hi -> marks CFG0 [lo; hi] "c" = Ok [(lo / 1000, y); (hi / 1000, z)] -> exists l, regime_line CFG0 b "c" lo hi = Ok l).
  { intros b lo hi y z L H M. unfold regime_line. rewrite (proj2 (Reqb_false lo 0)) by lra. rewrite (proj2 (Reqb_false hi 0)) by lra. cbn [orb].
    rewrite geom2, M by lra. cbn [bind]. destruct b; cbn; eauto. }
  destruct (C true 100 1500 _ _ ltac:(lra) ltac:(lra) M1) as (lc & EC1). destruct (C false 250 1500 _ _ ltac:(lra) ltac:(lra) M2) as (lc' & EC2).
  rewrite EC1, EC2. cbn [bind].
  destruct (default_d 1500 15000 true) as [ED|]; [|lra]. destruct (default_d 1500 15000 false) as [ED'|]; [|lra].
  destruct (default_e 15000 300000 true) as [EE|]; [|lra]. destruct (default_e 19000 300000 false) as [EE'|]; [|lra].
  rewrite ED, ED', EE, EE'. cbn [bind]. rewrite T in *.
  do 7 eexists. split; [reflexivity|]. split; [reflexivity|]. split; [reflexivity|]. split; [reflexivity|]. cbn [l_marks].
  split; [|split].
  - eexists. split; [right; left; f_equal; lra|]. split; [right; left; f_equal; lra|]. exact B1.
  - eexists. split; [left; f_equal; lra|]. exact B2.
  - eexists. split; [left; f_equal; lra|]. exact B3.
Qed.

(** An impactor size is in one regime: with the shipped regimes the complex craters start
    (15 km) with impactors of less than 584 m, while the simple ones end, at the same
    diameter, with more than 740 m. *)
Theorem C94_overlap_refuted : exists f lc ld le y z, crater_scaling CFG0 shipped_regimes [] = Ok f /\ z_lines f = [lc; ld; le] /\
  In (15, y) (l_marks ld) /\ In (15, z) (l_marks le) /\ z < 584 /\ 740 < y.
Proof.
  destruct default_lines as (f & lc & ld & le & pc & pd & pe & E & L & _ & _ & (y & Y & _ & BY) & (z & Z & BZ) & _).
  exists f, lc, ld, le, y, z. repeat split; auto; lra.
Qed.

(** With the proposed regimes they start above the end of the simple ones, by less than 20
    metres. *)
Theorem C94_proposal : exists f pc pd pe y z, crater_scaling CFG0 shipped_regimes [] = Ok f /\ z_proposed f = [pc; pd; pe] /\
  In (15, y) (l_marks pd) /\ In (19, z) (l_marks pe) /\ y < z < y + 20.
Proof.
  destruct default_lines as (f & lc & ld & le & pc & pd & pe & E & _ & L & _ & (y & _ & Y & BY) & _ & (z & Z & BZ)).
  exists f, pc, pd, pe, y, z. repeat split; auto; lra.
Qed.

(** The impactors are in km, as written along the axis: those of a crater of 15 km would
    be larger than 740 km. *)
Theorem C94_unit_refuted : exists f lc ld le y, crater_scaling CFG0 shipped_regimes [] = Ok f /\ z_lines f = [lc; ld; le] /\
  z_ylabel f = "Impactor Diameter [km]"%string /\ In (15, y) (l_marks ld) /\ 740 < y.
Proof.
  destruct default_lines as (f & lc & ld & le & pc & pd & pe & E & L & _ & U & (y & Y & _ & BY) & _).
  exists f, lc, ld, le, y. repeat split; auto; lra.
Qed.

(** ** Retention against speed *)

(** All three curves have a point at 70 i / 6999 km/s for each i below 7000.  Below 10 km/s
    they are 1/2 for asteroids and 1 for comets; from there on they fall, that of Cannon
    exponentially, that of this work by a power of the speed, for asteroids as for comets. *)
Theorem C94_retention : forall i, (Z.of_nat i < 7000)%Z ->
  let x := 70 * INR i / 6999 in
  exists p q r, nth_error (n_cannon ice_retention) i = Some (x, p) /\ nth_error (n_asteroid ice_retention) i = Some (x, q) /\
    nth_error (n_comet ice_retention) i = Some (x, r) /\
    (x < 10 -> p = 1 / 2 /\ q = 1 / 2 /\ r = 1) /\ (10 <= x -> p = 3626 / 100 * exp (- (3464 / 10000) * x) /\ q = 16600 * Rpower x (- (416 / 100)) /\ 0 < p /\ 0 < q /\ q = r) /\
    forall j, (i < j)%nat -> (Z.of_nat j < 7000)%Z -> 10 <= x ->
      exists y p' q' r', nth_error (n_cannon ice_retention) j = Some (y, p') /\ nth_error (n_asteroid ice_retention) j = Some (y, q') /\
        nth_error (n_comet ice_retention) j = Some (y, r') /\ x < y /\ p' < p /\ q' < q /\ r' < r.
Proof.
  intros i I x. unfold ice_retention. cbn [n_cannon n_asteroid n_comet]. rewrite !curve_point by lia. fold x.
  do 3 eexists. split; [reflexivity|]. split; [reflexivity|]. split; [reflexivity|]. split; [|split].
  - intros X. rewrite !retention_slow by lra. auto.
  - intros X. rewrite !retention_fast by lra. cbn [mode in_mode String.eqb Ascii.eqb Bool.eqb].
    pose proof (exp_pos (- (3464 / 10000) * (x * 1000 * (1 / 1000)))). pose proof (Rpower_pos (x * 1000 * (1 / 1000)) (- (416 / 100))).
    replace (x * 1000 * (1 / 1000)) with x in * by lra. repeat split; lra.
  - intros j J J' X. rewrite !curve_point by lia. do 4 eexists. split; [reflexivity|]. split; [reflexivity|]. split; [reflexivity|].
    assert (Y : x < 70 * INR j / 6999) by (unfold x; apply lt_INR in J; lra).
    split; [exact Y|]. split; [apply retention_decreasing; cbn; auto; lra|]. split; apply retention_decreasing; cbn; auto; lra.
Qed.

(** Fractions are between 0 and 1, as written along the axis: just above 10 km/s all three
    curves are above 1. *)
Theorem C94_fraction_refuted : exists i x p q r, nth_error (n_cannon ice_retention) i = Some (x, p) /\
  nth_error (n_asteroid ice_retention) i = Some (x, q) /\ nth_error (n_comet ice_retention) i = Some (x, r) /\
  n_ylabel ice_retention = "Ice Retention Fraction [0-1]"%string /\ 10 <= x <= 10002 / 1000 /\ 1 < p /\ 1 < q /\ 1 < r.
Proof.
  assert (N : INR (Z.to_nat 1000) = 1000) by (rewrite INR_IZR_INZ, Z2Nat.id by lia; reflexivity).
  exists (Z.to_nat 1000). unfold ice_retention. cbn [n_cannon n_asteroid n_comet n_ylabel]. rewrite !curve_point by lia. rewrite N.
  do 4 eexists. do 4 (split; [reflexivity|]). split; [lra|].
  split; [|split]; apply above_one; cbn; auto; lra.
Qed.

(** The law of this work is within a quarter of the data of Ong et al. up to 45 km/s. *)
Theorem C94_ong : forall c x y, mode c = "moonpies"%string -> In (x, y) (n_ong ice_retention) -> x <= 45 ->
  Rabs (ice_retention_factor c (x * 1000) - y) <= y / 4.
Proof. exact ong_near. Qed.
Example C94_ong_case : exists c, mode c = "moonpies"%string /\ In (30, 147 / 10000) (n_ong ice_retention).
Proof. exists (in_mode "moonpies" true). cbn. tauto. Qed.

(** The curves of this work are a fit to those data: at 60 km/s they are more than 90 times
    the datum there. *)
Theorem C94_ong_refuted : exists i x q r y, nth_error (n_asteroid ice_retention) i = Some (x, q) /\ nth_error (n_comet ice_retention) i = Some (x, r) /\
  In (60, y) (n_ong ice_retention) /\ 5999 / 100 <= x <= 60 /\ 90 * y < q /\ 90 * y < r.
Proof.
  assert (N : INR (Z.to_nat 5999) = 5999) by (rewrite INR_IZR_INZ, Z2Nat.id by lia; reflexivity).
  exists (Z.to_nat 5999). unfold ice_retention. cbn [n_asteroid n_comet n_ong]. rewrite !curve_point by lia. rewrite N.
  do 3 eexists. exists (66 / 10000000). split; [reflexivity|]. split; [reflexivity|].
  split; [cbn; tauto|]. split; [lra|].
  split; [apply Rlt_trans with (ice_retention_factor (in_mode "moonpies" false) (60 * 1000))|apply Rlt_trans with (ice_retention_factor (in_mode "moonpies" true) (60 * 1000))];
    try (apply ong_far; reflexivity); apply retention_decreasing; cbn; auto; lra.
Qed.

(** ** Hop efficiency against latitude *)

(** With all twelve names in the table, there is a marker for each, at its latitude and at
    its efficiency in percent; those of Moores et al. are blue circles.  The fit is the one
    line that is closest to the blue circles by least squares.  The other line joins the
    markers of Cabeus B and Faustini. *)
Theorem C94_hop : forall bhop, (forall n, In n (map fst hop_traps) -> bhop n <> None) ->
  exists f, ballistic_hop bhop = Ok f /\
    Forall2 (fun t h => h_name h = fst t /\ h_lat h = snd t /\ bhop (fst t) = Some (h_pct h / 100) /\ (h_blue h = true <-> In (fst t) moores) /\
      (h_legend h = Some "Moores et al. (2016)" <-> fst t = "Haworth")%string /\ (h_legend h = Some "This work" <-> fst t = "Cabeus B")%string /\
      (fst t <> "Haworth" -> fst t <> "Cabeus B" -> h_legend h = None)%string) hop_traps (j_hops f) /\
    j_constant f = 54 / 10 /\
    (exists a b, (forall p, In p (j_fit f) -> snd p = a + b * fst p) /\ length (j_fit f) = 10%nat /\
       let blue := map (fun h => (h_lat h, h_pct h)) (filter h_blue (j_hops f)) in
       forall a' b', misfit blue a b <= misfit blue a' b' /\ (misfit blue a' b' <= misfit blue a b -> a' = a /\ b' = b)) /\
    (exists h h', In h (j_hops f) /\ In h' (j_hops f) /\ h_name h = "Cabeus B"%string /\ h_name h' = "Faustini"%string /\
       j_link f = [(h_lat h, h_pct h); (h_lat h', h_pct h')]).
Proof.
  intros bhop T.
  assert (V : exists v, forall n, In n (map fst hop_traps) -> bhop n = Some (v n)).
  { exists (fun n => match bhop n with Some x => x | None => 0 end). intros n I. specialize (T n I). destruct (bhop n); congruence. }
  destruct V as (v & V). unfold ballistic_hop, loc.
  assert (W : forall n, In n (map fst hop_traps) -> match bhop n with Some x => Ok (100 * x) | None => Err KeyError end = Ok (100 * v n)) by (intros n I; rewrite (V n I); reflexivity).
  cbn [hop_traps mapM map fst snd filter in_moores moores existsb String.eqb Ascii.eqb Bool.eqb orb].
  unfold hop_traps in W. cbn [map fst] in W.
  rewrite !W by (cbn; tauto). cbn [bind].
  match goal with |- context[polyfit1 ?l] => set (pts := l); destruct (polyfit1 pts) as [b a] eqn:P end.
  cbn [bind].
  eexists. split; [reflexivity|]. cbn [j_hops j_fit j_link j_constant]. split; [|split; [reflexivity|split]].
  - repeat (constructor; [cbn [h_name h_lat h_pct h_blue h_legend fst snd]; split; [reflexivity|]; split; [reflexivity|]; split;
      [rewrite V by (cbn; tauto); f_equal; field|split;
      [cbn; split; intros Q; try discriminate; try tauto; repeat (destruct Q as [Q|Q]; [discriminate|]); contradiction|
       cbn [String.eqb Ascii.eqb Bool.eqb]; split; [split; intros Q; congruence || discriminate Q|split; [split; intros Q; congruence || discriminate Q|congruence]]]]|]). constructor.
  - exists a, b. split; [|split].
    + intros p I. apply in_map_iff in I as (x & <- & _). cbn [fst snd]. ring.
    + rewrite map_length. apply linspace_length.
    + cbn [filter h_blue map h_lat h_pct]. fold pts. apply fit_best; [..|exact P].
      * unfold pts. cbn [combine length]. apply lt_0_INR. lia.
      * unfold pts. cbn [combine length map fst snd]. unfold Rsum. cbn [fold_right].
        replace (INR 7) with 7 by (rewrite INR_IZR_INZ; reflexivity). lra.
  - do 2 eexists. split; [do 5 right; left; reflexivity|]. split; [do 2 right; left; reflexivity|]. split; [reflexivity|]. split; reflexivity.
Qed.

(** A name that is not in the table is a KeyError. *)
Theorem C94_hop_missing : forall bhop n, In n (map fst hop_traps) -> bhop n = None -> ballistic_hop bhop = Err KeyError.
Proof.
  intros bhop n I N. unfold ballistic_hop.
  match goal with |- context[mapM ?g hop_traps] => assert (E : mapM g hop_traps = Err KeyError) end.
  { revert I. generalize hop_traps. induction l as [|(m, lat) l IH]; intros I; [destruct I|]. cbn [mapM]. unfold loc at 1.
    destruct (bhop m) eqn:M; [|reflexivity]. cbn [bind].
    destruct I as [I|I]; [cbn in I; congruence|]. rewrite (IH I). reflexivity. }
  rewrite E. reflexivity.
Qed.

(** The shipped table, rounded to six digits. *)
Definition shipped_hop (n : string) : option R :=
  match find (fun t => String.eqb n (fst t))
    [("Haworth", 24314); ("Shoemaker", 16978); ("Faustini", 62162); ("Amundsen", 62162); ("Cabeus", 62162); ("Cabeus B", 62162);
     ("de Gerlache", 18352); ("Idel'son L", 62162); ("Sverdrup", 21138); ("Shackleton", 5509); ("Wiechert J", 62162); ("Slater", 18823)]%string with
  | Some t => Some (snd t / 1000000)
  | None => None
  end.

(** With the shipped table: the fit is drawn towards the equator, and rises that way. *)
Theorem C94_hop_shipped : exists f x y x' y', ballistic_hop shipped_hop = Ok f /\
  nth_error (j_fit f) 0 = Some (x, y) /\ nth_error (j_fit f) 9 = Some (x', y') /\ x = 896 / 10 /\ x' = 856 / 10 /\ 0 < y < 1 /\ 6 < y' < 7.
Proof.
  unfold ballistic_hop, loc, shipped_hop.
  cbn [hop_traps mapM map fst snd filter in_moores moores existsb find String.eqb Ascii.eqb Bool.eqb orb bind].
  match goal with |- context[polyfit1 ?l] => set (pts := l); destruct (polyfit1 pts) as [b a] eqn:P end.
  cbn [bind]. do 5 eexists. split; [reflexivity|]. cbn [j_fit].
  rewrite !nth_error_map, !linspace_nth by lia. cbn [option_map]. do 2 (split; [reflexivity|]).
  replace (INR 0) with 0 by reflexivity. replace (INR 9) with 9 by (rewrite INR_IZR_INZ; reflexivity). replace (INR 10) with 10 by (rewrite INR_IZR_INZ; reflexivity).
  split; [field|]. split; [field|].
  unfold polyfit1, pts in P. cbn [combine length map fst snd] in P. unfold Rsum in P. cbn [fold_right] in P.
  replace (INR 7) with 7 in P by (rewrite INR_IZR_INZ; reflexivity). injection P as B A.
  split; split; lra.
Qed.

Print Assumptions C94_scaling.
Print Assumptions C94_scaling_errors.
Print Assumptions C94_overlap_refuted.
Print Assumptions C94_proposal.
Print Assumptions C94_unit_refuted.
Print Assumptions C94_retention.
Print Assumptions C94_fraction_refuted.
Print Assumptions C94_ong.
Print Assumptions C94_ong_refuted.
Print Assumptions C94_hop.
Print Assumptions C94_hop_missing.
Print Assumptions C94_hop_shipped.
