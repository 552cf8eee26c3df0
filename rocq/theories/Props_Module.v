(** C87: the figure of ice by source. *)
From Coq Require Import String List ZArith Reals Lia Lra Psatz Bool Permutation Sorted.
From Verif Require Import Base Model_Time Model_Geo Model_Interp Model_Crater Model_Ice Model_Rng Model_Strat Model_Melt Model_Main Model_Module
  Spec_Time Spec_Geo Spec_Ice Spec_Strat Spec_Melt Spec_Main Spec_Module
  Proofs_Base Proofs_Time Proofs_Geo Proofs_Ice Proofs_Rng Proofs_Melt Proofs_Bsed Proofs_Main Proofs_Module Props_Rng Props_Melt Props_Main.
Import ListNotations.
Open Scope R_scope.

(** ** The table *)

(** The ice of a source at a step is the mean over the seeds of the asteroid ice plus the
    mean over the seeds of the comet ice; a depth is the mean of both means. *)
Theorem C87_table : forall c ppf sort craters basins stream unseeded seeds,
  module_sane c ppf sort craters basins stream unseeded ->
  Forall (fun s => (0 <= s)%Z) seeds -> seeds <> [] ->
  exists time t ast com, get_time_array (r_rnd c) (r_start c) (r_end c) (r_step c) = Ok time /\
    get_ice_ast_comet_seeds c ppf sort craters basins stream unseeded seeds = Ok t /\
    mapM (seed_table ppf sort craters basins stream c time) seeds = Ok ast /\
    mapM (seed_table ppf sort craters basins stream (comet_run c) time) seeds = Ok com /\
    (forall i x, nth_error time i = Some x -> entry t "time" i x) /\
    forall n i, (i < length time)%nat -> In n all_ice \/ In n depths ->
      exists xs ys, Forall2 (fun a x => entry a n i x) ast xs /\ Forall2 (fun a y => entry a n i y) com ys /\
        entry t n i (if existsb (String.eqb n) all_ice then mean xs + mean ys else (mean xs + mean ys) / 2).
Proof. exact seeds_table. Qed.

(** The table of a seed holds what a run with this seed computes: its craters, its basins,
    its volcanic and solar wind ice, and the ice of its impacts split by size. *)
Theorem C87_seed : forall c ppf sort craters basins stream unseeded time s t,
  module_sane c ppf sort craters basins stream unseeded ->
  time <> [] -> seed_table ppf sort craters basins stream c time s = Ok t ->
  exists df k k' volc sw imp,
    get_crater_basin_list c ppf sort craters basins (stream s) 0%nat = Ok (df, k) /\
    get_volcanic_ice (r_i c) time = Ok volc /\ get_solar_wind_ice (r_i c) (r_lum c) time = Ok sw /\
    get_impact_ice (r_i c) ppf (r_tol c) (map impact_of df) time (stream s) k = Ok (imp, k') /\
    get_agg_bsed_depth c df time = tcol t "Ballistic sed depth" /\
    length imp = length time /\
    forall i, (i < length time)%nat ->
      (exists v, nth_error volc i = Some v /\ entry t "Volcanic ice" i v) /\
      (exists v, nth_error sw i = Some v /\ entry t "Solar wind ice" i v) /\
      (exists v, nth_error (overturn_depth_time (r_i c) time) i = Some v /\ entry t "Gardening depth" i v) /\
      exists xs b, Forall2 (fun n => entry t n i) crater_ice xs /\ entry t "Basin ice" i b /\ 0 <= b /\ Forall (fun x => 0 <= x) xs /\
        nth_error imp i = Some (Rsum xs + if basins_on (r_i c) then b else 0).
Proof. exact seed_sources. Qed.

(** Volcanic ice and solar wind ice are in the asteroid table and in the comet table, so
    that the figure has both twice; the gardening depth is that of a run. *)
Theorem C87_twice : forall c ppf sort craters basins stream unseeded seeds t time volc sw,
  module_sane c ppf sort craters basins stream unseeded ->
  Forall (fun s => (0 <= s)%Z) seeds -> seeds <> [] ->
  get_ice_ast_comet_seeds c ppf sort craters basins stream unseeded seeds = Ok t ->
  get_time_array (r_rnd c) (r_start c) (r_end c) (r_step c) = Ok time ->
  get_volcanic_ice (r_i c) time = Ok volc -> get_solar_wind_ice (r_i c) (r_lum c) time = Ok sw ->
  forall i, (i < length time)%nat -> exists v w d,
    nth_error volc i = Some v /\ nth_error sw i = Some w /\ nth_error (overturn_depth_time (r_i c) time) i = Some d /\
    entry t "Volcanic ice" i (2 * v) /\ entry t "Solar wind ice" i (2 * w) /\ entry t "Gardening depth" i d.
Proof. exact fixed_sources. Qed.

(** Total ice: impacts of asteroids and of comets, each the mean over the seeds, and twice
    the rest. *)
Theorem C87_total : forall c ppf sort craters basins stream unseeded seeds t time volc sw,
  module_sane c ppf sort craters basins stream unseeded ->
  Forall (fun s => (0 <= s)%Z) seeds -> seeds <> [] -> basins_on (r_i c) = true ->
  get_ice_ast_comet_seeds c ppf sort craters basins stream unseeded seeds = Ok t ->
  get_time_array (r_rnd c) (r_start c) (r_end c) (r_step c) = Ok time ->
  get_volcanic_ice (r_i c) time = Ok volc -> get_solar_wind_ice (r_i c) (r_lum c) time = Ok sw ->
  forall i, (i < length time)%nat -> exists v w xs ys, nth_error volc i = Some v /\ nth_error sw i = Some w /\
    Forall2 (impact_at c ppf sort craters basins stream time i) seeds xs /\
    Forall2 (impact_at (comet_run c) ppf sort craters basins stream time i) seeds ys /\
    shown t "Total ice" i (mean xs + mean ys + 2 * v + 2 * w).
Proof. exact total_sources. Qed.

(** ** The figure *)

(** Every bar and shade, in every period, from the steps of this period. *)
Theorem C87_figure : forall c ppf sort craters basins stream unseeded seeds,
  module_sane c ppf sort craters basins stream unseeded ->
  Forall (fun s => (0 <= s)%Z) seeds -> seeds <> [] ->
  exists time t fig,
    get_time_array (r_rnd c) (r_start c) (r_end c) (r_step c) = Ok time /\
    get_ice_ast_comet_seeds c ppf sort craters basins stream unseeded seeds = Ok t /\
    plot_by_module c ppf sort craters basins stream unseeded seeds = Ok fig /\
    Forall2 (fun p e => fst e = fst p /\
      Forall2 (fun n m => exists xs, Forall2 (shown t n) (steps_of time p) xs /\ drawn n xs m) shown_names (snd e)) periods fig.
Proof. exact figure_ok. Qed.

(** A bar lies between the ends of its error bars, up to the least length of an error bar. *)
Theorem C87_bars : forall n xs m, drawn n xs m -> ~ In n depths -> xs <> [] ->
  exists h down up, m = Bar n (Some h) (Some down) (Some up) /\ 0 < down /\ 0 <= up /\
    Forall (fun x => h - down <= x <= h + up) xs /\ (Forall (fun x => 0 <= x) xs -> 0 <= h).
Proof.
  intros n xs m [[I _]|[(_ & E & _)|(_ & _ & lo & hi & [I1 Lo] & [I2 Hi] & ->)]] N Ne; try tauto.
  exists (mean xs), (Rmax (mean xs - lo) (1 / 1000000000)), (hi - mean xs). split; [reflexivity|].
  pose proof (Rmax_l (mean xs - lo) (1 / 1000000000)). pose proof (Rmax_r (mean xs - lo) (1 / 1000000000)).
  assert (B : lo <= mean xs <= hi) by (apply mean_bounds; auto; apply Forall_forall; auto).
  split; [lra|]. split; [lra|]. split.
  - apply Forall_forall. intros x Ix. specialize (Lo x Ix). specialize (Hi x Ix). lra.
  - intros P. rewrite Forall_forall in P. specialize (P lo I1). lra.
Qed.

(** The heights of the bars times the numbers of steps add up to the ice of all steps that
    are not older than 4.26 Gyr: no such step is lost or counted twice, older ones are. *)
Theorem C87_conserved : forall c ppf sort craters basins stream unseeded seeds n j,
  module_sane c ppf sort craters basins stream unseeded ->
  Forall (fun s => (0 <= s)%Z) seeds -> seeds <> [] -> nth_error shown_names j = Some n ->
  exists time t fig marks xs,
    get_time_array (r_rnd c) (r_start c) (r_end c) (r_step c) = Ok time /\
    get_ice_ast_comet_seeds c ppf sort craters basins stream unseeded seeds = Ok t /\
    plot_by_module c ppf sort craters basins stream unseeded seeds = Ok fig /\
    Forall2 (fun e m => nth_error (snd e) j = Some m) fig marks /\
    Forall2 (shown t n) (steps_within time 0 (426 / 100)) xs /\
    Rsum (map (fun '(p, m) => INR (length (steps_of time p)) * or0 (height m)) (combine periods marks)) = Rsum xs.
Proof.
  intros c ppf sort craters basins stream unseeded seeds n j H Hs Hn Hj.
  destruct (figure_form _ _ _ _ _ _ _ _ H Hs Hn) as (time & t & g & H1 & H2 & H3 & H4).
  exists time, t. eexists.
  exists (map (fun p => let l := map (g n) (steps_of time p) in mark_of (n, (agg_mean l, agg_min l, agg_max l))) periods), (map (g n) (steps_within time 0 (426 / 100))).
  split; [exact H1|]. split; [exact H2|]. split; [exact H4|]. split; [|split].
  - generalize periods. induction l as [|p l IH]; [constructor|]. cbn [map]. constructor; [|exact IH]. cbn [snd].
    rewrite nth_error_map, Hj. reflexivity.
  - assert (In_ : In n shown_names) by (eapply nth_error_In; eauto).
    assert (I : forall i, In i (steps_within time 0 (426 / 100)) -> (i < length time)%nat).
    { intros i Hi. apply filter_In in Hi as [Hi _]. apply in_seq in Hi. lia. }
    induction (steps_within time 0 (426 / 100)) as [|i l IH]; [constructor|]. cbn [map]. constructor; [|apply IH; intros; apply I; now right].
    apply H3; auto. apply I. now left.
  - rewrite <- (heights_sum time (g n)). f_equal. generalize periods. induction l as [|p l IH]; [reflexivity|]. cbn [map combine].
    apply f_equal2; [|exact IH]. f_equal. unfold mark_of. destruct (existsb _ _); reflexivity.
Qed.

(** A negative seed stops the figure; without seeds it is empty. *)
Theorem C87_seeds : forall c ppf sort craters basins stream unseeded,
  module_sane c ppf sort craters basins stream unseeded ->
  (forall seeds, Exists (fun s => (s < 0)%Z) seeds -> plot_by_module c ppf sort craters basins stream unseeded seeds = Err ValueError) /\
  exists fig, plot_by_module c ppf sort craters basins stream unseeded [] = Ok fig /\ map fst fig = map fst periods /\
    Forall (fun e => Forall (fun m => height m = None) (snd e)) fig.
Proof.
  intros c ppf sort craters basins stream unseeded H. split; [intros; now apply negative_seed|].
  eexists. split; [now apply no_seeds|]. split; [reflexivity|]. repeat constructor.
Qed.

(** The depth of ballistic sedimentation of a seed is the mean over the cold traps of depth
    times melted part (C54). *)
Theorem C87_mixing : forall c ppf sort craters basins stream unseeded time s t,
  module_sane c ppf sort craters basins stream unseeded ->
  time <> [] -> seed_table ppf sort craters basins stream c time s = Ok t ->
  exists df k dists depth_rows melt_rows,
    get_crater_basin_list c ppf sort craters basins (stream s) 0%nat = Ok (df, k) /\
    get_coldtrap_dists (r_ejthr c) (r_basinthr c) (r_names c) (map site_of df) = Ok dists /\
    get_bsed_depth (crat (r_i c)) (r_bsed c) (r_melt c) (r_min c) (r_tol c) (length (r_names c)) time (map site_of df) dists = Ok (depth_rows, melt_rows) /\
    forall i, (i < length time)%nat -> exists ds ms,
      nth_error depth_rows i = Some (map Some ds) /\ nth_error melt_rows i = Some (map Some ms) /\
      length ds = length (r_names c) /\ length ms = length (r_names c) /\
      entry t "Ballistic sed depth" i (mean (map (fun '(d, m) => d * m) (combine ds ms))).
Proof. exact mixing_of_seed. Qed.

(** Micrometeorites: those of asteroids and those of comets, without chance. *)
Theorem C87_micrometeorites : forall c ppf sort craters basins stream unseeded seeds t time mm com,
  module_sane c ppf sort craters basins stream unseeded ->
  Forall (fun s => (0 <= s)%Z) seeds -> seeds <> [] ->
  get_ice_ast_comet_seeds c ppf sort craters basins stream unseeded seeds = Ok t ->
  get_time_array (r_rnd c) (r_start c) (r_end c) (r_step c) = Ok time ->
  get_micrometeorite_ice (r_i c) time = Ok mm -> get_micrometeorite_ice (get_comet_cfg (r_i c)) time = Ok com ->
  forall i, (i < length time)%nat -> exists v w, nth_error mm i = Some v /\ nth_error com i = Some w /\
    entry t "Micrometeorite ice" i (v + w).
Proof. exact micro_source. Qed.

(** ** A concrete figure: the default values, one crater, one basin; with comets or without. *)
Definition mcfg (comets : bool) : rcfg :=
  mk_rcfg (with_flags ICFG0 comets true) ["Faustini"%string] 4250000000 0 10000000 (1 / 1000000) (1 / 10) 4 5 bcfg0 zero_table
    1 true true [(0, 7 / 10); (457 / 100, 1)] (fun _ => Some (54 / 1000)) (fun x => x).
Lemma mcfg_sane comets : module_sane (mcfg comets) lin_ppf isort_age [faustini] [basin_b] (fun _ => tape0) tape0.
Proof.
  constructor.
  - destruct C63_default_sane as (A & B & C). constructor.
    + destruct A. constructor; auto.
    + apply (C [(0, 7 / 10); (457 / 100, 1)]); [discriminate| |]; repeat constructor; cbn; lra.
    + exact B.
    + intros _ n _. exists (54 / 1000). split; [reflexivity|lra].
  - exact (rcfg0_bsed true).
  - discriminate.
  - repeat constructor; cbn; intuition discriminate.
  - cbn. lia.
  - cbn. lia.
  - exact lin_support.
  - exact isort_age_ok.
  - split; intros; intro; unfold tape0; lra.
Qed.
Lemma mcfg_time comets : exists time, get_time_array (r_rnd (mcfg comets)) (r_start (mcfg comets)) (r_end (mcfg comets)) (r_step (mcfg comets)) = Ok time /\
  length time = Z.to_nat 425 /\ forall i, (i < Z.to_nat 425)%nat -> nth_error time i = Some (4250000000 - INR i * 10000000).
Proof. exact (time_array_axis 4250000000 10000000 425 ltac:(lia) ltac:(lia) ltac:(lia)). Qed.

Example C87_case : exists fig, plot_by_module (mcfg true) lin_ppf isort_age [faustini] [basin_b] (fun _ => tape0) tape0 [0; 1; 7]%Z = Ok fig /\
  map fst fig = ["Pre-Nec."; "Nec."; "Imb."; "Era."; "Cop."]%string.
Proof.
  destruct (C87_figure _ _ _ _ _ _ _ [0; 1; 7]%Z (mcfg_sane true)) as (time & t & fig & _ & _ & E & F); [repeat constructor; lia|discriminate|].
  exists fig. split; [exact E|]. change ["Pre-Nec."; "Nec."; "Imb."; "Era."; "Cop."]%string with (map fst periods).
  clear E. induction F as [|p e l l' [Q _] F IH]; [reflexivity|]. cbn [map]. now rewrite Q, IH.
Qed.

(** The volcanic ice (and the solar wind ice) of the figure is twice that of any run. *)
Theorem C87_volcanic_refuted : ~ (forall c ppf sort craters basins stream unseeded seeds t time volc,
  module_sane c ppf sort craters basins stream unseeded ->
  Forall (fun s => (0 <= s)%Z) seeds -> seeds <> [] ->
  get_ice_ast_comet_seeds c ppf sort craters basins stream unseeded seeds = Ok t ->
  get_time_array (r_rnd c) (r_start c) (r_end c) (r_step c) = Ok time ->
  get_volcanic_ice (r_i c) time = Ok volc ->
  forall i v, nth_error volc i = Some v -> entry t "Volcanic ice" i v).
Proof.
  intros C. pose proof (mcfg_sane true) as H. destruct (mcfg_time true) as (time & Et & Lt & Nt).
  destruct (C87_table _ _ _ _ _ _ _ [0]%Z H) as (time' & t & _ & _ & Et' & E & _); [repeat constructor; lia|discriminate|].
  destruct (volc_ok (r_i (mcfg true)) time) as (volc & Ev & _); [apply H..|].
  destruct (solar_ok (r_i (mcfg true)) (r_lum (mcfg true)) time) as (sw & Ew & _); [apply H..|].
  destruct (C87_twice _ _ _ _ _ _ _ [0]%Z t time volc sw H ltac:(repeat constructor; lia) ltac:(discriminate) E Et Ev Ew 35%nat ltac:(rewrite Lt; lia))
    as (v & w & d & Hv & _ & _ & En & _).
  specialize (C _ _ _ _ _ _ _ [0]%Z t time volc H ltac:(repeat constructor; lia) ltac:(discriminate) E Et Ev 35%nat v Hv).
  pose proof (entry_unique _ _ _ _ _ En C) as Q.
  assert (P : 0 < v); [|lra].
  unfold get_volcanic_ice in Ev. change (volc_mode (r_i (mcfg true))) with "Head"%string in Ev. cbn [String.eqb Ascii.eqb Bool.eqb bind] in Ev.
  rewrite mapM_thickness in Ev by (left; reflexivity). injection Ev as <-.
  destruct (volc_head_nth (r_i (mcfg true)) time 35 _ (Nt 35%nat ltac:(lia))) as (m & Hm & _ & He & _).
  pose proof (eq_trans (eq_sym Hv) (map_nth_error (fun m => m * hop_effcy (r_i (mcfg true)) / ice_density (r_i (mcfg true)) / area (r_i (mcfg true))) 35 _ Hm)) as Hq.
  assert (Inj : forall a b : R, Some a = Some b -> a = b) by congruence. apply Inj in Hq. rewrite Hq.
  assert (T : 4250000000 - INR 35 * 10000000 = 3900000000) by (cbn; lra). rewrite T in He.
  cbn [mcfg r_i with_flags ICFG0 volc_late volc_early fst snd] in He. rewrite He by lra.
  unfold volc_rate_early, volc_ice_total, area. cbn -[Rmult Rdiv Rplus IZR]. lra.
Qed.

(** With comets switched off (impact_ice_comets) the figure shows their ice all the same. *)
Theorem C87_comets_off_refuted : ~ (forall c ppf sort craters basins stream unseeded seeds t time mm,
  module_sane c ppf sort craters basins stream unseeded ->
  Forall (fun s => (0 <= s)%Z) seeds -> seeds <> [] -> comets_on (r_i c) = false ->
  get_ice_ast_comet_seeds c ppf sort craters basins stream unseeded seeds = Ok t ->
  get_time_array (r_rnd c) (r_start c) (r_end c) (r_step c) = Ok time ->
  get_micrometeorite_ice (r_i c) time = Ok mm ->
  forall i v, nth_error mm i = Some v -> entry t "Micrometeorite ice" i v).
Proof.
  intros C. pose proof (mcfg_sane false) as H. destruct (mcfg_time false) as (time & Et & Lt & Nt).
  destruct (C87_table _ _ _ _ _ _ _ [0]%Z H) as (time' & t & _ & _ & Et' & E & _); [repeat constructor; lia|discriminate|].
  destruct (micro_ok (r_i (mcfg false)) time) as (mm & Em & _); [apply H|].
  destruct (micro_ok (get_comet_cfg (r_i (mcfg false))) time) as (com & Ec & _); [apply sane_comet, H|].
  destruct (C87_micrometeorites _ _ _ _ _ _ _ [0]%Z t time mm com H ltac:(repeat constructor; lia) ltac:(discriminate) E Et Em Ec 0%nat ltac:(rewrite Lt; lia))
    as (v & w & Hv & Hw & En).
  specialize (C _ _ _ _ _ _ _ [0]%Z t time mm H ltac:(repeat constructor; lia) ltac:(discriminate) eq_refl E Et Em 0%nat v Hv).
  pose proof (entry_unique _ _ _ _ _ En C) as Q.
  assert (P : 0 < w); [|lra].
  unfold get_micrometeorite_ice in Ec. rewrite mapM_thickness in Ec by (left; reflexivity). injection Ec as <-.
  rewrite !nth_error_map, (Nt 0%nat ltac:(lia)) in Hw. cbn [option_map] in Hw. injection Hw as <-.
  unfold ice_micrometeorites. pose proof (scaling_pos (4250000000 - INR 0 * 10000000)) as Sp.
  set (f := impact_flux_scaling _) in *. clearbody f. unfold area. cbn -[Rmult Rdiv Rplus IZR]. lra.
Qed.

(** What the legend calls the maximum of a depth is the mean of the period. *)
Theorem C87_max_refuted : ~ (forall c ppf sort craters basins stream unseeded seeds fig t era marks d i x,
  module_sane c ppf sort craters basins stream unseeded ->
  Forall (fun s => (0 <= s)%Z) seeds -> seeds <> [] ->
  plot_by_module c ppf sort craters basins stream unseeded seeds = Ok fig ->
  get_ice_ast_comet_seeds c ppf sort craters basins stream unseeded seeds = Ok t ->
  forall time, get_time_array (r_rnd c) (r_start c) (r_end c) (r_step c) = Ok time ->
  In (era, marks) fig -> In (Shade "Max Gardening depth" (Some d)) marks ->
  forall lo hi, In (era, (lo, hi)) periods -> In i (steps_within time lo hi) -> entry t "Gardening depth" i x -> x <= d).
Proof.
  intros C. pose proof (mcfg_sane true) as H. destruct (mcfg_time true) as (time & Et & Lt & Nt).
  destruct (C87_figure _ _ _ _ _ _ _ [0]%Z H) as (time' & t & fig & Et' & E & Ef & F); [repeat constructor; lia|discriminate|].
  rewrite Et in Et'. injection Et' as <-.
  destruct (volc_ok (r_i (mcfg true)) time) as (volc & Ev & _); [apply H..|].
  destruct (solar_ok (r_i (mcfg true)) (r_lum (mcfg true)) time) as (sw & Ew & _); [apply H..|].
  assert (Dep : forall i x, (i < Z.to_nat 425)%nat -> 3000000000 <= 4250000000 - INR i * 10000000 -> entry t "Gardening depth" i x ->
     x = 9 / 100 * (1 + 1 / 1000000000 * (1250000000 - INR i * 10000000))).
  { intros i x Hi Ho Hx.
    destruct (C87_twice _ _ _ _ _ _ _ [0]%Z t time volc sw H ltac:(repeat constructor; lia) ltac:(discriminate) E Et Ev Ew i ltac:(rewrite Lt; exact Hi))
      as (_ & _ & d & _ & _ & Hd & _ & _ & En). rewrite (entry_unique _ _ _ _ _ Hx En).
    destruct (overturn_shape (r_i (mcfg true)) time i _ d eq_refl ltac:(cbn; lra) ltac:(cbn; lra) (Nt i Hi) Hd) as (_ & _ & Q).
    change (overturn_t0 (r_i (mcfg true))) with 3000000000 in Q. change (overturn_present (r_i (mcfg true))) with (9 / 100) in Q.
    change (overturn_slope (r_i (mcfg true))) with (1 / 1000000000) in Q. rewrite (Q Ho). lra. }
  inversion F as [|p e ps fs [Qe M] F']; subst. destruct e as [era marks]. cbn [fst snd] in Qe, M. subst era.
  do 5 (let K := fresh in inversion M as [|? ? ? ? _ K]; subst; clear M; rename K into M).
  inversion M as [|n m ? ? (xs & Sx & Dx) _]; subst. clear M.
  assert (St : forall i, In i (steps_of time ("Pre-Nec."%string, (397 / 100, 426 / 100))) <-> (i < 28)%nat).
  { intros i. unfold steps_of, steps_within. cbn [fst snd]. rewrite filter_In, in_seq, Lt.
    split.
    - intros [[_ Hi] Q]. rewrite (Nt i Hi), andb_true_iff, Rltb_true, Rleb_true in Q. destruct Q as [Q _].
      apply INR_lt. replace (INR 28) with 28 by (cbn; lra). lra.
    - intros Hi. split; [split; [lia|]; simpl Nat.add; lia|]. rewrite (Nt i) by lia. rewrite andb_true_iff, Rltb_true, Rleb_true.
      pose proof (pos_INR i). apply le_INR in Hi. rewrite S_INR in Hi. replace (INR 28) with 28 in Hi by (cbn; lra). lra. }
  assert (Ex : forall i, In i (steps_of time ("Pre-Nec."%string, (397 / 100, 426 / 100))) -> exists x, In x xs /\ shown t "Gardening depth" i x).
  { clear -Sx. induction Sx as [|i x l l' Hx Sx IH]; [intros i []|]. intros j [<-|Hj]; [exists x; cbn; auto|]. destruct (IH j Hj) as (y & I & Y). exists y. cbn; auto. }
  assert (Ey : forall x, In x xs -> exists i, In i (steps_of time ("Pre-Nec."%string, (397 / 100, 426 / 100))) /\ shown t "Gardening depth" i x).
  { clear -Sx. induction Sx as [|i x l l' Hx Sx IH]; [intros i []|]. intros y [<-|Hy]; [exists i; cbn; auto|]. destruct (IH y Hy) as (j & I & Y). exists j. cbn; auto. }
  assert (Sh : forall i x, shown t "Gardening depth" i x -> entry t "Gardening depth" i x).
  { intros i x [[Q _]|[[Q _]|[_ Q]]]; [discriminate..|exact Q]. }
  assert (Va : forall i x, (i < 28)%nat -> entry t "Gardening depth" i x -> x = 9 / 100 * (1 + 1 / 1000000000 * (1250000000 - INR i * 10000000))).
  { intros i x Hi Hx. apply Dep; [lia| |exact Hx]. apply le_INR in Hi. rewrite S_INR in Hi. replace (INR 28) with 28 in Hi by (cbn; lra). lra. }
  destruct (Ex 0%nat) as (x0 & I0 & S0); [apply St; lia|]. destruct (Ex 1%nat) as (x1 & I1 & S1); [apply St; lia|].
  apply Sh in S0, S1. pose proof (Va 0%nat x0 ltac:(lia) S0) as V0. pose proof (Va 1%nat x1 ltac:(lia) S1) as V1. cbn [INR] in V0, V1.
  assert (Me : mean xs < x0).
  { apply mean_lt.
    - apply Forall_forall. intros z Iz. destruct (Ey z Iz) as (i & Ii & Si). apply St in Ii. apply Sh in Si. rewrite (Va i z Ii Si), V0.
      pose proof (pos_INR i). nra.
    - apply Exists_exists. exists x1. split; [exact I1|]. lra. }
  destruct Dx as [[_ Dm]|[[N _]|[N _]]]; [|exfalso; apply N; cbn; auto..].
  assert (Ne : match xs with [] => None | _ :: _ => Some (mean xs) end = Some (mean xs)) by (destruct xs; [destruct I0|reflexivity]). rewrite Ne in Dm.
  enough (x0 <= mean xs) by lra.
  eapply (C _ _ _ _ _ _ _ [0]%Z _ t "Pre-Nec."%string _ (mean xs) 0%nat x0 H ltac:(repeat constructor; lia) ltac:(discriminate) Ef E time Et).
  - left. reflexivity.
  - do 5 right. left. exact Dm.
  - left. reflexivity.
  - apply (St 0%nat). lia.
  - exact S0.
Qed.

Print Assumptions C87_table.
Print Assumptions C87_seed.
Print Assumptions C87_twice.
Print Assumptions C87_total.
Print Assumptions C87_figure.
Print Assumptions C87_bars.
Print Assumptions C87_conserved.
Print Assumptions C87_seeds.
Print Assumptions C87_mixing.
Print Assumptions C87_micrometeorites.
Print Assumptions C87_volcanic_refuted.
Print Assumptions C87_comets_off_refuted.
Print Assumptions C87_max_refuted.
