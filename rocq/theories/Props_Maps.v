(** C93: the maps and the figure of distances. *)
From Coq Require Import String List ZArith NArith Nnat Reals Lia Lra Bool Permutation.
From Verif Require Import Base Model_Time Model_Geo Model_Crater Model_Ice Model_Rng Model_Melt Model_Strat Model_Main Model_Basin Model_Grid Model_Maps
  Spec_Time Spec_Geo Spec_Ice Spec_Main Spec_Ages Spec_Grid Spec_Maps
  Proofs_Base Proofs_Time Proofs_Geo Proofs_Crater Proofs_Ice Proofs_Rng Proofs_Scaling Proofs_Main Proofs_Basin Proofs_Ages Proofs_Grid Proofs_FP Proofs_Maps
  Props_Rng Props_Main Props_Grid.
Import ListNotations.
Open Scope R_scope.

(** ** Maps *)

(** On a square grid the maps hold, for each of its points, the ejecta of all lines of both
    files and the age of the youngest line over it. *)
Theorem C93_maps : forall c ppf sort arrange craters basins entropy xsize ysize step xs ys,
  list_sane c ppf sort craters basins entropy -> sorts_sites arrange -> craters ++ basins <> [] ->
  get_grid_arrays (r_rnd c) xsize ysize step = Ok (ys, xs) -> length xs = length ys ->
  exists m, grid_plots c ppf sort arrange craters basins entropy xsize ysize step = Ok m /\ m_x m = xs /\ m_y m = ys /\
    maps_of c ppf craters basins (entropy 1%nat) m.
Proof. exact maps_ok. Qed.

(** With the default grid they are always drawn, with 801 points each way. *)
Theorem C93_default : forall c ppf sort arrange craters basins entropy,
  list_sane c ppf sort craters basins entropy -> sorts_sites arrange -> craters ++ basins <> [] -> r_rnd c = rnd32 ->
  exists m, grid_plots c ppf sort arrange craters basins entropy 400000 400000 1000 = Ok m /\ maps_of c ppf craters basins (entropy 1%nat) m /\
    N.of_nat (length (m_x m)) = 801%N /\ N.of_nat (length (m_y m)) = 801%N /\ forall x y, In x (m_x m) -> In y (m_y m) -> on_moon x y.
Proof.
  intros c ppf sort arrange craters basins entropy S Ar Ne Rn. destruct C75_default as (ys & xs & G & Ly & Lx & On).
  destruct (C93_maps c ppf sort arrange craters basins entropy 400000 400000 1000 xs ys S Ar Ne) as (m & E & X & Y & M); [rewrite Rn; exact G|apply Nat2N.inj; congruence|].
  exists m. rewrite X, Y. auto.
Qed.

(** A grid with sides of different lengths is refused. *)
Theorem C93_rectangular : forall c ppf sort arrange craters basins entropy xsize ysize step xs ys,
  list_sane c ppf sort craters basins entropy -> craters ++ basins <> [] ->
  get_grid_arrays (r_rnd c) xsize ysize step = Ok (ys, xs) -> length xs <> length ys ->
  grid_plots c ppf sort arrange craters basins entropy xsize ysize step = Err ValueError.
Proof.
  intros c ppf sort arrange craters basins entropy xsize ysize step xs ys S Ne G Sq.
  destruct (fresh_total c ppf sort craters basins entropy 0) as (df & Fr). destruct (fresh_rows _ _ _ _ _ _ _ S Fr) as (rows & P & F & _).
  assert (Nd : map site_of df <> []).
  { intros Q. apply map_eq_nil in Q. subst df. apply Permutation_nil in P. subst rows. inversion F as [Q|]. apply Ne. rewrite <- both_snd, <- Q. reflexivity. }
  unfold grid_plots. rewrite Fr. cbn [bind]. rewrite G. cbn [bind]. rewrite <- (map_length site_of df). fold (numbered (map site_of df)).
  unfold get_grid_outputs. rewrite numbered_snd, age_grid_square by assumption. reflexivity.
Qed.

(** The ejecta do not depend on random numbers or on the order of the tables' rows with equal
    ages; nor do they depend on any setting. *)
Theorem C93_ejecta_fixed : forall c c' ppf ppf' sort sort' arrange arrange' craters basins entropy entropy' xsize ysize step m m',
  list_sane c ppf sort craters basins entropy -> list_sane c' ppf' sort' craters basins entropy' -> sorts_sites arrange -> sorts_sites arrange' ->
  craters ++ basins <> [] -> r_rnd c = r_rnd c' ->
  grid_plots c ppf sort arrange craters basins entropy xsize ysize step = Ok m ->
  grid_plots c' ppf' sort' arrange' craters basins entropy' xsize ysize step = Ok m' ->
  m_x m = m_x m' /\ m_y m = m_y m' /\ m_ej m = m_ej m'.
Proof.
  intros c c' ppf ppf' sort sort' arrange arrange' craters basins entropy entropy' xsize ysize step m m' S S' Ar Ar' Ne Rn E E'.
  destruct (get_grid_arrays (r_rnd c) xsize ysize step) as [[ys xs]|e] eqn:G.
  2:{ unfold grid_plots in E. rewrite G in E. destruct (fresh_list _ _ _ _ _ _ _); discriminate. }
  destruct (Nat.eq_dec (length xs) (length ys)) as [Sq|Sq]; [|rewrite (C93_rectangular _ _ _ _ _ _ _ _ _ _ _ _ S Ne G Sq) in E; discriminate].
  destruct (C93_maps c ppf sort arrange craters basins entropy xsize ysize step xs ys S Ar Ne G Sq) as (n & F & X & Y & M). rewrite Rn in G.
  destruct (C93_maps c' ppf' sort' arrange' craters basins entropy' xsize ysize step xs ys S' Ar' Ne G Sq) as (n' & F' & X' & Y' & M').
  assert (Inj : forall a b : maps, Ok a = Ok b -> a = b) by congruence. rewrite E in F. rewrite E' in F'. apply Inj in F, F'. subst n n'.
  split; [congruence|]. split; [congruence|]. eapply ej_same; [exact M|exact M'|congruence|congruence].
Qed.

(** Refuted: "the maps are those of the configuration".  Of all settings only dtype, the grid
    and the time step matter: not the thresholds of ejecta, the sizes and densities, the start
    of time or the radius, with which a run makes its own grids (C75). *)
Theorem C93_settings_refuted : forall c c' ppf sort sort' arrange arrange' craters basins entropy entropy' xsize ysize step,
  list_sane c ppf sort craters basins entropy -> list_sane c' ppf sort' craters basins entropy' -> sorts_sites arrange -> sorts_sites arrange' ->
  craters ++ basins <> [] -> r_rnd c = r_rnd c' -> r_step c = r_step c' -> (forall k, entropy 1%nat k = entropy' 1%nat k) ->
  grid_plots c ppf sort arrange craters basins entropy xsize ysize step = grid_plots c' ppf sort' arrange' craters basins entropy' xsize ysize step.
Proof.
  intros c c' ppf sort sort' arrange arrange' craters basins entropy entropy' xsize ysize step S S' Ar Ar' Ne Rn St U.
  destruct (get_grid_arrays (r_rnd c) xsize ysize step) as [[ys xs]|e] eqn:G.
  2:{ unfold grid_plots. destruct (fresh_total c ppf sort craters basins entropy 0) as (df & ->). destruct (fresh_total c' ppf sort' craters basins entropy' 0) as (df' & ->).
      cbn [bind]. rewrite <- Rn, G. reflexivity. }
  pose proof G as G'. rewrite Rn in G'.
  destruct (Nat.eq_dec (length xs) (length ys)) as [Sq|Sq].
  - destruct (C93_maps c ppf sort arrange craters basins entropy xsize ysize step xs ys S Ar Ne G Sq) as (n & -> & X & Y & M).
    destruct (C93_maps c' ppf sort' arrange' craters basins entropy' xsize ysize step xs ys S' Ar' Ne G' Sq) as (n' & -> & X' & Y' & M').
    f_equal. apply maps_eta; [congruence|congruence|eapply age_same; eauto; congruence|eapply ej_same; eauto; congruence].
  - rewrite (C93_rectangular _ _ _ _ _ _ _ _ _ _ _ _ S Ne G Sq). symmetry. eapply C93_rectangular; eauto.
Qed.

(** *** A concrete map: a crater at the pole and a grid of three by three points. *)
Definition older (w : raw) (a : R) : raw := mk_raw (w_name w) (w_lat w) (w_lon w) (w_psr_lat w) (w_psr_lon w) (w_diam w) a (w_low w) (w_upp w).
Definition same (x : R) : nat -> tape := fun _ _ => x.
Definition narrow : rcfg :=
  let c := rcfg0 true in
  mk_rcfg (r_i c) (r_names c) (r_start c) (r_end c) (r_step c) (r_tol c) (r_min c) 0 0 (r_bsed c) (r_melt c)
    (r_shield c) (r_after_age c) (r_ejecta_basins c) (r_lum c) (r_bhop c) (r_rnd c).
Lemma pole_sane c a x : (0 < r_step c)%Z -> 0 <= x < 1 -> list_sane c lin_ppf isort_age [older faustini a] [] (same x).
Proof.
  intros H Hx. constructor; [exact isort_age_ok|exact lin_support|intros k i; exact Hx|exact H|]. repeat constructor; cbn; lra.
Qed.
Lemma pole_grid c ppf sort arrange craters basins entropy : list_sane c ppf sort craters basins entropy -> sorts_sites arrange -> craters ++ basins <> [] -> r_rnd c = (fun x => x) ->
  exists m, grid_plots c ppf sort arrange craters basins entropy 30000 30000 30000 = Ok m /\ maps_of c ppf craters basins (entropy 1%nat) m /\ In 0 (m_x m) /\ In 30000 (m_y m).
Proof.
  intros S Ar Ne Rn. assert (K : keeps_integers (r_rnd c)) by (rewrite Rn; intros z _; reflexivity).
  destruct (C75_axes (r_rnd c) 30000 30000 30000 K) as (ys & xs & G & Ly & Lx); try lia.
  destruct (C75_extent (r_rnd c) 30000 30000 30000 ys xs K) as (_ & _ & _ & Y & _ & _ & L1 & L2); try lia; try exact G; try (exists 2%Z; reflexivity).
  destruct (C93_maps c ppf sort arrange craters basins entropy 30000 30000 30000 xs ys S Ar Ne G) as (m & E & X1 & Y1 & M); [congruence|].
  exists m. split; [exact E|]. split; [exact M|]. rewrite X1, Y1. split; [|exact Y]. apply Lx. exists 0%Z. split; [reflexivity|]. split; [lia|]. exists 1%Z. reflexivity.
Qed.
Lemma pole_away a : 30000 <= away (older faustini a) 0 30000 <= 60000.
Proof.
  pose proof (polar_dist 1737400 30000 ltac:(lra) ltac:(lra) ltac:(lra)) as D. unfold away, older, faustini. cbn [w_lon w_lat].
  destruct (xy2latlon 1737400 0 30000) as [lat lon]. replace (- (90)) with (-90) by lra. lra.
Qed.
Lemma pole_covers a : covers (false, older faustini a) 0 30000.
Proof.
  pose proof (pole_away a). unfold covers, on_moon, reach, radius. cbn [fst snd]. split; [lra|]. cbn [older faustini w_diam]. lra.
Qed.
Lemma pole_laid a h : laid (false, older faustini a) 0 30000 h -> 0 < h.
Proof.
  pose proof (pole_away a). assert (Rd : radius (snd (false, older faustini a)) = 20500) by (unfold radius; cbn [snd older faustini w_diam]; lra).
  unfold laid, on_moon. cbv zeta. rewrite Rd. cbn [fst snd reach]. intros [[_ ->]|[N _]]; [|destruct N; split; lra].
  apply (thick_law CFG0); [cbn; lra|split; cbn; lra|lra].
Qed.
Lemma shown_point c ppf craters basins u m : maps_of c ppf craters basins u m -> In 0 (m_x m) -> In 30000 (m_y m) ->
  exists h a, shown m (m_ej m) 0 30000 h /\ shown m (m_age m) 0 30000 a /\
    (exists hs, h = Rsum hs /\ Forall2 (fun t h => laid t 0 30000 h) (both craters basins) hs) /\
    ((a = 425 / 100 /\ forall t, In t (both craters basins) -> ~ covers t 0 30000) \/
     (exists k t, nth_error (both craters basins) k = Some t /\ covers t 0 30000 /\ a = age_from c ppf (snd t) (u k))).
Proof.
  intros [_ Ej Ag] X Y. apply In_nth_error in X as (j & Hx). apply In_nth_error in Y as (i & Hy).
  destruct (Ej i j _ _ Hy Hx) as (row & hs & H1 & H2 & H3). destruct (Ag i j _ _ Hy Hx) as (row' & a & H1' & H2' & H3').
  exists (Rsum hs), a. split; [exists i, j, row; auto|]. split; [exists i, j, row'; auto|]. split; [eauto|].
  destruct H3' as [H|(k & t & K1 & K2 & K3 & _)]; [left; exact H|right; exists k, t; auto].
Qed.
Lemma pole_shown c a x : (0 < r_step c)%Z -> 0 <= x < 1 -> r_rnd c = (fun x => x) ->
  exists m h, grid_plots c lin_ppf isort_age isort_site [older faustini a] [] (same x) 30000 30000 30000 = Ok m /\
    shown m (m_ej m) 0 30000 h /\ 0 < h /\ shown m (m_age m) 0 30000 (age_from c lin_ppf (older faustini a) x).
Proof.
  intros St Hx Rn. destruct (pole_grid c lin_ppf isort_age isort_site [older faustini a] [] (same x) (pole_sane c a x St Hx) isort_site_ok ltac:(discriminate) Rn) as (m & E & M & X & Y).
  destruct (shown_point _ _ _ _ _ _ M X Y) as (h & v & Sh & Sa & (hs & -> & F) & D). exists m, (Rsum hs). split; [exact E|]. split; [exact Sh|].
  unfold both in F, D. cbn [map app] in F, D. inversion F as [|? h0 ? ? L F']; subst. inversion F'; subst. split.
  - apply pole_laid in L. cbn [Rsum fold_right]. lra.
  - destruct D as [[_ N]|(k & t & K1 & _ & ->)]; [destruct (N _ (or_introl eq_refl) (pole_covers a))|].
    destruct k as [|[|k]]; cbn in K1; try discriminate. assert (t = (false, older faustini a)) as -> by congruence. exact Sa.
Qed.
Example C93_case : exists m h, grid_plots (rcfg0 true) lin_ppf isort_age isort_site [faustini] [] (same (1 / 2)) 30000 30000 30000 = Ok m /\
  shown m (m_ej m) 0 30000 h /\ 0 < h.
Proof. destruct (pole_shown (rcfg0 true) (35 / 10) (1 / 2) eq_refl ltac:(lra) eq_refl) as (m & h & E & S & H & _). exists m, h. auto. Qed.
Example C93_case_rectangular : exists ys xs, get_grid_arrays (fun x => x) 10 20 10 = Ok (ys, xs) /\ length xs <> length ys.
Proof. eexists. eexists. split; [reflexivity|]. cbn. discriminate. Qed.

(** Refuted: "no ejecta is shown beyond the threshold of the configuration".  Here nothing is
    within the thresholds, and a run puts no ejecta anywhere. *)
Theorem C93_threshold_refuted : exists c ppf sort arrange craters basins entropy m x y h,
  list_sane c ppf sort craters basins entropy /\ sorts_sites arrange /\
  grid_plots c ppf sort arrange craters basins entropy 30000 30000 30000 = Ok m /\ shown m (m_ej m) x y h /\ 0 < h /\
  forall t, In t (both craters basins) -> (if fst t then r_basinthr c else r_ejthr c) * radius (snd t) < away (snd t) x y.
Proof.
  destruct (pole_shown narrow (35 / 10) (1 / 2) eq_refl ltac:(lra) eq_refl) as (m & h & E & S & H & _).
  exists narrow, lin_ppf, isort_age, isort_site, [older faustini (35 / 10)], [], (same (1 / 2)), m, 0, 30000, h.
  split; [apply pole_sane; [reflexivity|lra]|]. split; [exact isort_site_ok|]. split; [exact E|]. split; [exact S|]. split; [exact H|].
  intros t [<-|[]]. cbn [fst snd narrow r_ejthr]. pose proof (pole_away (35 / 10)). lra.
Qed.

(** Ages of the crater for the random number 1/2, and for 0. *)
Lemma pole_age c a x z : r_step c = 10000000%Z -> (a - 1 / 10 + x * (2 / 10)) * 100 = IZR z -> age_from c lin_ppf (older faustini a) x = IZR z / 100.
Proof.
  intros Es Hz. unfold age_from, new_age. rewrite Es. cbv zeta. unfold lin_ppf, trunc_a, trunc_b.
  set (r := read_row false "no" (older faustini a)). assert (Hs : age_sig r = 50000000) by (unfold r, age_sig; cbn [read_row c_low c_upp older faustini w_low w_upp]; lra).
  assert (E : c_age r + age_sig r * (- c_low r / age_sig r + x * (c_upp r / age_sig r - - c_low r / age_sig r)) = IZR z * 10000000).
  { rewrite Hs. unfold r. cbn [read_row c_low c_upp c_age older faustini w_low w_upp w_age]. rewrite <- Hz. field. }
  rewrite E. destruct (round_to_ts_spec (IZR z * 10000000) 10000000 ltac:(lra)) as (_ & _ & Q & _). rewrite (Q z) by reflexivity. field.
Qed.
Lemma shown_unique m g x y v v' : NoDup (m_x m) -> NoDup (m_y m) -> shown m g x y v -> shown m g x y v' -> v = v'.
Proof.
  intros Nx Ny (i & j & r & A1 & A2 & A3 & A4) (i' & j' & r' & B1 & B2 & B3 & B4).
  assert (i = i') as <- by (eapply (proj1 (NoDup_nth_error (m_y m)) Ny); [apply nth_error_Some; congruence|congruence]).
  assert (j = j') as <- by (eapply (proj1 (NoDup_nth_error (m_x m)) Nx); [apply nth_error_Some; congruence|congruence]). congruence.
Qed.

(** Refuted: "ages start at 4.25 Ga".  A line can be older and is shown with its own age. *)
Theorem C93_start_refuted : exists c ppf sort arrange craters basins entropy m x y a,
  list_sane c ppf sort craters basins entropy /\ sorts_sites arrange /\
  grid_plots c ppf sort arrange craters basins entropy 30000 30000 30000 = Ok m /\ shown m (m_age m) x y a /\ 425 / 100 < a.
Proof.
  destruct (pole_shown (rcfg0 true) (44 / 10) (1 / 2) eq_refl ltac:(lra) eq_refl) as (m & h & E & _ & _ & A).
  exists (rcfg0 true), lin_ppf, isort_age, isort_site, [older faustini (44 / 10)], [], (same (1 / 2)), m, 0, 30000, (440 / 100).
  split; [apply pole_sane; [reflexivity|lra]|]. split; [exact isort_site_ok|]. split; [exact E|].
  rewrite (pole_age _ _ _ 440) in A; [split; [exact A|lra]|reflexivity|lra].
Qed.

(** Refuted: "the map of ages of a configuration is always the same".  Its list is made
    without the seed of the configuration. *)
Theorem C93_unseeded_refuted : exists c ppf sort arrange craters basins entropy entropy' m m',
  list_sane c ppf sort craters basins entropy /\ list_sane c ppf sort craters basins entropy' /\ sorts_sites arrange /\
  grid_plots c ppf sort arrange craters basins entropy 30000 30000 30000 = Ok m /\
  grid_plots c ppf sort arrange craters basins entropy' 30000 30000 30000 = Ok m' /\ m_age m <> m_age m'.
Proof.
  destruct (pole_shown (rcfg0 true) (35 / 10) 0 eq_refl ltac:(lra) eq_refl) as (m & h & E & _ & _ & A).
  destruct (pole_shown (rcfg0 true) (35 / 10) (1 / 2) eq_refl ltac:(lra) eq_refl) as (m' & h' & E' & _ & _ & A').
  rewrite (pole_age _ _ _ 340) in A; [|reflexivity|lra]. rewrite (pole_age _ _ _ 350) in A'; [|reflexivity|lra].
  exists (rcfg0 true), lin_ppf, isort_age, isort_site, [older faustini (35 / 10)], [], (same 0), (same (1 / 2)), m, m'.
  pose proof (pole_sane (rcfg0 true) (35 / 10) 0 eq_refl ltac:(lra)) as S. pose proof (pole_sane (rcfg0 true) (35 / 10) (1 / 2) eq_refl ltac:(lra)) as S'.
  split; [exact S|]. split; [exact S'|]. split; [exact isort_site_ok|]. split; [exact E|]. split; [exact E'|]. intros Q.
  destruct (C93_ejecta_fixed _ _ _ _ _ _ _ _ _ _ _ _ _ _ _ _ _ S S' isort_site_ok isort_site_ok ltac:(discriminate) eq_refl E E') as (X & Y & _).
  assert (K : keeps_integers (fun x => x)) by (intros z _; reflexivity).
  destruct (C75_axes (fun x => x) 30000 30000 30000 K) as (ys & xs & G & [Ly _] & [Lx _]); try lia.
  assert (Hm : m_x m' = xs /\ m_y m' = ys).
  { destruct (C75_extent (fun x => x) 30000 30000 30000 ys xs K) as (_ & _ & _ & _ & _ & _ & L1 & L2); try lia; try exact G; try (exists 2%Z; reflexivity).
    destruct (C93_maps (rcfg0 true) lin_ppf isort_age isort_site [older faustini (35 / 10)] [] (same (1 / 2)) 30000 30000 30000 xs ys S' isort_site_ok ltac:(discriminate) G) as (n & F & X1 & Y1 & _); [congruence|].
    assert (Inj : forall a b : maps, Ok a = Ok b -> a = b) by congruence. rewrite E' in F. apply Inj in F. subst n. auto. }
  destruct Hm as [Hx Hy].
  assert (A2 : shown m' (m_age m') 0 30000 (340 / 100)) by (destruct A as (i & j & r & A); exists i, j, r; rewrite X, Y, Q in A; exact A).
  assert (340 / 100 = 350 / 100); [|lra]. eapply shown_unique; [| |exact A2|exact A'].
  - rewrite Hx. clear - Lx. induction Lx as [|a l _ IH F]; constructor; auto. intros I. rewrite Forall_forall in F. specialize (F a I). lra.
  - rewrite Hy. clear - Ly. induction Ly as [|a l _ IH F]; constructor; auto. intros I. rewrite Forall_forall in F. specialize (F a I). lra.
Qed.

(** ** Distances *)

(** The figure: data and law at the distances of the data, the first six cold traps, all
    craters; or the error if a name has no line, or if no crater is outside its rim from a
    cold trap.  Random numbers do not matter. *)
Theorem C93_distances : forall c ppf sort craters basins entropy ries, distances_sane c ppf sort craters basins entropy ->
  let named := forall n, In n (firstn 6 (r_names c)) \/ n = "Amundsen"%string -> has_line craters basins n in
  let seen := exists w n d, In w craters /\ In n (r_names c) /\ gap c craters basins (false, w) n = Some d in
  (named /\ seen /\ exists g, distance_bsed c ppf sort craters basins entropy ries = Ok g /\ distances_of c craters basins ries g) \/
  (~ named /\ distance_bsed c ppf sort craters basins entropy ries = Err IndexError) \/
  (named /\ ~ seen /\ distance_bsed c ppf sort craters basins entropy ries = Err ValueError).
Proof.
  intros c ppf sort craters basins entropy ries S named seen.
  destruct (distances_ok c ppf sort craters basins entropy ries S) as [(g & E & D & _ & H)|[(E & n & I & N)|(E & H & N)]].
  - left. split; [exact H|]. split; [|eauto]. destruct (do_xmax _ _ _ _ _ D) as [(w & n & A & B & C) _]. exists w, n, (h_xmax g). auto.
  - right. left. split; [|exact E]. intros H. exact (N (H n I)).
  - right. right. split; [exact H|]. split; [|exact E]. intros (w & n & d & A & B & C). rewrite N in C by assumption. discriminate.
Qed.

(** With the three as cold traps, the vertical lines are where their labels say. *)
Theorem C93_lines : forall c ppf sort craters basins entropy ries g, distances_sane c ppf sort craters basins entropy ->
  distance_bsed c ppf sort craters basins entropy ries = Ok g -> incl ["Faustini"; "Shoemaker"; "Haworth"]%string (r_names c) ->
  lines_to c craters basins g "Faustini" "Shoemaker" "Haworth".
Proof.
  intros c ppf sort craters basins entropy ries g S E I.
  destruct (distances_ok c ppf sort craters basins entropy ries S) as [(g' & E' & _ & L & _)|[(E' & _)|(E' & _)]]; rewrite E in E'; try discriminate.
  assert (Inj : forall a b : distances, Ok a = Ok b -> a = b) by congruence. apply Inj in E'. subst g'. unfold fixed_target in L.
  destruct (in_dec string_dec "Faustini"%string (r_names c)) as [_|N]; [|destruct N; apply I; cbn; auto].
  destruct (in_dec string_dec "Shoemaker"%string (r_names c)) as [_|N]; [|destruct N; apply I; cbn; auto].
  destruct (in_dec string_dec "Haworth"%string (r_names c)) as [_|N]; [|destruct N; apply I; cbn; auto]. exact L.
Qed.

(** *** A concrete figure: a cold trap at the pole, Amundsen on the equator. *)
Definition amundsen : raw := mk_raw "Amundsen" 0 0 0 0 1 (38 / 10) (1 / 10) (1 / 10).
Lemma two_sane x : 0 <= x < 1 -> distances_sane (rcfg0 true) lin_ppf isort_age [faustini; amundsen] [] (same x).
Proof.
  intros Hx. constructor.
  - constructor; [exact isort_age_ok|exact lin_support|intros k i; exact Hx|reflexivity|]. repeat constructor; cbn; lra.
  - repeat constructor; cbn; intuition discriminate.
  - repeat constructor; cbn [amundsen faustini w_diam]; lra.
Qed.
Lemma two_gap b : gap (rcfg0 true) [faustini; amundsen] [] (b, amundsen) "Faustini" = if b then None else Some (PI * 1737400 / 2).
Proof.
  unfold gap. cbn [app find faustini amundsen w_name String.eqb Ascii.eqb Bool.eqb w_lon w_lat w_psr_lon w_psr_lat fst snd negb]. rewrite quarter. cbv zeta.
  unfold radius. cbn [w_diam fst snd amundsen rcfg0 r_basinthr]. pose proof PI2_3_2. pose proof PI_4.
  assert (Rltb (1 * 1000 / 2) (PI * 1737400 / 2) = true) as -> by (apply Rltb_true; lra). cbn [andb].
  destruct b; cbn [andb]; [|reflexivity]. assert (Rleb 0 5 = true) as -> by (apply Rleb_true; lra).
  assert (Rltb (PI * 1737400 / 2) (5 * (1 * 1000 / 2)) = false) as -> by (apply Rltb_false; lra). reflexivity.
Qed.
Lemma two_figure x ries : 0 <= x < 1 -> exists g, distance_bsed (rcfg0 true) lin_ppf isort_age [faustini; amundsen] [] (same x) ries = Ok g /\
  distances_of (rcfg0 true) [faustini; amundsen] [] ries g.
Proof.
  intros Hx. destruct (C93_distances _ _ _ _ _ _ ries (two_sane x Hx)) as [(_ & _ & H)|[(N & _)|(_ & N & _)]]; [exact H| |].
  - destruct N. intros n [[<-|[]]| ->]; unfold has_line; cbn; auto.
  - destruct N. exists amundsen, "Faustini"%string, (PI * 1737400 / 2). split; [cbn; auto|]. split; [cbn; auto|]. exact (two_gap false).
Qed.
Example C93_case_distances : exists g, distance_bsed (rcfg0 true) lin_ppf isort_age [faustini; amundsen] [] (same (1 / 2)) [mk_ries 26 2 (1 / 2)] = Ok g /\
  h_xmax g = PI * 1737400 / 2.
Proof.
  destruct (two_figure (1 / 2) [mk_ries 26 2 (1 / 2)] ltac:(lra)) as (g & E & D). exists g. split; [exact E|].
  destruct (do_xmax _ _ _ _ _ D) as [(w & n & Iw & [<-|[]] & G) _]. destruct Iw as [<-|[<-|[]]].
  - unfold gap in G. cbn [app find faustini w_name String.eqb Ascii.eqb Bool.eqb fst snd negb andb] in G. discriminate.
  - rewrite (two_gap false) in G. congruence.
Qed.

(** Refuted: "a line drawn for a crater is at the distance of that crater".  A name that is
    not a cold trap gets the line of the first cold trap, here a quarter around the Moon. *)
Theorem C93_lines_refuted : exists c ppf sort craters basins entropy ries g t d,
  distances_sane c ppf sort craters basins entropy /\ distance_bsed c ppf sort craters basins entropy ries = Ok g /\
  In t (both craters basins) /\ w_name (snd t) = "Amundsen"%string /\ gap c craters basins t "Haworth" = None /\
  ~ has_line craters basins "Haworth" /\ gap c craters basins t "Faustini" = Some d /\ In ("Amundsen->Haworth"%string, Some d) (h_lines g).
Proof.
  destruct (distances_ok _ _ _ _ _ _ [] (two_sane (1 / 2) ltac:(lra))) as [(g & E & _ & L & _)|[(E & _)|(E & _)]].
  - exists (rcfg0 true), lin_ppf, isort_age, [faustini; amundsen], [], (same (1 / 2)), [], g, (false, amundsen), (PI * 1737400 / 2).
    split; [apply two_sane; lra|]. split; [exact E|]. split; [cbn; auto|]. split; [reflexivity|]. split; [reflexivity|].
    split; [unfold has_line; cbn; intuition discriminate|]. split; [exact (two_gap false)|].
    destruct L as (t & It & Nt & ->). assert (t = (false, amundsen)) as -> by (destruct It as [<-|[<-|[]]]; [discriminate|reflexivity]).
    right. right. left. change (fixed_target (rcfg0 true) "Haworth") with "Faustini"%string. now rewrite (two_gap false).
  - destruct (two_figure (1 / 2) [] ltac:(lra)) as (g & E' & _). rewrite E in E'. discriminate.
  - destruct (two_figure (1 / 2) [] ltac:(lra)) as (g & E' & _). rewrite E in E'. discriminate.
Qed.

(** Refuted: "the axis of the upper panel is in crater radii", as its label says.  Every point
    is at a distance in m; the column of distances in crater radii is not used. *)
Theorem C93_units_refuted : forall c ppf sort craters basins entropy ries g, distances_sane c ppf sort craters basins entropy ->
  distance_bsed c ppf sort craters basins entropy ries = Ok g ->
  h_xlabel g = "Distance [Crater Radii]"%string /\ map fst (h_ries g) = map (fun e => e_km e * 1000) ries /\ map fst (h_law g) = map fst (h_ries g) /\
  forall n pts x r, In (n, pts) (h_traps g) -> In (Some x, r) pts -> exists t n', In t (both craters basins) /\ gap c craters basins t n' = Some x.
Proof.
  intros c ppf sort craters basins entropy ries g S E.
  destruct (C93_distances c ppf sort craters basins entropy ries S) as [(_ & _ & g' & E' & D)|[(_ & E')|(_ & _ & E')]]; rewrite E in E'; try discriminate.
  assert (Inj : forall a b : distances, Ok a = Ok b -> a = b) by congruence. apply Inj in E'. subst g'. destruct D as [D1 D2 D3 _ _].
  split.
  { unfold distance_bsed in E. destruct (fresh_list _ _ _ _ _ _ _) as [df|]; [|discriminate]. cbn [bind] in E. unfold distance_rows in E.
    repeat match type of E with context [bind ?m _] => destruct m; cbn [bind] in E; [|discriminate] end.
    apply Inj in E. subst g. reflexivity. }
  rewrite D1, D2, !map_map. split; [reflexivity|]. split; [reflexivity|]. intros n pts x r I Ip.
  destruct (Forall2_in_r _ _ _ _ D3 I) as (n' & _ & t & It & _ & Q). assert (pts = ratio_points c craters basins t) as -> by congruence.
  unfold ratio_points in Ip. apply in_map_iff in Ip as (m & Em & _). exists t, m. split; [exact It|]. congruence.
Qed.

Print Assumptions C93_maps.
Print Assumptions C93_default.
Print Assumptions C93_rectangular.
Print Assumptions C93_ejecta_fixed.
Print Assumptions C93_settings_refuted.
Print Assumptions C93_threshold_refuted.
Print Assumptions C93_start_refuted.
Print Assumptions C93_unseeded_refuted.
Print Assumptions C93_distances.
Print Assumptions C93_lines.
Print Assumptions C93_lines_refuted.
Print Assumptions C93_units_refuted.
