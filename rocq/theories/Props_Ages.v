(** C91: the figures of ages. *)
From Coq Require Import String List ZArith Reals Lia Lra Bool Permutation Sorted.
From Verif Require Import Base Model_Time Model_Geo Model_Crater Model_Ice Model_Rng Model_Strat Model_Main Model_Basin Model_Ages
  Spec_Time Spec_Geo Spec_Ice Spec_Main Spec_Basin Spec_Ages
  Proofs_Base Proofs_Time Proofs_Geo Proofs_Ice Proofs_Rng Proofs_Scaling Proofs_Main Proofs_Basin Proofs_Ages Props_Rng Props_Main.
Import ListNotations.
Open Scope R_scope.

(** ** Ages of craters and basins *)

(** The figure has a bar for every line of both files, with random ages, and a star exactly
    for the basins that reach a cold trap.  The periods meet at the ages of two of its bars. *)
Theorem C91_ages : forall c ppf sort craters basins entropy eras dc db,
  ages_sane c ppf sort craters basins entropy ->
  crater_basin_ages c ppf sort craters basins entropy = Ok (eras, dc, db) ->
  ages_figure c ppf craters basins (entropy 1%nat) dc db /\
  (exists u df k, draws u /\ get_crater_basin_list c ppf sort craters basins u 0%nat = Ok (df, k) /\
    Permutation (map b_age (dc ++ db)) (map (fun r => c_age r / 1000000000) df)) /\
  exists nec imb, In nec db /\ b_name nec = "*Nectaris"%string /\ In imb db /\ b_name imb = "Imbrium"%string /\
    eras = [("pNe.", (45 / 10, b_age nec)); ("Ne.", (b_age nec, b_age imb)); ("Im.", (b_age imb, 32 / 10)); ("Era.", (32 / 10, 11 / 10))]%string.
Proof. exact figure_ok. Qed.

(** It is drawn exactly if Nectaris reaches a cold trap and Imbrium reaches none; random
    numbers do not matter. *)
Theorem C91_finishes : forall c ppf sort craters basins entropy,
  ages_sane c ppf sort craters basins entropy ->
  let nec := exists w, In w basins /\ w_name w = "Nectaris"%string /\ throws c craters basins w in
  let imb := exists w, In w basins /\ w_name w = "Imbrium"%string /\ ~ throws c craters basins w in
  (nec /\ imb /\ exists fig, crater_basin_ages c ppf sort craters basins entropy = Ok fig) \/
  (~ (nec /\ imb) /\ crater_basin_ages c ppf sort craters basins entropy = Err KeyError).
Proof. exact figure_finishes. Qed.

Theorem C91_no_traps : forall c ppf sort craters basins entropy,
  sorts_by_age sort -> NoDup (map w_name (craters ++ basins)) -> r_names c = [] -> craters ++ basins <> [] ->
  crater_basin_ages c ppf sort craters basins entropy = Err ValueError.
Proof. exact figure_no_traps. Qed.

(** *** A concrete figure: a crater at the pole and two basins on the equator. *)
Definition nectaris : raw := mk_raw "Nectaris" 0 0 0 0 2000 (38 / 10) (1 / 10) (1 / 10).
Definition imbrium : raw := mk_raw "Imbrium" 0 0 0 0 1 (37 / 10) (1 / 10) (1 / 10).
Definition coins (x : R) : nat -> tape := fun _ _ => x.
Lemma case_sane x : 0 <= x < 1 -> ages_sane (rcfg0 true) lin_ppf isort_age [faustini] [nectaris; imbrium] (coins x).
Proof.
  intros Hx. constructor; [exact isort_age_ok|exact lin_support|intros k i; exact Hx|reflexivity| | | |discriminate|].
  - apply Forall_forall. intros w [<-|[<-|[<-|[]]]]; cbn [faustini nectaris imbrium w_low w_upp]; lra.
  - repeat constructor; cbn; intuition discriminate.
  - apply Forall_forall. intros w [<-|[<-|[<-|[]]]]; cbn [faustini nectaris imbrium w_diam]; lra.
  - apply Forall_forall. intros w [<-|[<-|[]]] s; cbn [nectaris imbrium w_name append]; intros E; discriminate.
Qed.
Lemma nectaris_throws : throws (rcfg0 true) [faustini] [nectaris; imbrium] nectaris.
Proof.
  exists faustini. split; [now left|]. split; [now left|]. unfold ejecta_at.
  cbn [read_row c_rest d_name d_lon d_lat d_plon d_plat d_rad d_basin faustini nectaris w_name w_lon w_lat w_psr_lon w_psr_lat w_diam String.eqb Ascii.eqb Bool.eqb].
  rewrite quarter. cbn [rcfg0 r_basinthr r_i]. pose proof PI2_3_2. pose proof PI_4. cbv zeta.
  assert (Rltb (2000 * 1000 / 2) (PI * 1737400 / 2) = true) as -> by (apply Rltb_true; lra).
  assert (Rltb 5 0 = false) as -> by (apply Rltb_false; lra).
  assert (Rltb (PI * 1737400 / 2) (5 * (2000 * 1000 / 2)) = true) as -> by (apply Rltb_true; lra).
  cbn [andb orb]. replace (2000 * 1000 / 2) with 1000000 by field. apply thick_basin_pos; lra.
Qed.
Lemma imbrium_throws_not : ~ throws (rcfg0 true) [faustini] [nectaris; imbrium] imbrium.
Proof.
  intros (d & Id & In_ & H). assert (d = faustini) as -> by (destruct Id as [<-|[<-|[<-|[]]]]; [reflexivity| |]; destruct In_ as [E|[]]; discriminate).
  revert H. unfold ejecta_at.
  cbn [read_row c_rest d_name d_lon d_lat d_plon d_plat d_rad d_basin faustini imbrium w_name w_lon w_lat w_psr_lon w_psr_lat w_diam String.eqb Ascii.eqb Bool.eqb].
  rewrite quarter. cbn [rcfg0 r_basinthr r_i]. pose proof PI2_3_2. pose proof PI_4. cbv zeta.
  assert (Rltb 5 0 = false) as -> by (apply Rltb_false; lra).
  assert (Rltb (PI * 1737400 / 2) (5 * (1 * 1000 / 2)) = false) as -> by (apply Rltb_false; lra).
  cbn [orb]. rewrite andb_false_r. lra.
Qed.
Lemma case_figure x : 0 <= x < 1 -> exists eras dc db, crater_basin_ages (rcfg0 true) lin_ppf isort_age [faustini] [nectaris; imbrium] (coins x) = Ok (eras, dc, db).
Proof.
  intros Hx. destruct (C91_finishes _ _ _ _ _ _ (case_sane x Hx)) as [(_ & _ & ((eras & dc) & db) & E)|(N & _)]; [eauto|].
  destruct N. split; [exists nectaris|exists imbrium]; (split; [cbn; auto|]); (split; [reflexivity|]); [exact nectaris_throws|exact imbrium_throws_not].
Qed.
Lemma case_bars x eras dc db : 0 <= x < 1 -> crater_basin_ages (rcfg0 true) lin_ppf isort_age [faustini] [nectaris; imbrium] (coins x) = Ok (eras, dc, db) ->
  exists f n i, dc = [f] /\ Permutation db [n; i] /\ bar_of (rcfg0 true) faustini "Faustini" f /\ bar_of (rcfg0 true) nectaris "*Nectaris" n /\ bar_of (rcfg0 true) imbrium "Imbrium" i /\
    b_age f = age_from (rcfg0 true) lin_ppf faustini x /\ b_age n = age_from (rcfg0 true) lin_ppf nectaris x /\ b_age i = age_from (rcfg0 true) lin_ppf imbrium x.
Proof.
  intros Hx E. destruct (C91_ages _ _ _ _ _ _ _ _ _ (case_sane x Hx) E) as ([(cs & bs & P1 & P2 & F1 & F2 & A) _] & _).
  inversion F1 as [|? f ? ? B1 F1']; subst. inversion F1'; subst. inversion F2 as [|? n ? ? B2 F2']; subst. inversion F2' as [|? i ? ? B3 F3']; subst. inversion F3'; subst.
  exists f, n, i. apply Permutation_sym, Permutation_length_1_inv in P1. cbn [app map length seq combine] in A. injection A as A1 A2 A3.
  split; [exact P1|]. split; [exact P2|]. split; [exact B1|].
  split; [destruct B2 as [[_ B2]|[T _]]; [exact B2|destruct (T nectaris_throws)]|].
  split; [destruct B3 as [[T _]|[_ B3]]; [destruct (imbrium_throws_not T)|exact B3]|]. auto.
Qed.
Example C91_case : exists eras dc db, crater_basin_ages (rcfg0 true) lin_ppf isort_age [faustini] [nectaris; imbrium] (coins (1 / 2)) = Ok (eras, dc, db) /\
  map b_name dc = ["Faustini"%string] /\ Permutation (map b_name db) ["*Nectaris"%string; "Imbrium"%string].
Proof.
  destruct (case_figure (1 / 2) ltac:(lra)) as (eras & dc & db & E). exists eras, dc, db. split; [exact E|].
  destruct (case_bars (1 / 2) _ _ _ ltac:(lra) E) as (f & n & i & -> & P & B1 & B2 & B3 & _). split; [cbn; now rewrite (bo_name _ _ _ _ B1)|].
  rewrite P. cbn [map]. rewrite (bo_name _ _ _ _ B2), (bo_name _ _ _ _ B3). reflexivity.
Qed.

(** Refuted: "a star marks a basin that has brought ejecta to a cold trap".  The comment in
    the code says that the basin hits, but the ages are not compared: here every cold trap is
    younger than the basin with the star, so nothing of it lies on any. *)
Theorem C91_star_refuted : exists c ppf sort craters basins entropy eras dc db b,
  ages_sane c ppf sort craters basins entropy /\ crater_basin_ages c ppf sort craters basins entropy = Ok (eras, dc, db) /\
  In b db /\ b_name b = "*Nectaris"%string /\
  forall n, In n (r_names c) -> exists t, In t dc /\ b_name t = n /\ b_age t < b_age b.
Proof.
  destruct (case_figure (1 / 2) ltac:(lra)) as (eras & dc & db & E).
  destruct (case_bars (1 / 2) _ _ _ ltac:(lra) E) as (f & n & i & Ed & P & B1 & B2 & B3 & _).
  exists (rcfg0 true), lin_ppf, isort_age, [faustini], [nectaris; imbrium], (coins (1 / 2)), eras, dc, db, n.
  split; [apply case_sane; lra|]. split; [exact E|]. split; [eapply Permutation_in; [symmetry; exact P|now left]|].
  split; [apply (bo_name _ _ _ _ B2)|]. intros m [<-|[]]. exists f. split; [rewrite Ed; now left|]. split; [apply (bo_name _ _ _ _ B1)|].
  apply bo_age in B1, B2. destruct B1 as [_ B1], B2 as [_ B2]. cbn [faustini nectaris w_age w_low w_upp rcfg0 r_step] in B1, B2. lra.
Qed.

(** Ages of the crater at the pole for the random numbers 0, 1/2 and 9/10. *)
Lemma round_at v z : v = IZR z * 10000000 -> round_to_ts v 10000000 = v.
Proof. intros H. destruct (round_to_ts_spec v 10000000 ltac:(lra)) as (_ & _ & Q & _). now apply (Q z). Qed.
Lemma age_exact c w x z : r_step c = 10000000%Z -> 0 < w_low w + w_upp w -> (w_age w - w_low w + x * (w_low w + w_upp w)) * 100 = IZR z ->
  age_from c lin_ppf w x = IZR z / 100.
Proof.
  intros Es Hw Hz. unfold age_from, new_age. rewrite Es. cbv zeta. unfold lin_ppf, trunc_a, trunc_b.
  set (r := read_row false "no" w). assert (Hs : age_sig r = (w_low w + w_upp w) * 250000000) by (unfold r, age_sig; cbn [read_row c_low c_upp]; lra).
  assert (E : c_age r + age_sig r * (- c_low r / age_sig r + x * (c_upp r / age_sig r - - c_low r / age_sig r)) = IZR z * 10000000).
  { rewrite Hs. unfold r. cbn [read_row c_low c_upp c_age]. rewrite <- Hz. field. lra. }
  rewrite E, (round_at _ z) by reflexivity. field.
Qed.

(** Refuted: "the error bars are the intervals of the catalogue".  They are drawn around the
    random age, so a bar can reach beyond the interval, here by its whole lower error. *)
Theorem C91_errors_refuted : exists c ppf sort craters basins entropy eras dc db w b,
  ages_sane c ppf sort craters basins entropy /\ crater_basin_ages c ppf sort craters basins entropy = Ok (eras, dc, db) /\
  In w craters /\ In b dc /\ b_name b = w_name w /\ 0 < w_low w /\ b_age b - b_low b = w_age w - w_low w - w_low w.
Proof.
  destruct (case_figure 0 ltac:(lra)) as (eras & dc & db & E).
  destruct (case_bars 0 _ _ _ ltac:(lra) E) as (f & n & i & Ed & _ & B1 & _ & _ & A & _).
  exists (rcfg0 true), lin_ppf, isort_age, [faustini], [nectaris; imbrium], (coins 0), eras, dc, db, faustini, f.
  split; [apply case_sane; lra|]. split; [exact E|]. split; [now left|]. split; [rewrite Ed; now left|]. split; [apply (bo_name _ _ _ _ B1)|].
  rewrite (bo_low _ _ _ _ B1), A, (age_exact _ _ _ 340) by (cbn [faustini w_age w_low w_upp]; first [reflexivity|lra]).
  cbn [faustini w_age w_low]. lra.
Qed.

(** Refuted: "the figure of a configuration is always the same".  Its list is made without
    the seed of the configuration. *)
Theorem C91_unseeded_refuted : exists c ppf sort craters basins entropy entropy' fig fig',
  ages_sane c ppf sort craters basins entropy /\ ages_sane c ppf sort craters basins entropy' /\
  crater_basin_ages c ppf sort craters basins entropy = Ok fig /\ crater_basin_ages c ppf sort craters basins entropy' = Ok fig' /\
  fst (fst fig) <> fst (fst fig') /\ snd (fst fig) <> snd (fst fig').
Proof.
  destruct (case_figure 0 ltac:(lra)) as (eras & dc & db & E). destruct (case_figure (1 / 2) ltac:(lra)) as (eras' & dc' & db' & E').
  exists (rcfg0 true), lin_ppf, isort_age, [faustini], [nectaris; imbrium], (coins 0), (coins (1 / 2)), (eras, dc, db), (eras', dc', db').
  split; [apply case_sane; lra|]. split; [apply case_sane; lra|]. split; [exact E|]. split; [exact E'|]. cbn [fst snd].
  destruct (C91_ages _ _ _ _ _ _ _ _ _ (case_sane 0 ltac:(lra)) E) as (_ & _ & nb & ib & In1 & N1 & _ & _ & ->).
  destruct (C91_ages _ _ _ _ _ _ _ _ _ (case_sane (1 / 2) ltac:(lra)) E') as (_ & _ & nb' & ib' & In1' & N1' & _ & _ & ->).
  destruct (case_bars 0 _ _ _ ltac:(lra) E) as (f & n & i & Ed & P & B1 & B2 & B3 & A1 & A2 & _).
  destruct (case_bars (1 / 2) _ _ _ ltac:(lra) E') as (f' & n' & i' & Ed' & P' & B1' & B2' & B3' & A1' & A2' & _).
  rewrite (age_exact _ _ _ 340) in A1 by (cbn [faustini w_age w_low w_upp]; first [reflexivity|lra]).
  rewrite (age_exact _ _ _ 350) in A1' by (cbn [faustini w_age w_low w_upp]; first [reflexivity|lra]).
  rewrite (age_exact _ _ _ 370) in A2 by (cbn [nectaris w_age w_low w_upp]; first [reflexivity|lra]).
  rewrite (age_exact _ _ _ 380) in A2' by (cbn [nectaris w_age w_low w_upp]; first [reflexivity|lra]).
  assert (Q : nb = n). { eapply Permutation_in in In1; [|exact P]. destruct In1 as [<-|[<-|[]]]; [reflexivity|]. rewrite (bo_name _ _ _ _ B3) in N1. discriminate. }
  assert (Q' : nb' = n'). { eapply Permutation_in in In1'; [|exact P']. destruct In1' as [<-|[<-|[]]]; [reflexivity|]. rewrite (bo_name _ _ _ _ B3') in N1'. discriminate. }
  subst nb nb'. split.
  - intros X. assert (b_age n = b_age n'); [congruence|lra].
  - intros X. rewrite Ed, Ed' in X. assert (f = f') by congruence. subst f'. lra.
Qed.

(** ** Random ages *)

(** The ages of a seed other than 0: that of the [j]-th crater is from the [j]-th random
    number of the seed. *)
Theorem C91_seed : forall c ppf sort craters stream drawn s,
  random_sane c ppf sort craters stream -> NoDup (map w_name craters) -> s <> 0%Z ->
  exists ages, seed_ages c ppf sort craters stream drawn s = Ok ages /\ length ages = length craters /\
    forall j w, nth_error craters j = Some w ->
      nth_error ages j = Some (age_from c ppf w (stream s j)) /\ age_for c w (age_from c ppf w (stream s j)).
Proof.
  intros c ppf sort craters stream drawn s [Hs Hp Hu Hst HF] N Hz. exists (ages_row c ppf craters stream drawn s).
  split; [now apply seed_ages_ok|].
  assert (L : length (ages_row c ppf craters stream drawn s) = length craters) by (unfold ages_row; rewrite map_length, combine_length, seq_length; lia).
  split; [exact L|]. intros j w H. assert (Lj : (j < length craters)%nat) by (apply nth_error_Some; congruence).
  split.
  - rewrite (nth_error_nth' _ 0) by lia. f_equal. rewrite (ages_row_nth _ _ _ _ _ _ _ _ H). unfold the_seed.
    destruct (Z.eqb_spec s 0); [contradiction|reflexivity].
  - apply age_from_for; auto; [apply Hu|]. unfold spread in HF. rewrite Forall_forall in HF. apply HF. eapply nth_error_In; eauto.
Qed.

(** Both panels: for every crater counts over 100 seeds, and over 100000 ages from the random
    numbers of the last seed with an inset for those below 3 Ga. *)
Theorem C91_random : forall c ppf sort craters stream drawn order,
  random_sane c ppf sort craters stream -> NoDup (map w_name craters) ->
  exists top bottom, random_crater_ages c ppf sort craters stream drawn order = Ok (top, bottom) /\
    length top = length craters /\ length bottom = length craters /\
    forall j w, nth_error craters j = Some w ->
    exists x y counts counts' inset,
      x = map (fun s => age_from c ppf w (stream (if Nat.eqb s 0 then drawn else Z.of_nat s) j)) (seq 0 100) /\
      y = map (fun i => age_from c ppf w (stream 99%Z (order i j))) (seq 0 (100 * 1000)) /\
      Forall (age_for c w) x /\ Forall (age_for c w) y /\
      nth_error top j = Some (w_name w, counts) /\ counted x counts /\
      nth_error bottom j = Some (counts', inset) /\ counted y counts' /\
      match inset with
      | Some n => counted (filter (fun a => Rltb a 3) y) n
      | None => Forall (fun a => 3 <= a) y
      end.
Proof.
  intros c ppf sort craters stream drawn order [Hs Hp Hu Hst HF] N. unfold random_crater_ages. rewrite (top_form c ppf sort craters stream drawn 100 Hs N). cbn [bind].
  assert (Fw : forall j w u, nth_error craters j = Some w -> 0 <= u < 1 -> age_for c w (age_from c ppf w u)).
  { intros j w u H Hx. apply age_from_for; auto. unfold spread in HF. rewrite Forall_forall in HF. apply HF. eapply nth_error_In; eauto. }
  generalize (100 * 1000)%nat. intros m.
  eexists. eexists. split; [reflexivity|]. split; [rewrite map_length, combine_length, seq_length; lia|].
  split; [unfold bottom_panel; now rewrite map_length, seq_length|]. intros j w H.
  assert (Lj : (j < length craters)%nat) by (apply nth_error_Some; congruence).
  set (y := sample_of c ppf stream order 100 m j w).
  exists (seeds_of c ppf stream drawn 100 j w), y, (hist edges (seeds_of c ppf stream drawn 100 j w)), (hist edges y),
    (if existsb (fun a => Rltb a 3) y then Some (hist edges (filter (fun a => Rltb a 3) y)) else None).
  split; [|split; [reflexivity|split; [|split; [|split; [|split; [apply hist_counted|split; [|split; [apply hist_counted|]]]]]]]].
  - unfold seeds_of. apply map_ext. intros s. do 2 f_equal. unfold the_seed. destruct s; reflexivity.
  - apply Forall_forall. intros a I. apply in_map_iff in I as (s & <- & _). eapply Fw; eauto. apply Hu.
  - apply Forall_forall. intros a I. apply in_map_iff in I as (s & <- & _). eapply Fw; eauto. apply Hu.
  - rewrite nth_error_map, (indexed_nth craters j w H). reflexivity.
  - unfold bottom_panel. rewrite nth_error_map. rewrite (nth_error_nth' _ 0%nat) by (rewrite seq_length; exact Lj). rewrite seq_nth by exact Lj. cbn [option_map plus].
    rewrite (all_ages_column c ppf craters stream order _ _ j w H). reflexivity.
  - destruct (existsb (fun a => Rltb a 3) y) eqn:E; [apply hist_counted|].
    apply Forall_forall. intros a I. destruct (Rltb a 3) eqn:Q; [|now apply Rltb_false in Q].
    assert (existsb (fun a => Rltb a 3) y = true) by (apply existsb_exists; eauto). congruence.
Qed.

(** A name that two craters share stops the figure. *)
Theorem C91_twice : forall c ppf sort craters stream drawn order,
  sorts_by_age sort -> ~ NoDup (map w_name craters) ->
  random_crater_ages c ppf sort craters stream drawn order = Err ValueError.
Proof. intros c ppf sort craters stream drawn order Hs N. unfold random_crater_ages. rewrite top_twice by (auto; lia). reflexivity. Qed.

(** All counts together are the ages from 1.595 to 4.195 Ga.  With steps of 10 Myr each bin
    counts a single age. *)
Theorem C91_counts : forall x counts, counted x counts ->
  list_sum counts = length (filter (fun y => Rleb (1595 / 1000) y && Rleb y (4195 / 1000)) x) /\
  (Forall (fun a => exists z, a * 1000000000 = IZR z * 10000000) x ->
    forall k, (k < 260)%nat -> nth_error counts k = Some (exactly ((160 + INR k) / 100) x)).
Proof. intros x counts H. split; [now apply counted_sum|]. intros F k Hk. now apply counted_exactly. Qed.

(** The inset agrees with its panel in all bins that end below 3 Ga and has nothing in the
    bins that begin above. *)
Theorem C91_inset : forall x counts inset, counted x counts -> counted (filter (fun y => Rltb y 3) x) inset ->
  (forall k, (k < 140)%nat -> nth_error inset k = nth_error counts k) /\
  (forall k, (140 < k < 260)%nat -> nth_error inset k = Some 0%nat).
Proof. intros x counts inset A B. split; intros k Hk; [now apply (inset_low x)|now apply (inset_high x)]. Qed.

(** *** Concrete figures *)
Lemma one_sane w x : 0 <= x < 1 -> 0 <= w_low w /\ 0 <= w_upp w /\ 0 < w_low w + w_upp w ->
  random_sane (rcfg0 true) lin_ppf isort_age [w] (fun _ _ => x).
Proof. intros Hx Hw. constructor; [exact isort_age_ok|exact lin_support|intros z i; exact Hx|reflexivity|]. apply Forall_forall. intros v [<-|[]]. exact Hw. Qed.
Lemma one_name (w : raw) : NoDup (map w_name [w]).
Proof. repeat constructor. intros []. Qed.
Example C91_random_case : exists top bottom, random_crater_ages (rcfg0 true) lin_ppf isort_age [faustini] (fun _ _ => 1 / 2) 7 (fun i j => (i + j)%nat) = Ok (top, bottom) /\
  map fst top = ["Faustini"%string] /\ length bottom = 1%nat.
Proof.
  destruct (C91_random (rcfg0 true) lin_ppf isort_age [faustini] (fun _ _ => 1 / 2) 7 (fun i j => (i + j)%nat)) as (top & bottom & E & A & B & C).
  - apply one_sane; cbn [faustini w_low w_upp]; lra.
  - apply one_name.
  - exists top, bottom. split; [exact E|]. clear E. destruct (C 0%nat faustini eq_refl) as (_ & _ & counts & _ & _ & _ & _ & _ & _ & T & _).
    destruct top as [|p [|? ?]]; try discriminate. cbn [nth_error] in T. destruct p as [n cs]. injection T as -> _. split; [reflexivity|exact B].
Qed.
(** Haworth of the crater list, the oldest. *)
Definition haworth : raw := mk_raw "Haworth" (- 875 / 10) (3548 / 10) (- 87493 / 1000) (357876 / 1000) (514 / 10) (418 / 100) (2 / 100) (2 / 100).

(** Refuted: "the counts of a crater are all its ages".  The bins end at 4.195 Ga; for Haworth
    of the crater list, of 4.18 Ga with errors of 0.02, ages of 4.20 Ga are possible, and if
    all are, none of the 100 is counted. *)
Theorem C91_all_refuted : exists c ppf sort craters stream drawn order top bottom,
  random_sane c ppf sort craters stream /\ craters = [haworth] /\ r_step c = 10000000%Z /\
  random_crater_ages c ppf sort craters stream drawn order = Ok (top, bottom) /\
  Forall (fun p => list_sum (snd p) = 0%nat) top.
Proof.
  set (u := 9375 / 10000). assert (Hu : 0 <= u < 1) by (unfold u; lra).
  assert (Sn : random_sane (rcfg0 true) lin_ppf isort_age [haworth] (fun _ _ => u)) by (apply one_sane; [exact Hu|cbn [haworth w_low w_upp]; lra]).
  destruct (C91_random (rcfg0 true) lin_ppf isort_age [haworth] (fun _ _ => u) 7 (fun i j => (i + j)%nat) Sn (one_name _)) as (top & bottom & E & _).
  exists (rcfg0 true), lin_ppf, isort_age, [haworth], (fun _ _ => u), 7%Z, (fun i j => (i + j)%nat), top, bottom.
  split; [exact Sn|]. split; [reflexivity|]. split; [reflexivity|]. split; [exact E|].
  unfold random_crater_ages in E. rewrite (top_form (rcfg0 true) lin_ppf isort_age [haworth] (fun _ _ => u) 7 100 isort_age_ok (one_name haworth)) in E. cbn [bind] in E.
  set (m := (100 * 1000)%nat) in E. clearbody m. 
  assert (Q : forall a b (x y : list (list nat * option (list nat))), Ok (a, x) = Ok (b, y) -> a = b :> list (string * list nat)) by congruence.
  apply Q in E. subst top. cbn [length seq combine map]. apply Forall_cons; [|constructor]. cbn [snd].
  rewrite (counted_sum _ _ (hist_counted _)). unfold seeds_of.
  assert (A : 4195 / 1000 < age_from (rcfg0 true) lin_ppf haworth u).
  { unfold age_from, new_age. cbv zeta. change (IZR (r_step (rcfg0 true))) with 10000000.
    set (r := read_row false "no" haworth). unfold lin_ppf, trunc_a, trunc_b.
    assert (Hs : age_sig r = 10000000) by (unfold r, age_sig; cbn [read_row c_low c_upp haworth w_low w_upp]; lra).
    assert (V : c_age r + age_sig r * (- c_low r / age_sig r + u * (c_upp r / age_sig r - - c_low r / age_sig r)) = 4197500000).
    { rewrite Hs. unfold r, u. cbn [read_row c_low c_upp c_age haworth w_age w_low w_upp]. lra. }
    rewrite V. destruct (round_to_ts_spec 4197500000 10000000 ltac:(lra)) as ((z & Z1) & Z2 & _). rewrite Z1 in *.
    assert (419 < IZR z) by (unfold Rabs in Z2; destruct (Rcase_abs _) in Z2; lra).
    apply lt_IZR in H. assert (420 <= IZR z) by (apply IZR_le; lia). lra. }
  generalize (seq 0 100). intros l. induction l as [|s l IH]; [reflexivity|]. cbn [map filter].
  assert (Rleb (age_from (rcfg0 true) lin_ppf haworth u) (4195 / 1000) = false) as -> by (apply Rleb_false; exact A). rewrite andb_false_r. exact IH.
Qed.

(** Without basins the ages of a seed are those of the list of the run with this seed. *)
Theorem C91_run : forall c ppf sort craters stream drawn s df k,
  random_sane c ppf sort craters stream -> NoDup (map w_name craters) -> s <> 0%Z ->
  get_crater_basin_list c ppf sort craters [] (stream s) 0%nat = Ok (df, k) ->
  exists ages, seed_ages c ppf sort craters stream drawn s = Ok ages /\ Permutation ages (map (fun r => c_age r / 1000000000) df).
Proof.
  intros c ppf sort craters stream drawn s df k [Hs Hp Hu Hst HF] N Hz E. exists (ages_row c ppf craters stream drawn s).
  split; [now apply seed_ages_ok|].
  destruct (list_tagged c ppf sort craters [] (stream s) 0 df k Hs Hp (Hu s) Hst ltac:(rewrite app_nil_r; exact HF) E) as (rows & P & _ & A).
  rewrite P, A, app_nil_r. unfold ages_row, the_seed. destruct (Z.eqb_spec s 0); [contradiction|]. reflexivity.
Qed.

(** Refuted: "the ages of a seed are those of the run with this seed".  A run first draws a
    number for each basin. *)
Theorem C91_run_refuted : exists c ppf sort craters basins stream drawn s df k ages,
  random_sane c ppf sort (craters ++ basins) stream /\ NoDup (map w_name (craters ++ basins)) /\ s <> 0%Z /\
  get_crater_basin_list c ppf sort craters basins (stream s) 0%nat = Ok (df, k) /\
  seed_ages c ppf sort craters stream drawn s = Ok ages /\
  forall r, In r df -> d_basin (c_rest r) = false -> ~ In (c_age r / 1000000000) ages.
Proof.
  set (u := fun i : nat => if Nat.eqb i 0 then 0 else 1 / 2).
  assert (Hu : draws u) by (intros i; unfold u; destruct (Nat.eqb i 0); lra).
  assert (HF : spread [faustini; nectaris]) by (apply Forall_forall; intros w [<-|[<-|[]]]; cbn [faustini nectaris w_low w_upp]; lra).
  destruct (list_total (rcfg0 true) lin_ppf isort_age [faustini] [nectaris] u 0) as (df & k & E).
  exists (rcfg0 true), lin_ppf, isort_age, [faustini], [nectaris], (fun _ => u), 7%Z, 1%Z, df, k, (ages_row (rcfg0 true) lin_ppf [faustini] (fun _ => u) 7 1).
  split; [constructor; [exact isort_age_ok|exact lin_support|intros _; exact Hu|reflexivity|exact HF]|].
  split; [repeat constructor; cbn; intuition discriminate|]. split; [lia|]. split; [exact E|].
  split; [apply seed_ages_ok; [exact isort_age_ok|apply one_name]|].
  destruct (list_tagged (rcfg0 true) lin_ppf isort_age [faustini] [nectaris] u 0 df k isort_age_ok lin_support Hu ltac:(reflexivity) HF E) as (rows & P & F & A).
  intros r I B J. eapply Permutation_in in I; [|exact P]. cbn [tagged map app] in F.
  inversion F as [|? r1 ? ? F1 F']; subst. inversion F' as [|? r2 ? ? F2 F'']; subst. inversion F''; subst.
  destruct I as [->|[->|[]]]; [|destruct F2 as [F2 _]; cbn [fst] in F2; congruence].
  cbn [map app length seq combine] in A. injection A as A1 A2. cbn [plus length] in A1.
  unfold ages_row in J. cbn [length seq combine map] in J. destruct J as [J|[]].
  rewrite A1 in J. unfold u in J. cbn [Nat.eqb] in J.
  rewrite (age_exact _ _ _ 340), (age_exact _ _ _ 350) in J by (cbn [faustini w_age w_low w_upp]; first [reflexivity|lra]). lra.
Qed.

(** Refuted: "the figure of a configuration is always the same, as its seeds are fixed".  The
    first seed is 0, which the configuration replaces by a random seed. *)
Theorem C91_seed0_refuted : exists c ppf sort craters stream drawn drawn' order top top' bottom,
  random_sane c ppf sort craters stream /\
  random_crater_ages c ppf sort craters stream drawn order = Ok (top, bottom) /\
  random_crater_ages c ppf sort craters stream drawn' order = Ok (top', bottom) /\ top <> top'.
Proof.
  set (stream := fun (z : Z) (i : nat) => if (z =? 7)%Z then 0 else 1 / 2).
  assert (Hu : forall z, draws (stream z)) by (intros z i; unfold stream; destruct (z =? 7)%Z; lra).
  assert (Sn : random_sane (rcfg0 true) lin_ppf isort_age [faustini] stream).
  { constructor; [exact isort_age_ok|exact lin_support|exact Hu|reflexivity|]. apply Forall_forall. intros w [<-|[]]. cbn [faustini w_low w_upp]. lra. }
  exists (rcfg0 true), lin_ppf, isort_age, [faustini], stream, 7%Z, 8%Z, (fun i j => (i + j)%nat).
  unfold random_crater_ages. rewrite (top_form (rcfg0 true) lin_ppf isort_age [faustini] stream 7 100 isort_age_ok (one_name faustini)), (top_form (rcfg0 true) lin_ppf isort_age [faustini] stream 8 100 isort_age_ok (one_name faustini)). cbn [bind].
  set (bottom := bottom_panel _ _ _ _ _ _ _). clearbody bottom.
  eexists. eexists. eexists. split; [exact Sn|]. split; [reflexivity|]. split; [reflexivity|].
  cbn [length seq combine map].
  assert (A : age_from (rcfg0 true) lin_ppf faustini (stream 7%Z 0%nat) = 340 / 100) by (apply age_exact; cbn [faustini w_age w_low w_upp]; first [reflexivity|unfold stream; cbn [Z.eqb Pos.eqb]; lra]).
  assert (A' : age_from (rcfg0 true) lin_ppf faustini (stream 8%Z 0%nat) = 350 / 100) by (apply age_exact; cbn [faustini w_age w_low w_upp]; first [reflexivity|unfold stream; cbn [Z.eqb Pos.eqb]; lra]).
  set (rest := map (fun s => age_from (rcfg0 true) lin_ppf faustini (stream (the_seed 7 (Z.of_nat s)) 0%nat)) (seq 1 99)).
  assert (S1 : seeds_of (rcfg0 true) lin_ppf stream 7 100 0 faustini = 340 / 100 :: rest) by (rewrite <- A; reflexivity).
  assert (S2 : seeds_of (rcfg0 true) lin_ppf stream 8 100 0 faustini = 350 / 100 :: rest).
  { rewrite <- A'. reflexivity. }
  cbn [map] in *. rewrite S1, S2. intros X.
  assert (H : hist edges (340 / 100 :: rest) = hist edges (350 / 100 :: rest)) by congruence. clear X.
  pose proof (hist_counted (340 / 100 :: rest)) as (_ & C1 & _). pose proof (hist_counted (350 / 100 :: rest)) as (_ & C2 & _).
  specialize (C1 180%nat ltac:(lia)). specialize (C2 180%nat ltac:(lia)). rewrite H in C1. rewrite C1 in C2.
  assert (W : within (left_edge 180) (left_edge 181) (340 / 100 :: rest) = within (left_edge 180) (left_edge 181) (350 / 100 :: rest)) by congruence.
  unfold within in W. cbn [filter] in W.
  assert (Rleb (left_edge 180) (340 / 100) && Rltb (340 / 100) (left_edge 181) = true) as K1.
  { unfold left_edge. rewrite !INR_IZR_INZ. change (Z.of_nat 180) with 180%Z. change (Z.of_nat 181) with 181%Z. apply andb_true_iff. split; [apply Rleb_true|apply Rltb_true]; lra. }
  assert (Rleb (left_edge 180) (350 / 100) && Rltb (350 / 100) (left_edge 181) = false) as K2.
  { unfold left_edge. rewrite !INR_IZR_INZ. change (Z.of_nat 180) with 180%Z. change (Z.of_nat 181) with 181%Z. apply andb_false_iff. right. apply Rltb_false; lra. }
  rewrite K1, K2 in W. cbn [length] in W. lia.
Qed.

Print Assumptions C91_ages.
Print Assumptions C91_finishes.
Print Assumptions C91_no_traps.
Print Assumptions C91_star_refuted.
Print Assumptions C91_errors_refuted.
Print Assumptions C91_unseeded_refuted.
Print Assumptions C91_seed.
Print Assumptions C91_random.
Print Assumptions C91_twice.
Print Assumptions C91_counts.
Print Assumptions C91_inset.
Print Assumptions C91_all_refuted.
Print Assumptions C91_run.
Print Assumptions C91_run_refuted.
Print Assumptions C91_seed0_refuted.
