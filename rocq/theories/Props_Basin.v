(** C90: ice from basins and its figure. *)
From Coq Require Import String List ZArith Reals Lia Lra Psatz Bool Permutation Sorted.
From Verif Require Import Base Model_Time Model_Geo Model_Interp Model_Crater Model_Ice Model_Rng Model_Strat Model_Melt Model_Main Model_Module Model_Shown Model_Basin
  Spec_Time Spec_Geo Spec_Ice Spec_Strat Spec_Melt Spec_Main Spec_Module Spec_Shown Spec_Basin
  Proofs_Base Proofs_Time Proofs_Geo Proofs_Ice Proofs_Rng Proofs_Melt Proofs_Bsed Proofs_Main Proofs_Module Proofs_Basin Props_Rng Props_Melt Props_Main Props_Module.
Import ListNotations.
Open Scope R_scope.

(** ** The ice of a run *)

(** The ice of a step is the ice of the basins of the right kind whose age is on the axis
    and for which this step is the first of the nearest; each has a speed of its own. *)
Theorem C90_basins : forall c ppf tol df time lo hi u k b k',
  sane c -> ppf_support ppf -> draws u -> is_min time lo -> is_max time hi ->
  get_basin_ice c ppf tol df time u k = Ok (b, k') ->
  exists (at_ : R -> nat) speeds heights, (forall age, first_nearest time age (at_ age)) /\
    length speeds = length (icy_basins c df) /\ Forall (speed_ok c) speeds /\ length heights = length (icy_basins c df) /\
    Forall2 (fun p h => basin_height c (fst p) (snd p) h) (combine (icy_basins c df) speeds) heights /\
    length b = length time /\
    forall j, (j < length time)%nat -> nth_error b j =
      Some (Rsum (map snd (filter (fun p => on_axis lo hi tol (i_age (fst p)) && Nat.eqb (at_ (i_age (fst p))) j) (combine (icy_basins c df) heights)))).
Proof. exact basins_form. Qed.

(** All steps together hold the ice of every such basin on the axis, once. *)
Theorem C90_total : forall c ppf tol df time lo hi u k b k',
  sane c -> ppf_support ppf -> draws u -> is_min time lo -> is_max time hi ->
  get_basin_ice c ppf tol df time u k = Ok (b, k') ->
  exists speeds heights, length speeds = length (icy_basins c df) /\ Forall (speed_ok c) speeds /\ length heights = length (icy_basins c df) /\
    Forall2 (fun p h => basin_height c (fst p) (snd p) h) (combine (icy_basins c df) speeds) heights /\
    Rsum b = Rsum (map snd (filter (fun p => on_axis lo hi tol (i_age (fst p))) (combine (icy_basins c df) heights))).
Proof. exact basins_total. Qed.

(** A step has ice exactly when a basin of the right kind belongs to it. *)
Theorem C90_when : forall c ppf tol df time lo hi u k b k',
  sane c -> 0 < hydrated_wt_pct c -> ppf_support ppf -> draws u -> is_min time lo -> is_max time hi ->
  get_basin_ice c ppf tol df time u k = Ok (b, k') ->
  forall j, (j < length time)%nat -> exists x, nth_error b j = Some x /\
    (0 < x /\ (exists r, In r (icy_basins c df) /\ on_axis lo hi tol (i_age r) = true /\ first_nearest time (i_age r) j) \/
     x = 0 /\ forall r, In r (icy_basins c df) -> on_axis lo hi tol (i_age r) = true -> ~ first_nearest time (i_age r) j).
Proof. exact basins_when. Qed.

(** ** The figure *)

(** Asteroids and comets, each with [n] runs on their own and both lines.  The times are
    those of the configuration of the module. *)
Theorem C90_figure : forall c d ppf sort craters basins entropy n time,
  basin_sane c ppf entropy -> (0 < n)%nat ->
  get_time_array (r_rnd d) (r_start d) (r_end d) (r_step d) = Ok time -> (3 <= length time)%nat ->
  exists a b, basin_ice c d ppf sort craters basins entropy n = Ok [a; b] /\
    drawn_basins c ppf sort craters basins n time false a /\ drawn_basins c ppf sort craters basins n time true b.
Proof.
  intros c d ppf sort craters basins entropy n time Hs Hn Et Lt.
  destruct (drawing_ok c ppf sort craters basins entropy n time false Hs Hn Lt) as (a & Ea & Ha & _).
  destruct (drawing_ok c ppf sort craters basins entropy n time true Hs Hn Lt) as (b & Eb & Hb & _).
  exists a, b. split; [|auto]. unfold basin_ice. rewrite Et. cbn [bind mapM]. rewrite Ea. cbn [bind]. rewrite Eb. reflexivity.
Qed.

(** Runs do not depend on each other: runs of any outcomes can be drawn together, in any
    order, for asteroids and for comets. *)
Theorem C90_independent : forall c d ppf sort craters basins n time asts coms,
  sane (r_i c) -> ppf_support ppf -> (0 < n)%nat ->
  get_time_array (r_rnd d) (r_start d) (r_end d) (r_step d) = Ok time -> (3 <= length time)%nat ->
  length asts = n -> length coms = n ->
  Forall (basin_run c ppf sort craters basins false time) asts -> Forall (basin_run c ppf sort craters basins true time) coms ->
  exists entropy a b, (forall k, draws (entropy k)) /\ basin_ice c d ppf sort craters basins entropy n = Ok [a; b] /\
    dr_points a = asts /\ dr_points b = coms.
Proof.
  intros c d ppf sort craters basins n time asts coms Hs Hp Hn Et Lt La Lc Fa Fc.
  destruct (figure_possible c d ppf sort craters basins n time asts coms Hs Hp Hn Et Lt La Lc Fa Fc) as (e & a & b & D & E & A & B & _). eauto 10.
Qed.

(** With fewer than three times the lines do not fit the axis. *)
Theorem C90_short : forall c d ppf sort craters basins entropy n time,
  basin_sane c ppf entropy ->
  get_time_array (r_rnd d) (r_start d) (r_end d) (r_step d) = Ok time -> (0 < length time < 3)%nat ->
  basin_ice c d ppf sort craters basins entropy n = Err ValueError.
Proof.
  intros c d ppf sort craters basins entropy n time Hs Et Lt. unfold basin_ice. rewrite Et. cbn [bind mapM].
  assert (Ne : time <> []) by (intros ->; cbn in Lt; lia).
  assert (M : forall l, exists cols, mapM (run_ice c ppf sort craters basins entropy false time) l = Ok cols).
  { intros l. apply mapM_total. intros k. destruct (run_ok c ppf sort craters basins entropy false time k Hs Ne) as (b & E & _). eauto. }
  destruct (M (seq 0 n)) as (cols & E). unfold drawing_of. rewrite E. cbn [bind]. cbv zeta. destruct (Nat.ltb_spec (length time) 3); [reflexivity|lia].
Qed.

(** The mean line: all its steps together are the mean of the totals of the runs, less a
    third of the means of the first and of the last step; so it never shows more ice. *)
Theorem C90_line_total : forall c ppf sort craters basins n time comet g,
  drawn_basins c ppf sort craters basins n time comet g -> (3 <= length time)%nat ->
  Rsum (dr_mean g) = mean (map Rsum (dr_points g)) - (mean_at (dr_points g) 0 + mean_at (dr_points g) (length time - 1)) / 3 /\
  Forall (fun y => 0 <= y) (dr_mean g) /\ Rsum (dr_mean g) <= mean (map Rsum (dr_points g)).
Proof.
  intros c ppf sort craters basins n time comet g [K X (L & Rn) P M _] Lt. rewrite M, three_sum by lia.
  rewrite means_sum by (eapply Forall_impl; [|exact P]; intros b [Hb _]; exact Hb). split; [reflexivity|].
  pose proof (fun j => mean_at_nonneg _ _ j P) as Z. split.
  - apply Forall_forall. intros y I. apply in_map_iff in I as (j & <- & _). unfold three. pose proof (Z j). pose proof (Z (S j)).
    destruct j as [|i]; [|pose proof (Z i)]; destruct (Nat.ltb _ _); lra.
  - pose proof (Z 0%nat). pose proof (Z (length time - 1)%nat). lra.
Qed.

(** ** A concrete figure: the default values and one basin. *)
Definition dice (x : R) : nat -> tape := fun _ _ => x.
Lemma dice_sane x : 0 <= x < 1 -> basin_sane (mcfg false) lin_ppf (dice x).
Proof. intros H. constructor; [apply (mcfg_sane false)|exact lin_support|intros k i; exact H]. Qed.
Example C90_case : exists a b time, basin_ice (mcfg false) (mcfg false) lin_ppf isort_age [faustini] [basin_b] (dice (1 / 2)) 2 = Ok [a; b] /\
  drawn_basins (mcfg false) lin_ppf isort_age [faustini] [basin_b] 2 time false a /\ length time = Z.to_nat 425 /\ length (dr_points a) = 2%nat.
Proof.
  destruct (mcfg_time false) as (time & Et & Lt & _).
  destruct (C90_figure (mcfg false) (mcfg false) lin_ppf isort_age [faustini] [basin_b] (dice (1 / 2)) 2 time (dice_sane (1 / 2) ltac:(lra)) ltac:(lia) Et ltac:(lia)) as (a & b & E & A & B).
  exists a, b, time. split; [exact E|]. split; [exact A|]. split; [exact Lt|]. apply (proj1 (db_runs _ _ _ _ _ _ _ _ _ A)).
Qed.

(** The two outcomes of a run with this basin. *)
Lemma one_list x : 0 <= x < 1 -> exists r, get_crater_basin_list (mcfg false) lin_ppf isort_age [] [basin_b] (fun _ => x) 0%nat = Ok ([r], 2%nat) /\
  i_basin (impact_of r) = true /\ i_icy (impact_of r) = icy_label (r_i (mcfg false)) (basin_marks (r_i (mcfg false)) x) /\ 3600000000 <= i_age (impact_of r) <= 4000000000.
Proof.
  intros Hx. destruct (list_total (mcfg false) lin_ppf isort_age [] [basin_b] (fun _ => x) 0) as (df & k & E).
  pose proof (list_lines (mcfg false) lin_ppf isort_age [] [basin_b] (fun _ => x) 0 df k isort_age_ok lin_support (fun _ => Hx) ltac:(cbn; lia) E) as LL.
  unfold get_crater_basin_list, rbind, random_icy_basins, get_random_hydrated_basins, draw_ages, rbind, random, ret in E.
  cbn [bind length seq map combine app] in E. unfold randomize_crater_ages in E. cbn [combine map] in E. unfold isort_age in E. cbn [fold_right insert_age] in E.
  unfold get_crater_basin_list, rbind, random_icy_basins, get_random_hydrated_basins, draw_ages, rbind, random, ret.
  cbn [bind length seq map combine app]. unfold randomize_crater_ages. cbn [combine map]. unfold isort_age. cbn [fold_right insert_age].
  eexists. split; [reflexivity|]. split; [reflexivity|]. split; [reflexivity|].
  assert (F := LL ltac:(repeat constructor; cbn; lra)). clear LL. match type of E with Ok (?l, _) = _ => assert (D : df = l) by congruence end. rewrite D in F. clear E D.
  match type of F with Forall _ [?r] => set (rr := r) in * end. clearbody rr.
  inversion F as [|? ? (w & W1 & _ & W2 & _) _]; subst. destruct W1 as (W1 & _). assert (w = basin_b) as -> by (destruct W1 as [[[]]|[[->|[]] _]]; reflexivity).
  cbn [i_age impact_of]. cbn [w_age w_low w_upp basin_b] in W2. change (IZR (r_step (mcfg false))) with 10000000 in W2. lra.
Qed.
Definition mice_sane : sane (r_i (mcfg false)) := i_sane _ (ms_ice _ _ _ _ _ _ _ (mcfg_sane false)).
Lemma label_dry : icy_label (r_i (mcfg false)) (basin_marks (r_i (mcfg false)) (1 / 2)) = "no"%string.
Proof.
  unfold icy_label, basin_marks. change (comets_on (r_i (mcfg false))) with false. change (basins_on (r_i (mcfg false))) with true. cbn [fst snd].
  replace (Rltb (1 / 2) _) with false; [reflexivity|]. symmetry. apply Rltb_false. cbn [mcfg r_i with_flags ICFG0 ctype_frac ctype_hydrated]. lra.
Qed.
Lemma label_wet : icy_label (r_i (mcfg false)) (basin_marks (r_i (mcfg false)) (1 / 10)) = "hyd_ctype"%string.
Proof.
  unfold icy_label, basin_marks. change (comets_on (r_i (mcfg false))) with false. change (basins_on (r_i (mcfg false))) with true. cbn [fst snd].
  replace (Rltb (1 / 10) _) with true; [reflexivity|]. symmetry. apply Rltb_true. cbn [mcfg r_i with_flags ICFG0 ctype_frac ctype_hydrated]. lra.
Qed.
Lemma axis_ends : exists time lo hi, get_time_array (r_rnd (mcfg false)) (r_start (mcfg false)) (r_end (mcfg false)) (r_step (mcfg false)) = Ok time /\
  length time = Z.to_nat 425 /\ is_min time lo /\ is_max time hi /\ lo = 10000000 /\ hi = 4250000000.
Proof.
  destruct (mcfg_time false) as (time & Et & Lt & Nt). exists time, 10000000, 4250000000. split; [exact Et|]. split; [exact Lt|].
  assert (B : forall t, In t time -> 10000000 <= t <= 4250000000).
  { intros t I. apply In_nth_error in I as (i & Hi). assert (L : (i < Z.to_nat 425)%nat) by (rewrite <- Lt; apply nth_error_Some; congruence).
    rewrite (Nt i L) in Hi. injection Hi as <-. pose proof (pos_INR i). assert (INR i <= 424); [|lra].
    replace 424 with (INR (Z.to_nat 424)) by (rewrite INR_IZR_INZ, Z2Nat.id by lia; reflexivity). apply le_INR. lia. }
  split; [split; [|intros; now apply B]|split; [split; [|intros; now apply B]|auto]].
  - apply (nth_error_In _ (Z.to_nat 424)). rewrite Nt by lia. f_equal. rewrite INR_IZR_INZ, Z2Nat.id by lia. lra.
  - apply (nth_error_In _ 0%nat). rewrite Nt by lia. f_equal. cbn [INR]. lra.
Qed.

Lemma tape_ok x : 0 <= x < 1 -> draws (fun _ => x).
Proof. intros H i. exact H. Qed.

(** One run without ice from basins and one whose ice is all in one step. *)
Lemma outcomes time lo hi : is_min time lo -> is_max time hi -> lo = 10000000 -> hi = 4250000000 ->
  (exists b, basin_run (mcfg false) lin_ppf isort_age [] [basin_b] false time b /\ forall j x, nth_error b j = Some x -> x = 0) /\
  (exists b i h, basin_run (mcfg false) lin_ppf isort_age [] [basin_b] false time b /\ 0 < h /\ nth_error b i = Some h /\ forall j x, nth_error b j = Some x -> j <> i -> x = 0).
Proof.
  intros Mn Mx El Eh. assert (Ne : time <> []) by (intros ->; destruct Mn as [[] _]).
  assert (P : forall x, 0 <= x < 1 -> exists r b k, get_crater_basin_list (mcfg false) lin_ppf isort_age [] [basin_b] (fun _ => x) 0%nat = Ok ([r], 2%nat) /\
    i_basin (impact_of r) = true /\ i_icy (impact_of r) = icy_label (r_i (mcfg false)) (basin_marks (r_i (mcfg false)) x) /\ 3600000000 <= i_age (impact_of r) <= 4000000000 /\
    get_basin_ice (r_i (mcfg false)) lin_ppf (r_tol (mcfg false)) (map impact_of [r]) time (fun _ => x) 0%nat = Ok (b, k) /\
    length b = length time /\ basin_run (mcfg false) lin_ppf isort_age [] [basin_b] false time b).
  { intros x Hx. destruct (one_list x Hx) as (r & E & B & I & A). assert (D : draws (fun _ => x)) by (intros i; exact Hx).
    destruct (basin_ok (r_i (mcfg false)) lin_ppf (r_tol (mcfg false)) (map impact_of [r]) time mice_sane lin_support Ne (fun _ => x) 0%nat D) as (b & k & Eb & Gb & _).
    exists r, b, k. repeat (split; [assumption|]). exists (fun _ => x), [r], 2%nat, (fun _ => x), k. auto. }
  assert (W : 0 < hydrated_wt_pct (r_i (mcfg false))) by (cbn [mcfg r_i with_flags ICFG0 hydrated_wt_pct]; lra).
  split.
  - destruct (P (1 / 2) ltac:(lra)) as (r & b & k & E & B & I & A & Eb & Lb & Rb). exists b. split; [exact Rb|]. intros j x Hx.
    assert (Hj : (j < length time)%nat) by (rewrite <- Lb; apply nth_error_Some; congruence).
    destruct (C90_when _ _ _ _ _ _ _ _ _ _ _ mice_sane W lin_support (tape_ok (1 / 2) ltac:(lra)) Mn Mx Eb j Hj) as (y & Hy & [(_ & s & Is & _)|[Y _]]); [|congruence].
    unfold icy_basins in Is. apply filter_In in Is as [[<-|[]] Q]. rewrite I, label_dry in Q. apply andb_prop in Q as [_ Q]. discriminate Q.
  - destruct (P (1 / 10) ltac:(lra)) as (r & b & k & E & B & I & A & Eb & Lb & Rb).
    assert (Ic : icy_basins (r_i (mcfg false)) (map impact_of [r]) = [impact_of r]).
    { unfold icy_basins. cbn [map filter]. rewrite B, I, label_wet. reflexivity. }
    assert (Ax : on_axis lo hi (r_tol (mcfg false)) (i_age (impact_of r)) = true).
    { unfold on_axis. change (r_tol (mcfg false)) with (1 / 1000000). subst lo hi. rewrite !Rabs_pos_eq by lra. apply andb_true_intro. split; apply Rleb_true; lra. }
    destruct (C90_basins _ _ _ _ _ _ _ _ _ _ _ mice_sane lin_support (tape_ok (1 / 10) ltac:(lra)) Mn Mx Eb) as (at_ & vs & hs & An & Lv & Fv & Lh & F2 & _ & N). rewrite Ic in *.
    destruct hs as [|h [|]]; try discriminate Lh. destruct vs as [|v [|]]; try discriminate Lv. inversion F2 as [|? ? ? ? Hh _]; subst.
    assert (Hi : (at_ (i_age (impact_of r)) < length time)%nat) by (eapply nearest_lt; apply An).
    exists b, (at_ (i_age (impact_of r))), h. split; [exact Rb|]. split; [eapply height_pos; [exact mice_sane|exact W|exact Hh]|]. split.
    + rewrite N by exact Hi. cbn [combine filter fst map]. rewrite Ax, Nat.eqb_refl. cbn [andb map snd]. rewrite Rsum_cons. f_equal. cbn. lra.
    + intros j x Hx Nj. assert (Hj : (j < length time)%nat) by (rewrite <- Lb; apply nth_error_Some; congruence). rewrite N in Hx by exact Hj.
      cbn [combine filter fst map] in Hx. rewrite Ax in Hx. replace (Nat.eqb (at_ (i_age (impact_of r))) j) with false in Hx by (symmetry; apply Nat.eqb_neq; congruence).
      cbn [andb map] in Hx. injection Hx as <-. reflexivity.
Qed.

Lemma some_comet time : time <> [] -> exists b, basin_run (mcfg false) lin_ppf isort_age [] [basin_b] true time b.
Proof.
  intros Ne. destruct (run_ok (mcfg false) lin_ppf isort_age [] [basin_b] (dice (1 / 2)) true time 0 (dice_sane (1 / 2) ltac:(lra)) Ne) as (b & _ & _ & H). eauto.
Qed.

(** ** What does not hold *)

(** The figure is made from its arguments: no.  [get_crater_basin_list] and [get_basin_ice]
    are called without a generator, so each makes one with fresh random numbers; the seeds
    that the figure puts into the configuration are not used. *)
Theorem C90_seed_refuted : ~ (forall c d ppf sort craters basins entropy entropy' n,
  basin_sane c ppf entropy -> basin_sane c ppf entropy' ->
  basin_ice c d ppf sort craters basins entropy n = basin_ice c d ppf sort craters basins entropy' n).
Proof.
  intros C. destruct axis_ends as (time & lo & hi & Et & Lt & Mn & Mx & El & Eh). assert (Ne : time <> []) by (intros ->; discriminate Lt).
  destruct (outcomes time lo hi Mn Mx El Eh) as ((b0 & R0 & Z0) & b1 & i & h & R1 & Hh & N1 & _). destruct (some_comet time Ne) as (bc & Rc).
  destruct (C90_independent (mcfg false) (mcfg false) lin_ppf isort_age [] [basin_b] 1 time [b0] [bc] mice_sane lin_support ltac:(lia) Et ltac:(lia) eq_refl eq_refl ltac:(auto) ltac:(auto))
    as (e & a & b & D & E & A & _).
  destruct (C90_independent (mcfg false) (mcfg false) lin_ppf isort_age [] [basin_b] 1 time [b1] [bc] mice_sane lin_support ltac:(lia) Et ltac:(lia) eq_refl eq_refl ltac:(auto) ltac:(auto))
    as (e' & a' & b' & D' & E' & A' & _).
  specialize (C (mcfg false) (mcfg false) lin_ppf isort_age [] [basin_b] e e' 1%nat (Build_basin_sane _ _ _ mice_sane lin_support D) (Build_basin_sane _ _ _ mice_sane lin_support D')).
  rewrite E, E' in C. assert (a = a') by congruence. subst a'. assert (b0 = b1) by congruence. subst b1. pose proof (Z0 i h N1). lra.
Qed.

(** The times of the figure are those of the configuration that is given: no.
    [mp.get_time_array()] is called without it. *)
Theorem C90_axis_refuted : ~ (forall c d ppf sort craters basins entropy n time gs g,
  basin_sane c ppf entropy -> (0 < n)%nat ->
  get_time_array (r_rnd c) (r_start c) (r_end c) (r_step c) = Ok time ->
  basin_ice c d ppf sort craters basins entropy n = Ok gs -> In g gs -> length (dr_x g) = length time).
Proof.
  intros C. destruct (mcfg_time false) as (time & Et & Lt & _). set (m := mcfg false).
  set (c := mk_rcfg (r_i m) (r_names m) 2000000000 (r_end m) (r_step m) (r_tol m) (r_min m) (r_ejthr m)
    (r_basinthr m) (r_bsed m) (r_melt m) (r_shield m) (r_after_age m) (r_ejecta_basins m) (r_lum m) (r_bhop m) (r_rnd m)).
  destruct (time_array_axis 2000000000 10000000 200 ltac:(lia) ltac:(lia) ltac:(lia)) as (time' & Et' & Lt' & _).
  assert (S : basin_sane c lin_ppf (dice (1 / 2))) by (constructor; [exact mice_sane|exact lin_support|intros k i; unfold dice; lra]).
  destruct (C90_figure c m lin_ppf isort_age [] [basin_b] (dice (1 / 2)) 1 time S ltac:(lia) Et ltac:(lia)) as (a & b & E & A & _).
  pose proof (C c m lin_ppf isort_age [] [basin_b] (dice (1 / 2)) 1%nat time' [a; b] a S ltac:(lia) Et' E (or_introl eq_refl)) as H.
  rewrite (db_x _ _ _ _ _ _ _ _ _ A), map_length in H. lia.
Qed.

(** The moving average of equal numbers is this number: no, both ends have two numbers of
    three, and so a third less. *)
Theorem C90_ends_refuted : ~ (forall x m, (3 <= length x)%nat -> Forall (fun y => y = m) x -> Forall (fun y => y = m) (moving_avg x 3)).
Proof.
  intros C. pose proof (C [1; 1; 1] 1 ltac:(cbn; lia) ltac:(repeat constructor)) as F. rewrite Forall_forall in F.
  assert (H := F _ (nth_error_In _ 0 (moving_nth [1; 1; 1] 0 ltac:(cbn; lia)))). unfold three in H. cbn [length Nat.ltb Nat.leb nth] in H. lra.
Qed.

(** At most 0.3 percent of the runs have more ice than the percentile line: no.  Ice of a
    basin comes in one step, and the mean of three steps is a third of it. *)
Theorem C90_percentile_refuted : ~ (forall c d ppf sort craters basins entropy n gs g j y,
  basin_sane c ppf entropy -> (0 < n)%nat -> basin_ice c d ppf sort craters basins entropy n = Ok gs -> In g gs ->
  nth_error (dr_pct g) j = Some y -> more_than y (map (fun b => nth j b 0) (dr_points g)) <= 3 / 1000 * INR n).
Proof.
  intros C. destruct axis_ends as (time & lo & hi & Et & Lt & Mn & Mx & El & Eh). assert (Ne : time <> []) by (intros ->; discriminate Lt).
  destruct (outcomes time lo hi Mn Mx El Eh) as (_ & b1 & i & h & R1 & Hh & N1 & Z1). destruct (some_comet time Ne) as (bc & Rc).
  destruct (figure_possible (mcfg false) (mcfg false) lin_ppf isort_age [] [basin_b] 1 time [b1] [bc] mice_sane lin_support ltac:(lia) Et ltac:(lia) eq_refl eq_refl ltac:(auto) ltac:(auto))
    as (e & a & b & D & E & A & _ & Da & _).
  destruct (db_pct _ _ _ _ _ _ _ _ _ Da) as (q & Q & Qj). rewrite A in Qj. cbn [map] in Qj. pose proof (db_points _ _ _ _ _ _ _ _ _ Da) as Gp. rewrite A in Gp. inversion Gp as [|? ? [Lb _] _]; subst.
  assert (Hi : (i < length time)%nat) by (rewrite <- Lb; apply nth_error_Some; congruence).
  assert (Eq : forall j, (j < length time)%nat -> q j = nth j b1 0). { intros j Hj. destruct (Qj j Hj) as ((x & y & [<-|[]] & [<-|[]] & H) & _). lra. }
  assert (Nz : forall j, j <> i -> nth j b1 0 = 0). { intros j Hj. destruct (nth_error b1 j) as [x|] eqn:Ex; [rewrite (nth_error_nth _ _ _ Ex); eapply Z1; eauto|apply nth_overflow, nth_error_None, Ex]. }
  assert (V : three q (length time) i = h / 3).
  { unfold three. rewrite (Eq i Hi), (nth_error_nth _ _ _ N1). destruct (Nat.ltb_spec (S i) (length time)); [rewrite (Eq (S i)) by auto; rewrite (Nz (S i)) by lia|];
      (destruct i as [|p]; [|rewrite (Eq p) by lia; rewrite (Nz p) by lia]; lra). }
  assert (Hp : nth_error (dr_pct a) i = Some (h / 3)).
  { rewrite Q, nth_error_map, nth_error_nth' with (d := 0%nat) by now rewrite seq_length. rewrite seq_nth by exact Hi. cbn [option_map Nat.add]. now rewrite V. }
  pose proof (C (mcfg false) (mcfg false) lin_ppf isort_age [] [basin_b] e 1%nat [a; b] a i (h / 3) (Build_basin_sane _ _ _ mice_sane lin_support D) ltac:(lia) E (or_introl eq_refl) Hp) as H.
  rewrite A in H. cbn [map] in H. rewrite (nth_error_nth _ _ _ N1) in H. unfold more_than in H. cbn [filter] in H.
  replace (Rltb (h / 3) h) with true in H by (symmetry; apply Rltb_true; lra). cbn [length INR] in H. lra.
Qed.

Print Assumptions C90_basins.
Print Assumptions C90_total.
Print Assumptions C90_when.
Print Assumptions C90_figure.
Print Assumptions C90_independent.
Print Assumptions C90_short.
Print Assumptions C90_line_total.
Print Assumptions C90_seed_refuted.
Print Assumptions C90_axis_refuted.
Print Assumptions C90_ends_refuted.
Print Assumptions C90_percentile_refuted.
