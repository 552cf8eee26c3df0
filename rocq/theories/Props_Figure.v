(** Properties C76, C77 and C78: the legend, the columns and the colours of the
    stratigraphy figure. *)
From Coq Require Import String Ascii List ZArith Reals Bool Lra Lia Sorted Permutation.
From Verif Require Import Base Model_Path Proofs_Path Model_Cfg Spec_Cfg Proofs_Cfg Props_Cfg.
From Verif Require Import Model_Time Model_Strat Model_Plot Model_Figure Spec_Plot Spec_Figure
  Proofs_Base Proofs_Plot Proofs_Ranges Proofs_Agg Proofs_Figure Proofs_Cmap Proofs_Time.
Import ListNotations.
Open Scope R_scope.
Open Scope list_scope.

Ltac decR :=
  repeat match goal with
  | |- context [Rltb ?a ?b] =>
    first [ rewrite (proj2 (Rltb_true a b)) by lra | rewrite (proj2 (Rltb_false a b)) by lra ]
  | |- context [Rleb ?a ?b] =>
    first [ rewrite (proj2 (Rleb_true a b)) by lra | rewrite (proj2 (Rleb_false a b)) by lra ]
  end.

(** ** C76 *)
(** There is always a legend.  It lists every public label of the figure once: Ice first,
    Other last, the rest in alphabetical order. *)
Theorem C76_labels : forall axes, exists entries axes', strat_legend axes = Ok (entries, axes') /\
  NoDup (map fst entries) /\
  (forall l, In l (map fst entries) <-> public l /\ exists p k a, artist_at axes p k = Some a /\ a_label a = l) /\
  exists ice mid other, map fst entries = ice ++ mid ++ other /\
    incl ice ["Ice"]%string /\ incl other ["Other"]%string /\
    ~ In "Ice"%string mid /\ ~ In "Other"%string mid /\
    StronglySorted (fun a b => String.leb a b = true) mid.
Proof.
  intros axes. destruct (legend_ok axes) as (es & axes' & E & M & _ & _ & _). exists es, axes'. split; [exact E|].
  rewrite M. split; [apply uniq_NoDup|]. split.
  - intros l. rewrite uniq_In, in_map_iff. split.
    + intros ([[p k] l'] & <- & H). apply handles_In in H as [P (a & A & L)]. cbn [snd]. eauto 6.
    + intros [P (p & k & a & A & L)]. exists (p, k, l). split; auto. apply handles_In. eauto.
  - destruct (uniq_shape (map snd (handles axes))) as (mid & -> & _ & S & H).
    eexists _, mid, _. split; [reflexivity|].
    split; [destruct (existsb (String.eqb "Ice") _); intros x; cbn; tauto|].
    split; [destruct (existsb (String.eqb "Other") _); intros x; cbn; tauto|].
    rewrite !H. split; [tauto|]. split; [tauto|exact S].
Qed.

(** The sample beside a label is the first patch drawn with it, which then shows pure ice
    for Ice and no ice for every other label. *)
Theorem C76_samples : forall axes entries axes' l p k,
  strat_legend axes = Ok (entries, axes') -> In (l, (p, k)) entries ->
  exists a, artist_at axes p k = Some a /\ a_label a = l /\
    (forall p' k' b, artist_at axes p' k' = Some b -> a_label b = l -> ~ drawn_before (p', k') (p, k)) /\
    artist_at axes' p k = Some (mk_artist l (a_where a) (Some (colour_of l))).
Proof.
  intros axes entries axes' l p k E I. destruct (legend_ok axes) as (es & axes0 & E0 & M & F & _ & A).
  rewrite E in E0. injection E0 as <- <-. rewrite Forall_forall in F. destruct (F _ I) as [(a & Ha & La) Fi].
  exists a. split; auto. split; auto. split; [exact Fi|]. rewrite A, Ha.
  destruct (find _ entries) as [[l' [p' k']]|] eqn:Ef.
  - apply find_some in Ef as [I' X]. cbn in X. apply andb_true_iff in X as [X Y]. apply Nat.eqb_eq in X, Y. subst p' k'.
    destruct (F _ I') as [(a' & Ha' & La') _]. rewrite Ha in Ha'. injection Ha' as <-.
    cbn [option_map]. unfold recoloured. rewrite <- La', La. reflexivity.
  - exfalso. apply (find_none _ _ Ef) in I. cbn in I. rewrite !Nat.eqb_refl in I. discriminate.
Qed.

(** All other patches stay as they are. *)
Theorem C76_others : forall axes entries axes' p k,
  strat_legend axes = Ok (entries, axes') -> (forall l, ~ In (l, (p, k)) entries) ->
  artist_at axes' p k = artist_at axes p k.
Proof.
  intros axes entries axes' p k E N. destruct (legend_ok axes) as (es & axes0 & E0 & _ & _ & _ & A).
  rewrite E in E0. injection E0 as <- <-. rewrite A.
  destruct (find _ entries) as [[l' [p' k']]|] eqn:Ef; auto. exfalso.
  apply find_some in Ef as [I' X]. cbn in X. apply andb_true_iff in X as [X Y]. apply Nat.eqb_eq in X, Y. subst p' k'. exact (N l' I').
Qed.

Lemma axes_index rows n r axs depth j c : (forall r' axs' d', nth_error rows r' = Some (axs', d') -> length axs' = n) ->
  nth_error rows r = Some (axs, depth) -> nth_error axs j = Some c ->
  nth_error (figure_axes rows) (r * n + j) = Some (match c with Some strat => artists strat | None => [] end).
Proof.
  revert r. induction rows as [|[a d] rows IH]; intros r L Hr Hj; [destruct r; discriminate|].
  unfold figure_axes. cbn [flat_map]. fold (figure_axes rows). pose proof (L O a d eq_refl) as La. destruct r as [|r].
  - injection Hr as -> ->. assert (j < length axs)%nat by (apply nth_error_Some; congruence).
    rewrite nth_error_app1 by (rewrite map_length; lia). cbn [Nat.mul Nat.add]. now rewrite (map_nth_error _ _ _ Hj).
  - rewrite nth_error_app2 by (rewrite map_length; cbn; lia). rewrite map_length, La.
    replace (S r * n + j - n)%nat with (r * n + j)%nat by (cbn; lia). apply IH; auto.
    intros r' a' d' H. exact (L (S r') a' d' H).
Qed.

(** The legend borrows patches of the figure, but no column changes its appearance: a patch
    of the legend is always covered by another one. *)
Theorem C76_columns_unchanged : forall read by_depth by_diam hash cdf m runs seeds coldtraps rows pct entries axes',
  sorts_by l_depth by_depth ->
  plot_figure read by_depth by_diam hash cdf m runs seeds coldtraps = Ok (rows, pct) ->
  (forall run seed ct table t col, read run seed ct = Some table -> plot_column m table = Ok (t, col) -> stacked col) ->
  strat_legend (figure_axes rows) = Ok (entries, axes') ->
  forall r axs depth j strat y,
    nth_error rows r = Some (axs, depth) -> nth_error axs j = Some (Some strat) ->
    exists arts, nth_error axes' (r * length axs + j) = Some arts /\
      visible_at (painted arts) y = visible_at (fills strat) y.
Proof.
  intros read by_depth by_diam hash cdf m runs seeds cts rows pct es axes' SD E ST EL r axs depth j strat y Hr Hj.
  pose proof (figure_ok read by_depth by_diam hash cdf m runs seeds cts) as F. cbv zeta in F. rewrite E in F.
  destruct F as (_ & LR & _ & F).
  assert (RUN : forall r' a d, nth_error rows r' = Some (a, d) -> exists run, nth_error runs r' = Some run).
  { intros r' a d H. assert (r' < length runs)%nat by (rewrite <- LR; apply nth_error_Some; congruence).
    destruct (nth_error runs r') eqn:X; [eauto|]. apply nth_error_None in X. lia. }
  assert (LEN : forall r' a d, nth_error rows r' = Some (a, d) -> length a = length axs).
  { intros r' a d H. destruct (RUN _ _ _ H) as (run & R1), (RUN _ _ _ Hr) as (run0 & R0).
    destruct (F _ _ _ _ R1 H) as [(L1 & _) _], (F _ _ _ _ R0 Hr) as [(L0 & _) _]. lia. }
  pose proof (axes_index rows (length axs) r axs depth j (Some strat) LEN Hr Hj) as Hp.
  assert (COL : Forall (column_axis by_depth by_diam hash cdf) (figure_axes rows)).
  { apply Forall_forall. intros arts Ha. unfold figure_axes in Ha. apply in_flat_map in Ha as ([a d] & H1 & H2).
    apply in_map_iff in H2 as ([s|] & <- & H2); [|now left]. right.
    apply In_nth_error in H1 as (r' & H1). apply In_nth_error in H2 as (q & H2).
    destruct (RUN _ _ _ H1) as (run & R1). destruct (F _ _ _ _ R1 H1) as [(L1 & B1 & C1) _].
    assert (Lq : (q < length a)%nat) by (apply nth_error_Some; congruence).
    assert (X : exists c, In c (fig_cells seeds cts) /\ q = Proofs_Figure.pos (length cts) c).
    { destruct (existsb (fun c => Nat.eqb q (Proofs_Figure.pos (length cts) c)) (fig_cells seeds cts)) eqn:Ex.
      - apply existsb_exists in Ex as (c & X1 & X2). apply Nat.eqb_eq in X2. eauto.
      - exfalso. rewrite B1 in H2; [discriminate| |lia]. intros c Hc ->.
        assert (existsb (fun c0 => Nat.eqb (Proofs_Figure.pos (length cts) c) (Proofs_Figure.pos (length cts) c0)) (fig_cells seeds cts) = true)
          by (apply existsb_exists; exists c; split; [auto|apply Nat.eqb_refl]). congruence. }
    destruct X as ([[s' seed] [i ct]] & Hc & ->). destruct (C1 _ Hc) as (o & D & N). rewrite H2 in N.
    destruct o as [[sdf st]|]; [|discriminate]. cbn in N. injection N as <-.
    unfold cdraw, draw_column in D. cbn [fst snd] in D. destruct (read run seed ct) as [table|] eqn:Et; [|discriminate].
    destruct (plot_column m table) as [[t col]|] eqn:Ep; cbn [bind] in D; [|discriminate].
    destruct (get_strat_col_ranges _ _ _ _ col) as [out|] eqn:Eo; cbn [bind] in D; [|discriminate].
    injection D as <- <-. exists col, out. split; [eapply ST; eauto|]. auto. }
  destruct (legend_ok (figure_axes rows)) as (es0 & ax0 & E0 & _ & _ & SH & _). rewrite EL in E0. injection E0 as <- <-.
  assert (Hp' : exists arts, nth_error axes' (r * length axs + j) = Some arts).
  { destruct (nth_error axes' (r * length axs + j)) eqn:X; [eauto|]. exfalso.
    apply (f_equal (fun l => nth_error l (r * length axs + j)%nat)) in SH. rewrite !nth_error_map, X, Hp in SH. discriminate. }
  destruct Hp' as (arts & Hp'). exists arts. split; [exact Hp'|].
  rewrite (legend_hidden _ _ _ _ _ _ _ _ _ _ y SD COL EL Hp Hp'). now rewrite painted_artists.
Qed.

(** So for the tables of runs, with layers of a positive thickness asked for. *)
Theorem C76_runs_unchanged : forall read by_depth by_diam hash cdf m runs seeds coldtraps rows pct entries axes',
  sorts_by l_depth by_depth -> 0 < m ->
  plot_figure read by_depth by_diam hash cdf m runs seeds coldtraps = Ok (rows, pct) ->
  (forall run seed ct table, read run seed ct = Some table -> exists rnd thick_min tol age steps,
    make_strat_col rnd thick_min tol true age steps = Ok table /\
    (forall x, 0 <= x -> 0 <= rnd x) /\ Forall (fun '(_, i, e, _) => 0 <= i /\ 0 <= e) steps /\
    Forall (fun s => snd s <> "Formation age"%string /\ snd s <> "Other"%string) steps) ->
  strat_legend (figure_axes rows) = Ok (entries, axes') ->
  forall r axs depth j strat y,
    nth_error rows r = Some (axs, depth) -> nth_error axs j = Some (Some strat) ->
    exists arts, nth_error axes' (r * length axs + j) = Some arts /\
      visible_at (painted arts) y = visible_at (fills strat) y.
Proof.
  intros until 4. intros EL. eapply C76_columns_unchanged; eauto.
  intros run seed ct table t col Hr Hp. destruct (H2 run seed ct table Hr) as (rnd & tm & tol & age & steps & M & A & B & C).
  eapply run_stacked; eauto.
Qed.

(** On other axes it recolours what it takes a sample of. *)
Theorem C76_unchanged_refuted : exists arts entries arts' y,
  strat_legend [arts] = Ok (entries, [arts']) /\ visible_at (painted arts') y <> visible_at (painted arts) y.
Proof.
  exists [mk_artist "A" [(0, 2)] (Some 50)]%string, [("A", (0, 0)%nat)]%string, [mk_artist "A" [(0, 2)] (Some 0)]%string, 1.
  split; [reflexivity|]. unfold visible_at, painted. cbn [flat_map map a_where a_colour app filter]. decR.
  cbn. intros X. injection X as X. lra.
Qed.

Example C76_case :
  let a l c := mk_artist l [(0, 2)] (Some c) in
  let axes := [[a "Other" 1; a "_x" 2; a "B" 3; a "B" 4]; []; [a "A" 5; a "Ice" 6; a "B" 7]]%string in
  strat_legend axes = Ok ([("Ice", (2, 1)); ("A", (2, 0)); ("B", (0, 2)); ("Other", (0, 0))]%nat,
    [[a "Other" 0; a "_x" 2; a "B" 0; a "B" 4]; []; [a "A" 0; a "Ice" 100; a "B" 7]])%string.
Proof. reflexivity. Qed.

(** ** C77 *)
(** The column of a run, a seed and a cold trap: nothing if there is no file. *)
Definition shows read by_depth by_diam hash cdf m (run : string) (seed : Z) (ct : string) (c : option (list grow)) : Prop :=
  match read run seed ct with
  | None => c = None
  | Some table => exists t col strat, plot_column m table = Ok (t, col) /\
      get_strat_col_ranges by_depth by_diam hash cdf col = Ok strat /\ c = Some strat
  end.

(** Each run has its axes, on which every cold trap of every seed has its own place; the
    axes between two seeds are free. *)
Theorem C77_axes : forall read by_depth by_diam hash cdf m runs seeds coldtraps rows pct,
  plot_figure read by_depth by_diam hash cdf m runs seeds coldtraps = Ok (rows, pct) ->
  length rows = length runs /\
  forall r run axs depth, nth_error runs r = Some run -> nth_error rows r = Some (axs, depth) ->
    let n := length coldtraps in
    (length axs + 1 = length seeds * (n + 1))%nat /\
    (forall s i seed ct, nth_error seeds s = Some seed -> nth_error coldtraps i = Some ct ->
       exists c, nth_error axs (axis_of n s i) = Some c /\
         shows read by_depth by_diam hash cdf m run seed ct c) /\
    (forall s, (s + 1 < length seeds)%nat -> nth_error axs (axis_of n s n) = Some None).
Proof.
  intros read by_depth by_diam hash cdf m runs seeds cts rows pct E.
  pose proof (figure_ok read by_depth by_diam hash cdf m runs seeds cts) as F. cbv zeta in F. rewrite E in F.
  destruct F as (N0 & LR & _ & F). split; auto. intros r run axs depth Hr Ha. cbv zeta.
  destruct (F _ _ _ _ Hr Ha) as [(L & B & C) _]. split; [lia|]. split.
  - intros s i seed ct Hs Hi.
    destruct (C (s, seed, (i, ct)) (proj2 (fig_cells_In _ _ _ _ _ _) (conj Hs Hi))) as (o & D & X).
    exists (option_map snd o). split.
    + rewrite <- X. f_equal. unfold axis_of, Proofs_Figure.pos. cbn [fst snd]. lia.
    + unfold shows. unfold cdraw, draw_column in D. cbn [fst snd] in D. destruct (read run seed ct) as [table|]; [|now injection D as <-].
      destruct (plot_column m table) as [[t col]|]; cbn [bind] in D; [|discriminate].
      destruct (get_strat_col_ranges _ _ _ _ col) as [out|] eqn:Eo; cbn [bind] in D; [|discriminate].
      injection D as <-. exists t, col, out. auto.
  - intros s Hs. apply B; [|unfold axis_of; nia]. intros [[s' seed] [i ct]] Hc. apply fig_cells_In in Hc as [_ Hi].
    assert (i < length cts)%nat by (apply nth_error_Some; congruence). unfold axis_of, Proofs_Figure.pos. cbn [fst snd].
    destruct (Nat.lt_trichotomy s s') as [Q | [Q | Q]]; nia.
Qed.

(** Exactly those free axes are switched off. *)
Theorem C77_blank : forall n nseeds p, (0 < nseeds)%nat ->
  (In p (blank_axes n (nseeds * (n + 1) - 1)) <-> exists s, (s + 1 < nseeds)%nat /\ p = axis_of n s n).
Proof.
  intros n ns p H0. unfold blank_axes, axis_of. rewrite filter_In, in_seq, andb_true_iff, Nat.leb_le, Nat.eqb_eq. split.
  - intros [[_ U] [L M]]. apply Nat.mod_divides in M as (q & Q); [|lia]. exists q. nia.
  - intros (s & S & ->). split; [nia|]. split; [lia|]. replace (s * (n + 1) + n - n)%nat with (s * (n + 1))%nat by lia.
    apply Nat.mod_mul. lia.
Qed.

(** The depth at the lower end of a run's axes is the largest of its columns and those of
    the runs above it. *)
Theorem C77_depth : forall read by_depth by_diam hash cdf m runs seeds coldtraps rows pct r axs depth,
  plot_figure read by_depth by_diam hash cdf m runs seeds coldtraps = Ok (rows, pct) ->
  nth_error rows r = Some (axs, depth) ->
  let plotted d := exists r' axs' depth' strat g, (r' <= r)%nat /\ nth_error rows r' = Some (axs', depth') /\
    In (Some strat) axs' /\ In g strat /\ d = l_depth (g_layer g) in
  0 <= depth /\ (forall d, plotted d -> d <= depth) /\ (depth = 0 \/ plotted depth).
Proof.
  intros read by_depth by_diam hash cdf m runs seeds cts rows pct r axs depth E Hr.
  pose proof (figure_ok read by_depth by_diam hash cdf m runs seeds cts) as F. cbv zeta in F. rewrite E in F.
  destruct F as (N0 & LR & _ & F). cbv zeta.
  assert (RUN : forall r' a d, nth_error rows r' = Some (a, d) -> exists run, nth_error runs r' = Some run).
  { intros r' a d H. assert (r' < length runs)%nat by (rewrite <- LR; apply nth_error_Some; congruence).
    destruct (nth_error runs r') eqn:X; [eauto|]. apply nth_error_None in X. lia. }
  assert (Q : forall r' run' axs' depth', nth_error runs r' = Some run' -> nth_error rows r' = Some (axs', depth') ->
    forall d, (exists strat g, In (Some strat) axs' /\ In g strat /\ d = l_depth (g_layer g)) <->
              depths_of read by_depth by_diam hash cdf m seeds cts run' d).
  { intros r' run' axs' depth' H1 H2 d. destruct (F _ _ _ _ H1 H2) as [(L & B & C) _]. split.
    - intros (strat & g & I & Ig & ->). apply In_nth_error in I as (q & I).
      assert (Lq : (q < length axs')%nat) by (apply nth_error_Some; congruence).
      destruct (existsb (fun c => Nat.eqb q (Proofs_Figure.pos (length cts) c)) (fig_cells seeds cts)) eqn:Ex.
      + apply existsb_exists in Ex as (c & X1 & X2). apply Nat.eqb_eq in X2. subst q.
        destruct (C c X1) as (o & D & N). rewrite I in N. destruct o as [[sdf st]|]; [|discriminate].
        cbn in N. injection N as <-. exists c, sdf, strat, g. auto.
      + exfalso. rewrite B in I; [discriminate| |lia]. intros c Hc ->.
        assert (existsb (fun c0 => Nat.eqb (Proofs_Figure.pos (length cts) c) (Proofs_Figure.pos (length cts) c0)) (fig_cells seeds cts) = true)
          by (apply existsb_exists; exists c; split; [auto|apply Nat.eqb_refl]). congruence.
    - intros (c & sdf & strat & g & Hc & D & Ig & ->). destruct (C c Hc) as (o & D' & N).
      rewrite D in D'. injection D' as <-. exists strat, g. split; auto. apply nth_error_In in N. exact N. }
  destruct (RUN _ _ _ Hr) as (run & Hrun). destruct (F _ _ _ _ Hrun Hr) as [_ (G1 & G2 & G3)]. split; [exact G1|]. split.
  - intros d (r' & axs' & depth' & strat & g & Lr & H1 & H2). apply G2. destruct (RUN _ _ _ H1) as (run' & R').
    exists r', run'. split; auto. split; auto. apply (Q _ _ _ _ R' H1). eauto.
  - destruct G3 as [G3|(r' & run' & Lr & R' & X)]; [left; exact G3|right].
    assert (r' < length rows)%nat by (rewrite LR; apply nth_error_Some; congruence).
    destruct (nth_error rows r') as [[axs' depth']|] eqn:H1; [|apply nth_error_None in H1; lia].
    apply (Q _ _ _ _ R' H1) in X as (strat & g & X). exists r', axs', depth', strat, g. tauto.
Qed.

(** The table that is saved has one column of percentages for each run, seed and cold trap
    that has a file. *)
Theorem C77_saved : forall read by_depth by_diam hash cdf m runs seeds coldtraps rows pct,
  plot_figure read by_depth by_diam hash cdf m runs seeds coldtraps = Ok (rows, pct) ->
  NoDup (map fst pct) /\
  forall run seed ct v, In (run, seed, ct, v) pct <->
    In run runs /\ In seed seeds /\ In ct coldtraps /\
    exists table t col, read run seed ct = Some table /\ plot_column m table = Ok (t, col) /\
      v = map l_icepct (by_depth col).
Proof.
  intros read by_depth by_diam hash cdf m runs seeds cts rows pct E.
  pose proof (figure_ok read by_depth by_diam hash cdf m runs seeds cts) as F. cbv zeta in F. rewrite E in F.
  destruct F as (N0 & LR & [ND H] & F). split; auto. intros run seed ct v. rewrite H. clear H.
  unfold saved. cbn [fst snd]. split.
  - intros [(run' & [[s seed'] [i ct']] & Hr & Hc & K) X]. unfold ckey in K. cbn [fst snd] in K. injection K as -> -> ->.
    apply fig_cells_In in Hc as [Hs Hi]. apply nth_error_In in Hs, Hi. split; auto. split; auto. split; auto.
    unfold draw_column in X. destruct (read run' seed' ct') as [table|]; [|discriminate].
    destruct (plot_column m table) as [[t col]|] eqn:Ep; cbn [bind] in X; [|discriminate].
    destruct (get_strat_col_ranges _ _ _ _ col) as [out|]; cbn [bind] in X; [|discriminate].
    injection X as <-. exists table, t, col. auto.
  - intros (Hr & Hs & Hi & table & t & col & Er & Ep & ->).
    apply In_nth_error in Hs as (s & Hs). apply In_nth_error in Hi as (i & Hi).
    pose proof (proj2 (fig_cells_In seeds cts s seed i ct) (conj Hs Hi)) as Hc.
    split; [exists run, (s, seed, (i, ct)); auto|]. apply In_nth_error in Hr as (r & Hr).
    assert (Lr : (r < length rows)%nat) by (rewrite LR; apply nth_error_Some; congruence).
    destruct (nth_error rows r) as [[axs d]|] eqn:Ha; [|apply nth_error_None in Ha; lia].
    destruct (F _ _ _ _ Hr Ha) as [(_ & _ & C) _]. destruct (C _ Hc) as (o & D & _).
    unfold cdraw in D. cbn [fst snd] in D. rewrite D. unfold draw_column in D. rewrite Er, Ep in D. cbn [bind] in D.
    destruct (get_strat_col_ranges _ _ _ _ col) as [out|]; cbn [bind] in D; [|discriminate]. injection D as <-. reflexivity.
Qed.

(** There is no figure only if it would have no column or a file has a column that cannot
    be plotted. *)
Theorem C77_errors : forall read by_depth by_diam hash cdf m runs seeds coldtraps e,
  plot_figure read by_depth by_diam hash cdf m runs seeds coldtraps = Err e ->
  (e = ValueError /\ (seeds = [] \/ length seeds = 1%nat /\ coldtraps = [])) \/
  exists run seed ct table, In run runs /\ In seed seeds /\ In ct coldtraps /\ read run seed ct = Some table /\
    (plot_column m table = Err e \/
     exists t col, plot_column m table = Ok (t, col) /\ get_strat_col_ranges by_depth by_diam hash cdf col = Err e).
Proof.
  intros read by_depth by_diam hash cdf m runs seeds cts e E.
  pose proof (figure_ok read by_depth by_diam hash cdf m runs seeds cts) as F. cbv zeta in F. rewrite E in F.
  destruct F as [[-> Z]|(_ & run & [[s seed] [i ct]] & Hr & Hc & D)].
  - left. split; auto. destruct seeds as [|a [|b l]]; [auto| |cbn in Z; lia]. right. split; auto.
    destruct cts; [auto|cbn in Z; lia].
  - right. apply fig_cells_In in Hc as [Hs Hi]. apply nth_error_In in Hs, Hi.
    unfold cdraw, draw_column in D. cbn [fst snd] in D. destruct (read run seed ct) as [table|] eqn:Er; [|discriminate].
    exists run, seed, ct, table. repeat (split; [assumption || reflexivity|]).
    destruct (plot_column m table) as [[t col]|] eqn:Ep; cbn [bind] in D; [|left; congruence].
    right. exists t, col. split; auto. destruct (get_strat_col_ranges _ _ _ _ col) as [out|]; cbn [bind] in D; congruence.
Qed.

(** The files of a run are looked for where that run writes them exactly if its directory
    ends in <run>/<seed>. *)
Theorem C77_files : forall P run seed ct, plain_name run ->
  (strat_file P run seed ct = Ok (path_parts P ++ ["strat_" ++ ct ++ ".csv"]%string) <->
   exists pre, path_parts P = pre ++ [run; format_05d seed]).
Proof. exact strat_file_iff. Qed.

(** So they are for every run of the day that was not given a directory: the figure finds
    them from the configuration of any of these. *)
Theorem C77_files_default : forall E kw kw' c c' z run run' P P' ct,
  starts_slash (cwd E) = true -> normpath (cwd E) = cwd E ->
  plain_name (date_now E) -> plain_name run -> plain_name run' ->
  Cfg E kw = Ok c -> start kw "out_path" = VStr "" -> start kw "run_name" = VStr run -> getv c "out_path" = VStr P ->
  Cfg E kw' = Ok c' -> start kw' "out_path" = VStr "" -> start kw' "run_name" = VStr run' -> getv c' "out_path" = VStr P' ->
  getv c' "seed" = VInt z ->
  strat_file P run' z ct = Ok (path_parts P' ++ ["strat_" ++ ct ++ ".csv"]%string).
Proof.
  intros E kw kw' c c' z run run' P P' ct C CN D R R' HC O N HP HC' O' N' HP' Z'.
  assert (Z : exists z0, getv c "seed" = VInt z0).
  { apply Cfg_built in HC as (s & mm & pr & op & B). rewrite (seed_value _ _ _ _ _ _ _ B). eauto. }
  destruct Z as (z0 & Z).
  assert (PP : forall kw c z P name, plain_name name -> Cfg E kw = Ok c -> getv c "seed" = VInt z ->
    start kw "out_path" = VStr "" -> start kw "run_name" = VStr name -> getv c "out_path" = VStr P ->
    path_parts P = (path_parts (cwd E) ++ ["out"%string; date_now E]) ++ [name; format_05d z]).
  { clear - C CN D. intros kw c z P name Pl HC HZ HO HN HP.
    pose proof (C40_default E kw c z P name C HC HZ HO HN HP) as X. cbv zeta in X.
    apply plain_plainc in D, Pl. pose proof (seed_plain z) as Sp.
    assert (Po : plainc "out") by (split; [discriminate|split; [discriminate|split; [discriminate|reflexivity]]]).
    set (dir := path_join _ (format_05d z)) in *.
    assert (SS : forall a b, starts_slash a = true -> plainc b -> starts_slash (path_join a b) = true).
    { intros a b H (_ & _ & _ & K). unfold path_join. rewrite (noslash_starts b K). destruct a as [|x a]; [discriminate|].
      destruct (ends_slash (String x a)); exact H. }
    assert (S4 : starts_slash dir = true) by (unfold dir; auto 8).
    assert (PD : forall l, plainc l -> path_parts l = [l]) by (intros; now apply parts_plain).
    assert (NS : forall l, plainc l -> starts_slash l = false) by (intros l (_ & _ & _ & K); now apply noslash_starts).
    rewrite X. destruct (exists_ E (dir ++ "/")%string).
    - rewrite parts_end. unfold dir. rewrite !parts_join by auto. rewrite (PD (format_05d z)), (PD name), (PD (date_now E)), (PD "out"%string) by auto. rewrite <- !app_assoc. reflexivity.
    - assert (EU : expanduser (home E) dir = dir).
      { destruct dir as [|a d]; [reflexivity|]. cbn in S4. apply Ascii.eqb_eq in S4. subst a. reflexivity. }
      rewrite EU. unfold abspath. rewrite S4. unfold dir.
      rewrite !normpath_join by auto 8. rewrite CN, !parts_addc. rewrite (PD (format_05d z)), (PD name), (PD (date_now E)), (PD "out"%string) by auto. rewrite <- !app_assoc. reflexivity. }
  pose proof (PP kw c z0 P run R HC Z O N HP) as A. pose proof (PP kw' c' z P' run' R' HC' Z' O' N' HP') as A'.
  unfold strat_file. cbv zeta. rewrite A, A', (parts_plain _ (plain_plainc _ R')).
  set (pre := path_parts (cwd E) ++ _). rewrite app_length. cbn [length].
  rewrite (proj2 (Nat.ltb_ge _ _)) by lia. f_equal. replace (length pre + 2 - 2)%nat with (length pre) by lia.
  rewrite firstn_app, Nat.sub_diag, firstn_all. cbn [firstn]. rewrite app_nil_r, <- !app_assoc. reflexivity.
Qed.
(** A run that was given a directory is not found. *)
Theorem C77_files_given_refuted : exists E c P, Cfg E [("out_path", VStr "/data/exp1"); ("seed", VInt 1)]%string = Ok c /\
  getv c "out_path" = VStr P /\ getv c "run_name" = VStr "moonpies" /\
  path_parts P = ["data"; "exp1"; "00001"]%string /\
  strat_file P "moonpies" 1 "Haworth" = Ok ["data"; "moonpies"; "00001"; "strat_Haworth.csv"]%string.
Proof.
  exists (machine [] "240101"), (built_from (machine [] "240101") [("out_path", VStr "/data/exp1"); ("seed", VInt 1)]%string), "/data/exp1/00001"%string.
  repeat split; vm_compute; reflexivity.
Qed.

(** A figure of two runs, with two seeds and two cold traps, one of them without files. *)
Definition ice_table (d : R) : list layer :=
  [mk_layer 0 0 "Formation age" 4 d None; mk_layer d 0 "Ice" 3 d (Some 100)]%string.
Definition one (d : R) : layer := mk_layer d 0 "Ice" 3 d (Some 100).
Lemma ice_plotted d : 1 < d -> plot_column 1 (ice_table d) = Ok (4, [one d]).
Proof.
  intros H. unfold plot_column, ice_table.
  cbn -[clean_up_strat_col].
  unfold clean_up_strat_col.
  cbn -[Rltb Reqb Rplus Rminus Rmult Rdiv IZR].
  rewrite (proj2 (Rltb_false _ _)) by lra. cbn -[Rltb Reqb Rplus Rminus Rmult Rdiv IZR pct].
  rewrite !Rplus_0_r. replace (pct d 0) with (Some 100); [reflexivity|]. unfold pct. rewrite Rplus_0_r.
  unfold Reqb. destruct (Req_EM_T d 0); [lra|]. f_equal. field. lra.
Qed.
Definition drawn (d : R) : list grow :=
  map (fun x => mk_grow x ".." "Ice") [mk_layer 0 0 "Ice" 0 0 (Some 0); one d; one d]%string.
Lemma ice_drawn d : get_strat_col_ranges (isort l_depth) (isort snd) (fun _ => 0%Z) [] [one d] = Ok (drawn d).
Proof.
  unfold get_strat_col_ranges. unfold isort. cbn [app fold_right insert_by one l_depth].
  rewrite (proj2 (Rleb_true _ _)) by lra. cbn -[Rltb Reqb Rplus Rminus Rmult Rdiv IZR HATCHES].
  reflexivity.
Qed.
Definition files (run : string) (seed : Z) (ct : string) : option (list layer) :=
  if String.eqb ct "Faustini" then None else if String.eqb run "a" then Some (ice_table 5) else Some (ice_table 10).
Definition case_rows := [([None; Some (drawn 5); None; None; Some (drawn 5)], 5); ([None; Some (drawn 10); None; None; Some (drawn 10)], 10)].
Example C77_case :
  plot_figure files (isort l_depth) (isort snd) (fun _ => 0%Z) [] 1 ["a"; "b"]%string [1; 2]%Z ["Faustini"; "Haworth"]%string =
  Ok (case_rows,
      [(("a", 1%Z, "Haworth"), [Some 100]); (("a", 2%Z, "Haworth"), [Some 100]);
       (("b", 1%Z, "Haworth"), [Some 100]); (("b", 2%Z, "Haworth"), [Some 100])]%string).
Proof.
  assert (D5 : forall seed,
    draw_column files (isort l_depth) (isort snd) (fun _ => 0%Z) [] 1 "a" seed "Haworth" = Ok (Some ([one 5], drawn 5))).
  { intros seed. unfold draw_column. change (files "a" seed "Haworth") with (Some (ice_table 5)). cbv iota.
    rewrite (ice_plotted 5) by lra. cbn [bind]. rewrite ice_drawn. reflexivity. }
  assert (D10 : forall seed,
    draw_column files (isort l_depth) (isort snd) (fun _ => 0%Z) [] 1 "b" seed "Haworth" = Ok (Some ([one 10], drawn 10))).
  { intros seed. unfold draw_column. change (files "b" seed "Haworth") with (Some (ice_table 10)). cbv iota.
    rewrite (ice_plotted 10) by lra. cbn [bind]. rewrite ice_drawn. reflexivity. }
  assert (N : forall run seed, draw_column files (isort l_depth) (isort snd) (fun _ => 0%Z) [] 1 run seed "Faustini" = Ok None)
    by reflexivity.
  assert (M : forall m d, deeper m (drawn d) = let x := Rmax (Rmax 0 d) d in if Rltb m x then x else m) by reflexivity.
  assert (M' : forall m d, 0 < d -> m < d -> deeper m (drawn d) = d).
  { intros m d P L. rewrite M. cbv zeta. rewrite (Rmax_right 0 d) by lra. rewrite (Rmax_left d d) by lra.
    now rewrite (proj2 (Rltb_true _ _)). }
  assert (M1 : forall d, 0 < d -> deeper d (drawn d) = d).
  { intros d P. rewrite M. cbv zeta. rewrite (Rmax_right 0 d) by lra. rewrite (Rmax_left d d) by lra.
    rewrite (proj2 (Rltb_false _ _)); [reflexivity|lra]. }
  assert (S1 : forall l : layer, isort l_depth [l] = [l]) by reflexivity.
  unfold plot_figure, draw_run, enum. cbn [length].
  change (_ <=? 0)%Z with false. cbv iota. change (Z.to_nat _) with 5%nat.
  cbn [fold_left combine seq length map flat_map app bind].
  repeat (unfold draw_cell at 1; rewrite ?N, ?D5, ?D10; cbn [bind fst snd]).
  rewrite !S1. cbn -[drawn deeper IZR]. rewrite (M' 0 5), (M1 5), (M' 5 10), (M1 10) by lra. reflexivity.
Qed.

(** The axes of the runs do not share one depth scale: the depth only grows from run to
    run. *)
Theorem C77_one_scale_refuted : exists read by_depth by_diam hash cdf m runs seeds coldtraps rows pct a b d d',
  sorts_by l_depth by_depth /\ sorts_by snd by_diam /\
  plot_figure read by_depth by_diam hash cdf m runs seeds coldtraps = Ok (rows, pct) /\
  nth_error rows 0 = Some (a, d) /\ nth_error rows 1 = Some (b, d') /\ d < d'.
Proof.
  do 9 eexists. exists case_rows. do 5 eexists. split; [apply (isort_ok l_depth)|]. split; [apply (isort_ok snd)|].
  split; [apply C77_case|]. split; [reflexivity|]. split; [reflexivity|]. lra.
Qed.

Example C77_case_blank : blank_axes 2 5 = [2]%nat.
Proof. reflexivity. Qed.
Example C77_case_files :
  let E := machine [] "240101" in
  exists c c', Cfg E [("seed", VInt 7)]%string = Ok c /\ Cfg E [("run_name", VStr "test"); ("seed", VInt 3)]%string = Ok c' /\
  normpath (cwd E) = cwd E /\ getv c "out_path" = VStr "/work/out/240101/moonpies/00007" /\
  strat_file "/work/out/240101/moonpies/00007" "test" 3 "Haworth" =
  Ok ["work"; "out"; "240101"; "test"; "00003"; "strat_Haworth.csv"]%string.
Proof.
  exists (built_from (machine [] "240101") [("seed", VInt 7)]%string),
         (built_from (machine [] "240101") [("run_name", VStr "test"); ("seed", VInt 3)]%string).
  repeat split; vm_compute; reflexivity.
Qed.

(** The hypotheses of C76_columns_unchanged hold of that figure. *)
Example C76_case_figure : exists entries axes',
  strat_legend (figure_axes case_rows) = Ok (entries, axes') /\
  (forall run seed ct table t col, files run seed ct = Some table -> plot_column 1 table = Ok (t, col) -> stacked col) /\
  map fst entries = ["Ice"]%string.
Proof.
  do 2 eexists. split; [reflexivity|]. split; [|reflexivity].
  assert (St : forall d, 0 < d -> stacked [one d]) by (intros d H; split; repeat constructor; cbn; lra).
  assert (Inj : forall a b : R * list layer, Ok a = Ok b -> a = b) by congruence.
  intros run seed ct table t col Hf. unfold files in Hf.
  destruct (String.eqb ct "Faustini"); [discriminate|]. destruct (String.eqb run "a"); injection Hf as <-;
    rewrite ice_plotted by lra; intros X; apply Inj in X; injection X as _ <-; apply St; lra.
Qed.

(** ** C78 *)
(** A code of six digits, with or without "#", gives its three numbers, divided by 256. *)
Theorem C78_code : forall s r g b, six_digits s r g b ->
  hex_to_rgb s = Ok [INR r / 256; INR g / 256; INR b / 256] /\ (r < 256 /\ g < 256 /\ b < 256)%nat.
Proof. exact six_rgb. Qed.
Example C78_code_case : six_digits "#1f77B4" 31 119 180.
Proof.
  exists "1"%char, "f"%char, "7"%char, "7"%char, "B"%char, "4"%char, 1%nat, 15%nat, 7%nat, 7%nat, 11%nat, 4%nat.
  unfold digit_value. repeat split; auto.
Qed.
(** So white is not quite white, as 255 stands for the full colour. *)
Theorem C78_white_refuted : exists s v, six_digits s 255 255 255 /\ hex_to_rgb s = Ok v /\ Forall (fun x => x < 1) v.
Proof.
  exists "#ffffff"%string. assert (X : six_digits "#ffffff" 255 255 255).
  { exists "f"%char, "f"%char, "f"%char, "f"%char, "f"%char, "f"%char, 15%nat, 15%nat, 15%nat, 15%nat, 15%nat, 15%nat. unfold digit_value. repeat split; auto. }
  eexists. split; [exact X|]. split; [exact (proj1 (six_rgb _ _ _ _ X))|].
  assert (INR 255 = 255) by (rewrite INR_IZR_INZ; reflexivity). repeat constructor; lra.
Qed.
(** A short code is not read as matplotlib reads it: "#fff" is almost black. *)
Theorem C78_short_refuted : hex_to_rgb "#fff" = Ok [15 / 256; 15 / 256; 15 / 256].
Proof. reflexivity. Qed.

(** A bad code is a ValueError, more locations than colours an IndexError. *)
Theorem C78_errors : forall codes locs,
  match make_cmap codes locs with
  | Ok cmap => length cmap = 3%nat /\ Forall (fun s => exists v, hex_to_rgb s = Ok v) codes /\
               (forall l, locs = Some l -> (length l <= length codes)%nat)
  | Err e => (e = ValueError /\ exists s, In s codes /\ hex_to_rgb s = Err ValueError) \/
             (e = IndexError /\ exists l, locs = Some l /\ (length codes < length l)%nat)
  end.
Proof.
  intros codes locs. unfold make_cmap.
  assert (R1 : match mapM hex_to_rgb codes with
    | Ok rgbs => length rgbs = length codes /\ Forall (fun s => exists v, hex_to_rgb s = Ok v) codes /\ Forall (fun v => (3 <= length v)%nat) rgbs
    | Err e => e = ValueError /\ exists s, In s codes /\ hex_to_rgb s = Err ValueError end).
  { induction codes as [|s codes IH]; cbn [mapM]; [repeat constructor|]. pose proof (hex_errors s) as H.
    destruct (hex_to_rgb s) as [v|e] eqn:Es; cbn [bind].
    - destruct (mapM hex_to_rgb codes) as [vs|e]; cbn [bind].
      + destruct IH as (I1 & I2 & I3). cbn. split; [lia|]. split; constructor; eauto.
      + destruct IH as (-> & s' & I1 & I2). split; auto. exists s'. cbn. auto.
    - subst e. split; auto. exists s. cbn. auto. }
  destruct (mapM hex_to_rgb codes) as [rgbs|e]; cbn [bind]; [|left; exact R1].
  destruct R1 as (L & Fc & Fr). set (ls := match locs with Some l => l | None => _ end).
  assert (G : forall num (pts : list (nat * R)), (num < 3)%nat ->
    match mapM (fun '(i, loc) => let* rgb := get rgbs i in let* v := get rgb num in Ok (loc, v)) pts with
    | Ok _ => Forall (fun p => (fst p < length rgbs)%nat) pts
    | Err e => e = IndexError /\ exists p, In p pts /\ (length rgbs <= fst p)%nat end).
  { intros num pts Hn. induction pts as [|[i loc] pts IH]; cbn [mapM]; [constructor|].
    destruct (get rgbs i) as [rgb|e] eqn:Ei; cbn [bind].
    - assert (I : In rgb rgbs) by (apply get_Ok in Ei; eapply nth_error_In; exact Ei).
      assert (Li : (i < length rgbs)%nat) by (apply get_Ok in Ei; apply nth_error_Some; congruence).
      rewrite Forall_forall in Fr. pose proof (Fr rgb I) as L3.
      assert (exists v, get rgb num = Ok v) as [v ->].
      { unfold get. destruct (nth_error rgb num) eqn:X; [eauto|]. apply nth_error_None in X. lia. }
      cbn [bind]. destruct (mapM _ pts) as [vs|e]; cbn [bind].
      + constructor; auto.
      + destruct IH as (-> & p & I1 & I2). split; auto. exists p. cbn. auto.
    - unfold get in Ei. destruct (nth_error rgbs i) eqn:X; [discriminate|]. injection Ei as <-. apply nth_error_None in X.
      split; auto. exists (i, loc). cbn. auto. }
  cbn [seq mapM]. pose proof (G 0%nat (enum ls) ltac:(lia)) as G0.
  destruct (mapM _ (enum ls)) as [v0|e] in G0 |- *; cbn [bind].
  - assert (LL : (length ls <= length rgbs)%nat).
    { destruct ls as [|x l] eqn:El; [cbn; lia|]. rewrite <- El in *. rewrite Forall_forall in G0.
      destruct (nth_error ls (length ls - 1)) as [y|] eqn:Ey; [|apply nth_error_None in Ey; rewrite El in Ey; cbn in Ey; lia].
      specialize (G0 (length ls - 1, y)%nat (proj2 (enum_In _ _ _) Ey)). cbn in G0. lia. }
    assert (H : forall num, (num < 3)%nat -> exists v, mapM (fun '(i, loc) => let* rgb := get rgbs i in let* v := get rgb num in Ok (loc, v)) (enum ls) = Ok v).
    { intros num Hn. pose proof (G num (enum ls) Hn) as Gn. destruct (mapM _ (enum ls)) as [v|e]; [eauto|]. exfalso.
      destruct Gn as (_ & [i loc] & I1 & I2). apply enum_In in I1. assert (i < length ls)%nat by (apply nth_error_Some; congruence). cbn in I2. lia. }
    destruct (H 1%nat ltac:(lia)) as [v1 ->]. cbn [bind]. destruct (H 2%nat ltac:(lia)) as [v2 ->]. cbn [bind].
    split; [reflexivity|]. split; auto. intros l ->. unfold ls in LL. lia.
  - right. destruct G0 as (-> & [i loc] & I1 & I2). split; auto. apply enum_In in I1. cbn in I2.
    assert (Li : (i < length ls)%nat) by (apply nth_error_Some; congruence). unfold ls in Li. destruct locs as [l|].
    + exists l. split; auto. lia.
    + rewrite linspace_length in Li. lia.
Qed.

Lemma cmap_mix codes cols cmap k i a b : codes_of codes cols -> make_cmap codes None = Ok cmap ->
  nth_error cols i = Some a -> nth_error cols (S i) = Some b ->
  let w := INR k / 255 * (INR (length cols) - 1) - INR i in 0 <= w <= 1 ->
  mapM (fun seg => lut_entry seg k) cmap = Ok (mix w a b).
Proof.
  intros F E Ha Hb w W. rewrite (make_cmap_ok _ _ F) in E. injection E as <-. cbn [mapM].
  rewrite !(fun j => lut_linear codes cols j k i a b F Ha Hb W). fold w. cbn [bind].
  destruct a as [[r g] b0], b as [[r' g'] b']. reflexivity.
Qed.
Lemma entry_place n k : (2 <= n)%nat -> (k <= 255)%nat -> exists i,
  (S i < n)%nat /\ 0 <= INR k / 255 * (INR n - 1) - INR i <= 1.
Proof.
  intros Hn Hk. set (N := (n - 1)%nat). assert (EN : INR n - 1 = INR N) by (unfold N; rewrite minus_INR by lia; cbn; lra).
  assert (E255 : INR 255 = 255) by (rewrite INR_IZR_INZ; reflexivity).
  destruct (Nat.eq_dec k 255) as [->|K].
  - exists (N - 1)%nat. split; [lia|]. rewrite EN, E255, minus_INR by lia. cbn [INR]. unfold Rdiv. rewrite Rinv_r by lra. lra.
  - exists (k * N / 255)%nat. pose proof (Nat.div_mod (k * N) 255 ltac:(lia)) as D. pose proof (Nat.mod_upper_bound (k * N) 255 ltac:(lia)) as M.
    set (q := (k * N / 255)%nat) in *. set (r := ((k * N) mod 255)%nat) in *. split.
    + assert (q < N)%nat; [|lia]. apply Nat.div_lt_upper_bound; [lia|]. nia.
    + rewrite EN. apply (f_equal INR) in D. rewrite mult_INR, plus_INR, mult_INR, E255 in D.
      apply lt_INR in M. rewrite E255 in M. pose proof (pos_INR r). lra.
Qed.

(** With two colours or more, a percentage has a colour between two neighbouring ones, less
    than 1/255 of the scale from where a linear scale would have it. *)
Theorem C78_linear : forall codes cols cmap p, codes_of codes cols -> (2 <= length cols)%nat ->
  make_cmap codes None = Ok cmap ->
  let x := Rmax 0 (Rmin 1 (p / 100)) in
  exists i a b w, nth_error cols i = Some a /\ nth_error cols (S i) = Some b /\ 0 <= w <= 1 /\
    cmap_at cmap (Some p) = Ok (Some (mix w a b)) /\
    Rabs ((INR i + w) / (INR (length cols) - 1) - x) <= 1 / 255.
Proof.
  intros codes cols cmap p F L E x. set (k := lut_index (p / 100)).
  destruct (entry_place (length cols) k L (index_le _)) as (i & Li & W).
  destruct (nth_error cols i) as [a|] eqn:Ha; [|apply nth_error_None in Ha; lia].
  destruct (nth_error cols (S i)) as [b|] eqn:Hb; [|apply nth_error_None in Hb; lia].
  exists i, a, b, (INR k / 255 * (INR (length cols) - 1) - INR i). split; auto. split; auto. split; auto. split.
  - unfold cmap_at. fold k. rewrite (cmap_mix _ _ _ k i a b F E Ha Hb W). reflexivity.
  - assert (N1 : 1 < INR (length cols)) by (apply (lt_INR 1); lia).
    replace ((INR i + (INR k / 255 * (INR (length cols) - 1) - INR i)) / (INR (length cols) - 1)) with (INR k / 255) by (field; lra).
    assert (E255 : INR 255 = 255) by (rewrite INR_IZR_INZ; reflexivity).
    unfold x, k. clear. destruct (Rle_dec (p / 100) 0) as [A|A].
    + rewrite (index_low _ A). cbn [INR]. rewrite Rmin_right by lra. rewrite Rmax_left by lra. apply Rabs_le. lra.
    + destruct (Rle_dec 1 (p / 100)) as [B|B].
      * rewrite (index_high _ B). rewrite Rmin_left by lra. rewrite Rmax_right by lra.
        rewrite INR_IZR_INZ. cbn [Z.of_nat Pos.of_succ_nat Pos.succ]. apply Rabs_le. lra.
      * rewrite Rmin_right by lra. rewrite Rmax_right by lra. pose proof (index_spec (p / 100) ltac:(lra)) as I. apply Rabs_le. lra.
Qed.

Lemma three (a b c a' b' c' : R) : a = a' -> b = b' -> c = c' -> Ok (Some [a; b; c]) = Ok (Some [a'; b'; c']).
Proof. congruence. Qed.
(** Without ice it is the first colour, with ice only the last. *)
Theorem C78_ends : forall codes cols cmap p, codes_of codes cols -> (2 <= length cols)%nat ->
  make_cmap codes None = Ok cmap ->
  (p <= 0 -> exists c, nth_error cols 0 = Some c /\ cmap_at cmap (Some p) = Ok (Some (mix 0 c c))) /\
  (100 <= p -> exists c, nth_error cols (length cols - 1) = Some c /\ cmap_at cmap (Some p) = Ok (Some (mix 0 c c))).
Proof.
  intros codes cols cmap p F L E. assert (N1 : 1 < INR (length cols)) by (apply (lt_INR 1); lia).
  assert (E255 : INR 255 = 255) by (rewrite INR_IZR_INZ; reflexivity).
  assert (NE : forall i, (i < length cols)%nat -> exists c, nth_error cols i = Some c).
  { intros i Hi. destruct (nth_error cols i) eqn:X; [eauto|]. apply nth_error_None in X. lia. }
  split; intros H.
  - destruct (NE 0%nat ltac:(lia)) as [a Ha], (NE 1%nat ltac:(lia)) as [b Hb]. exists a. split; auto. unfold cmap_at.
    rewrite index_low by lra. rewrite (cmap_mix _ _ _ 0 0 a b F E Ha Hb) by (cbn [INR]; lra).
    cbn [bind]. destruct a as [[r g] b0], b as [[r' g'] b']. unfold mix. cbn [INR]. apply three; field.
  - destruct (NE (length cols - 2)%nat ltac:(lia)) as [a Ha], (NE (length cols - 1)%nat ltac:(lia)) as [b Hb]. exists b. split; auto.
    unfold cmap_at. rewrite index_high by lra.
    assert (Ei : INR (length cols - 2) = INR (length cols) - 2) by (rewrite minus_INR by lia; cbn; lra).
    replace (length cols - 1)%nat with (S (length cols - 2)) in Hb by lia.
    rewrite (cmap_mix _ _ _ 255 _ a b F E Ha Hb) by (rewrite Ei, E255; lra).
    cbn [bind]. rewrite Ei, E255. destruct a as [[r g] b0], b as [[r' g'] b']. unfold mix. apply three; field.
Qed.

(** A layer without a percentage is transparent. *)
Theorem C78_nan : forall codes cols cmap, codes_of codes cols -> (2 <= length cols)%nat ->
  make_cmap codes None = Ok cmap -> cmap_at cmap None = Ok None.
Proof.
  intros codes cols cmap F L E. destruct (C78_ends codes cols cmap 0 F L E) as [H _]. destruct (H ltac:(lra)) as (c & _ & H').
  unfold cmap_at in H' |- *. rewrite index_low in H' by lra. destruct (mapM _ cmap); [reflexivity|discriminate].
Qed.

(** A list of one colour is a colour map that cannot be used. *)
Theorem C78_single_refuted : forall s r g b p, six_digits s r g b ->
  exists cmap, make_cmap [s] None = Ok cmap /\ cmap_at cmap p = Err ValueError.
Proof.
  intros s r g b p H. eexists. split; [apply (make_cmap_ok [s] [(r, g, b)]); repeat constructor; exact H|].
  assert (X : forall k, lut_entry (seg [(r, g, b)] 0) k = Err ValueError).
  { intros k. unfold lut_entry. unfold seg, linspace. cbn [length map seq combine fst].
    replace (valid_locs _) with false; [reflexivity|]. unfold valid_locs. cbn [last].
    unfold Reqb. destruct (Req_EM_T 0 1); [lra|]. destruct (Req_EM_T 0 0); reflexivity. }
  unfold cmap_at. destruct p as [p|]; cbn [mapM]; rewrite X; reflexivity.
Qed.

(** The default colours: grey without ice, blue for ice.  Percentages that differ by more
    than 100/256 are told apart, the larger one darker in red, green and blue. *)
Theorem C78_default : exists cmap, default_cmap = Ok cmap /\
  cmap_at cmap (Some 0) = Ok (Some [211 / 256; 211 / 256; 211 / 256]) /\
  cmap_at cmap (Some 100) = Ok (Some [31 / 256; 119 / 256; 180 / 256]) /\
  forall p q, 0 <= p -> p + 100 / 256 < q -> q <= 100 ->
  exists c d, cmap_at cmap (Some p) = Ok (Some c) /\ cmap_at cmap (Some q) = Ok (Some d) /\
    length c = 3%nat /\ Forall2 (fun x y => y < x) c d.
Proof.
  set (cols := [(211, 211, 211); (31, 119, 180)]%nat).
  assert (F : codes_of CMAP_COLORS cols).
  { unfold CMAP_COLORS, cols. constructor; [|constructor; [|constructor]].
    - exists "D"%char, "3"%char, "D"%char, "3"%char, "D"%char, "3"%char, 13%nat, 3%nat, 13%nat, 3%nat, 13%nat, 3%nat. unfold digit_value. repeat split; auto.
    - exists "1"%char, "f"%char, "7"%char, "7"%char, "b"%char, "4"%char, 1%nat, 15%nat, 7%nat, 7%nat, 11%nat, 4%nat. unfold digit_value. repeat split; auto. }
  assert (I : forall n, INR n = IZR (Z.of_nat n)) by (intros; apply INR_IZR_INZ).
  exists [seg cols 0; seg cols 1; seg cols 2]. assert (E : default_cmap = Ok [seg cols 0; seg cols 1; seg cols 2]) by exact (make_cmap_ok _ _ F).
  split; [exact E|].
  assert (V : forall p, cmap_at [seg cols 0; seg cols 1; seg cols 2] (Some p) =
    Ok (Some (mix (INR (lut_index (p / 100)) / 255) (211, 211, 211)%nat (31, 119, 180)%nat))).
  { intros p. unfold cmap_at. set (k := lut_index (p / 100)).
    assert (Kl : INR k <= 255). { pose proof (index_le (p / 100)) as Q. fold k in Q. apply le_INR in Q. rewrite (I 255%nat) in Q. exact Q. }
    pose proof (pos_INR k).
    assert (W : INR k / 255 * (INR (length cols) - 1) - INR 0 = INR k / 255) by (cbn [length cols INR]; lra).
    pose proof (cmap_mix _ _ _ k 0 (211, 211, 211)%nat (31, 119, 180)%nat F E eq_refl eq_refl) as Q. cbv zeta in Q. rewrite W in Q.
    rewrite Q by lra. reflexivity. }
  rewrite !V.
  split; [|split].
  - rewrite index_low by lra. unfold mix. rewrite !(I 211%nat). cbn [INR Z.of_nat Pos.of_succ_nat Pos.succ]. apply three; lra.
  - rewrite index_high by lra. unfold mix. rewrite (I 255%nat), (I 31%nat), (I 119%nat), (I 180%nat), (I 211%nat).
    cbn [Z.of_nat Pos.of_succ_nat Pos.succ]. apply three; lra.
  - intros p q H0 H1 H2. eexists _, _. split; [apply V|]. split; [apply V|]. split; [reflexivity|].
    assert (K : INR (lut_index (p / 100)) < INR (lut_index (q / 100))).
    { pose proof (index_spec (p / 100) ltac:(lra)) as Ip. destruct (Rlt_dec (q / 100) 1) as [Q|Q].
      - pose proof (index_spec (q / 100) ltac:(lra)) as Iq. lra.
      - rewrite (index_high (q / 100)) by lra. rewrite (I 255%nat). cbn [Z.of_nat Pos.of_succ_nat Pos.succ].
        assert (q = 100) by lra. subst q. lra. }
    unfold mix. rewrite (I 31%nat), (I 119%nat), (I 180%nat), (I 211%nat). cbn [Z.of_nat Pos.of_succ_nat Pos.succ].
    repeat constructor; lra.
Qed.
Example C78_case : exists cmap, make_cmap ["000000"; "#0000FF"; "ff0000"]%string None = Ok cmap /\
  codes_of ["000000"; "#0000FF"; "ff0000"]%string [(0, 0, 0); (0, 0, 255); (255, 0, 0)]%nat.
Proof.
  assert (F : codes_of ["000000"; "#0000FF"; "ff0000"]%string [(0, 0, 0); (0, 0, 255); (255, 0, 0)]%nat).
  { unfold codes_of. repeat constructor.
    - exists "0"%char, "0"%char, "0"%char, "0"%char, "0"%char, "0"%char, 0%nat, 0%nat, 0%nat, 0%nat, 0%nat, 0%nat. unfold digit_value. repeat split; auto.
    - exists "0"%char, "0"%char, "0"%char, "0"%char, "F"%char, "F"%char, 0%nat, 0%nat, 0%nat, 0%nat, 15%nat, 15%nat. unfold digit_value. repeat split; auto.
    - exists "f"%char, "f"%char, "0"%char, "0"%char, "0"%char, "0"%char, 15%nat, 15%nat, 0%nat, 0%nat, 0%nat, 0%nat. unfold digit_value. repeat split; auto. }
  eexists. split; [exact (make_cmap_ok _ _ F)|exact F].
Qed.

Print Assumptions C76_labels.
Print Assumptions C76_samples.
Print Assumptions C76_others.
Print Assumptions C76_columns_unchanged.
Print Assumptions C76_runs_unchanged.
Print Assumptions C76_unchanged_refuted.
Print Assumptions C77_axes.
Print Assumptions C77_blank.
Print Assumptions C77_depth.
Print Assumptions C77_saved.
Print Assumptions C77_errors.
Print Assumptions C77_files.
Print Assumptions C77_files_default.
Print Assumptions C77_files_given_refuted.
Print Assumptions C77_one_scale_refuted.
Print Assumptions C78_code.
Print Assumptions C78_white_refuted.
Print Assumptions C78_short_refuted.
Print Assumptions C78_errors.
Print Assumptions C78_linear.
Print Assumptions C78_ends.
Print Assumptions C78_nan.
Print Assumptions C78_single_refuted.
Print Assumptions C78_default.
