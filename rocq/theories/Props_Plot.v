(** Properties C58, C59, C72 and C73: plotted columns and Monte Carlo totals. *)
From Coq Require Import String Ascii List ZArith Reals Bool Lra Lia Sorted Permutation.
From Verif Require Import Base Model_Time Model_Strat Model_Plot Spec_Strat Spec_Plot Proofs_Base
  Proofs_Time Proofs_Strat Proofs_Plot Proofs_Ranges Proofs_Agg.
Import ListNotations.
Open Scope R_scope.

Ltac decR :=
  repeat match goal with
  | |- context [Rltb ?a ?b] =>
    first [ rewrite (proj2 (Rltb_true a b)) by lra | rewrite (proj2 (Rltb_false a b)) by lra ]
  | |- context [Rleb ?a ?b] =>
    first [ rewrite (proj2 (Rleb_true a b)) by lra | rewrite (proj2 (Rleb_false a b)) by lra ]
  end.

(** ** C58 *)
(** The cleaned-up column has the layers that are at least [m] thick, unchanged, each with
    its ice percentage, and nothing of the others. *)
Theorem C58_rows : forall m strat out,
  clean_up_strat_col m strat = Ok out ->
  Forall (fun l => l_label l <> "Other"%string) strat ->
  Sorted (fun a b => l_label a <> l_label b) strat ->
  Forall2 same_layer (thick_layers m strat) out.
Proof. exact clean_up_rows. Qed.

(** Also when neighbouring layers share a label (and are merged) the totals are those of
    the layers that are at least [m] thick. *)
Theorem C58_totals : forall m strat out,
  clean_up_strat_col m strat = Ok out ->
  Forall (fun l => l_label l <> "Other"%string) strat ->
  Rsum (map l_ice out) = Rsum (map l_ice (thick_layers m strat)) /\
  Rsum (map l_ej out) = Rsum (map l_ej (thick_layers m strat)).
Proof. exact clean_up_totals. Qed.

(** It fails, with a KeyError, when there are layers but none is thick enough. *)
Theorem C58_errors : forall m strat,
  Forall (fun l => l_label l <> "Other"%string) strat ->
  match clean_up_strat_col m strat with
  | Ok _ => strat = [] \/ thick_layers m strat <> []
  | Err e => e = KeyError /\ strat <> [] /\ thick_layers m strat = []
  end.
Proof. exact clean_up_errors. Qed.

(** With no thin layer the totals are preserved. *)
Theorem C58_no_thin : forall m strat, thick_layers m strat = strat ->
  Forall (fun l => l_label l <> "Other"%string) strat ->
  exists out, clean_up_strat_col m strat = Ok out /\
    Rsum (map l_ice out) = Rsum (map l_ice strat) /\ Rsum (map l_ej out) = Rsum (map l_ej strat).
Proof.
  intros m strat T N. pose proof (clean_up_errors m strat N) as E.
  destruct (clean_up_strat_col m strat) as [out|e] eqn:Ec.
  - exists out. split; auto. pose proof (clean_up_totals m strat out Ec N) as H. now rewrite T in H.
  - exfalso. destruct E as (_ & E1 & E2). congruence.
Qed.

(** The column of a run's table: the layers with [m] metres of ice and ejecta or more. *)
Theorem C58_run : forall rnd thick_min tol age steps table m,
  make_strat_col rnd thick_min tol true age steps = Ok table ->
  Forall (fun s => snd s <> "Formation age"%string /\ snd s <> "Other"%string) steps ->
  let big := filter (fun l => Rleb m (l_ice l + l_ej l)) (tl table) in
  match plot_column m table with
  | Ok (t, out) => hd_error (map l_time table) = Some t /\ Forall2 same_layer big out /\
                   (tl table = [] \/ big <> [])
  | Err e => e = KeyError /\ tl table <> [] /\ big = []
  end.
Proof. exact plot_run. Qed.

Definition thin_case : list layer :=
  [mk_layer 4 0 "Ice" 3 12 (Some 100); mk_layer (1 / 2) 0 "A" 2 8 (Some 0);
   mk_layer 7 (1 / 2) "Ice" 1 (15 / 2) (Some 100)]%string.

Example C58_case : exists out, clean_up_strat_col 1 thin_case = Ok out /\
  map l_label out = ["Ice"; "Ice"]%string /\ map l_depth out = [12; 15 / 2] /\
  Forall (fun l => l_label l <> "Other"%string) thin_case /\
  Sorted (fun a b => l_label a <> l_label b) thin_case /\
  map l_label (thick_layers 1 thin_case) = ["Ice"; "Ice"]%string.
Proof.
  assert (T : thick_layers 1 thin_case =
    [mk_layer 4 0 "Ice" 3 12 (Some 100); mk_layer 7 (1 / 2) "Ice" 1 (15 / 2) (Some 100)]%string).
  { unfold thin_case. cbn [thick_layers top_of l_depth]. decR. reflexivity. }
  assert (O : Forall (fun l => l_label l <> "Other"%string) thin_case) by (repeat constructor; discriminate).
  assert (S : Sorted (fun a b => l_label a <> l_label b) thin_case) by (repeat constructor; discriminate).
  pose proof (clean_up_errors 1 thin_case O) as E. rewrite T in E.
  destruct (clean_up_strat_col 1 thin_case) as [out|e] eqn:Ec; [|destruct E as (_ & _ & E); discriminate].
  exists out. split; auto. pose proof (clean_up_rows 1 thin_case out Ec O S) as R. rewrite T in *.
  inversion R as [|? o1 ? ? R1 R']; subst. inversion R' as [|? o2 ? ? R2 R'']; subst. inversion R''; subst.
  destruct R1 as (_ & _ & A3 & _ & A5 & _), R2 as (_ & _ & B3 & _ & B5 & _). cbn [map].
  rewrite A3, A5, B3, B5. auto.
Qed.

(** The documented merging of thin layers does not happen: their ice is lost. *)
Theorem C58_merged_refuted :
  ~ (forall m strat out, clean_up_strat_col m strat = Ok out ->
       Forall (fun l => l_label l <> "Other"%string) strat ->
       Rsum (map l_ice out) = Rsum (map l_ice strat)).
Proof.
  intros H. destruct C58_case as (out & E & _ & _ & O & _ & _).
  pose proof (H 1 thin_case out E O) as X. destruct (clean_up_totals 1 thin_case out E O) as [T _].
  rewrite T in X. unfold thin_case in X. cbn [thick_layers top_of l_depth] in X.
  rewrite (proj2 (Rleb_true 1 (12 - 8))) in X by lra.
  rewrite (proj2 (Rleb_false 1 (8 - 15 / 2))) in X by lra.
  rewrite (proj2 (Rleb_true 1 (15 / 2 - 0))) in X by lra.
  unfold Rsum in X. cbn [map fold_right l_ice] in X. lra.
Qed.

(** A column of thin layers only is a KeyError. *)
Theorem C58_all_thin_refuted :
  exists strat, Forall (fun l => 0 < l_ice l + l_ej l) strat /\ clean_up_strat_col 1 strat = Err KeyError.
Proof.
  set (strat := [mk_layer (1 / 2) 0 "Ice" 1 (1 / 2) (Some 100)]%string).
  exists strat. split; [repeat constructor; cbn; lra|].
  assert (O : Forall (fun l => l_label l <> "Other"%string) strat) by (repeat constructor; discriminate).
  pose proof (clean_up_errors 1 strat O) as E.
  assert (T : thick_layers 1 strat = []) by (unfold strat; cbn [thick_layers top_of l_depth]; decR; reflexivity).
  rewrite T in E. destruct (clean_up_strat_col 1 strat) as [out|e].
  - destruct E; [discriminate|congruence].
  - destruct E as [-> _]. reflexivity.
Qed.

(** ** C59 *)
(** [total ice <d>m] of a file: the ice of each layer, taken to lie at the bottom of the
    layer, that is above depth [d].  [f] is the row with the formation age. *)
Theorem C59_exact : forall depths df f,
  filter (fun l => String.eqb (l_label l) "Formation age") df = [f] ->
  let kept := filter (fun l => Rleb (l_time l) (l_time f)) df in
  holds_ice kept ->
  exists layers, agg_csv depths df = Ok (Some (layers,
    (Rsum (map l_ice kept), top_of kept,
     map (fun d => Rsum (map (ice_of_layer_above d) kept)) depths))).
Proof.
  intros depths df f E kept H. eexists. apply agg_csv_ok; auto.
Qed.

(** Between 0 and the total, at most [d] metres, the total from the largest depth on, and
    more for a larger depth. *)
Theorem C59_amounts : forall depths df f layers total maxdepth amounts,
  filter (fun l => String.eqb (l_label l) "Formation age") df = [f] ->
  holds_ice (filter (fun l => Rleb (l_time l) (l_time f)) df) ->
  agg_csv depths df = Ok (Some (layers, (total, maxdepth, amounts))) ->
  length amounts = length depths /\
  forall i d a, nth_error depths i = Some d -> nth_error amounts i = Some a ->
    0 <= a <= total /\ (0 <= d -> a <= d) /\ (maxdepth <= d -> a = total) /\
    forall j d' a', nth_error depths j = Some d' -> nth_error amounts j = Some a' -> d <= d' -> a <= a'.
Proof.
  intros depths df f layers total maxdepth amounts E H A.
  rewrite (agg_csv_ok depths df f E H) in A. injection A as <- <- <- <-.
  set (kept := filter (fun l => Rleb (l_time l) (l_time f)) df) in *.
  split; [apply map_length|].
  assert (G : forall i d a, nth_error depths i = Some d ->
            nth_error (map (fun d => Rsum (map (ice_of_layer_above d) kept)) depths) i = Some a ->
            a = Rsum (map (ice_of_layer_above d) kept)).
  { intros i d a Hd Ha. rewrite (map_nth_error _ _ _ Hd) in Ha. congruence. }
  intros i d a Hd Ha. rewrite (G i d a Hd Ha). split; [now apply total_bounds|]. split; [|split].
  - intros D. eapply Rle_trans; [apply total_le_depth; auto|]. apply Rmin_l.
  - now apply total_all.
  - intros j d' a' Hd' Ha' L. rewrite (G j d' a' Hd' Ha'). apply Rsum_map_le.
    apply Forall_forall. intros l _. now apply above_mono.
Qed.

(** All files of a run, made by make_strat_col with strat_after_age: the lists of layers
    of the run line up, and the statistics of each file are those of its table. *)
Theorem C59_run : forall depths tables,
  Forall (fun table => exists rnd thick_min tol age steps,
    make_strat_col rnd thick_min tol true age steps = Ok table /\
    (forall x, 0 <= x -> 0 <= rnd x) /\ Forall (fun '(_, i, e, _) => 0 <= i /\ 0 <= e) steps /\
    StronglySorted (fun a b : R * R * R * string => rnd (fst (fst (fst b))) <= rnd (fst (fst (fst a)))) steps /\
    Forall (fun s => snd s <> "Formation age"%string) steps) tables ->
  agg_run depths tables = Ok
    ((map l_ice (concat tables), map l_depth (concat tables), map l_time (concat tables)),
     map (fun table => (Rsum (map l_ice table), Rsum (map l_ice table) + Rsum (map l_ej table),
                        map (fun d => Rsum (map (ice_of_layer_above d) table)) depths)) tables).
Proof.
  intros depths tables H. unfold agg_run.
  set (part := fun table => Some ((map l_ice table, map l_depth table, map l_time table),
    (Rsum (map l_ice table), Rsum (map l_ice table) + Rsum (map l_ej table),
     map (fun d => Rsum (map (ice_of_layer_above d) table)) depths))).
  rewrite (mapM_ok_map _ part).
  - cbn [bind]. f_equal. f_equal.
    + clear. induction tables as [|t tables IH]; [reflexivity|]. cbn [map flat_map app concat part].
      rewrite !map_app. injection IH as I1 I2 I3. rewrite <- I1, <- I2, <- I3. reflexivity.
    + rewrite map_map. reflexivity.
  - intros table Ht. rewrite Forall_forall in H.
    destruct (H table Ht) as (rnd & thick_min & tol & age & steps & H1 & H2 & H3 & H4 & H5).
    eapply agg_table; eauto.
Qed.

(** It fails with a TypeError for a table without exactly one formation row; a file is
    never skipped, as the formation row is not older than itself. *)
Theorem C59_errors : forall depths df,
  match agg_csv depths df with
  | Ok p => p <> None /\ exists f, filter (fun l => String.eqb (l_label l) "Formation age") df = [f]
  | Err e => e = TypeError /\ length (filter (fun l => String.eqb (l_label l) "Formation age") df) <> 1%nat
  end.
Proof. exact agg_error. Qed.

(** So the outputs of runs with strat_after_age switched off can be neither aggregated nor
    plotted. *)
Theorem C59_no_formation_row : forall rnd thick_min tol age steps table depths m,
  make_strat_col rnd thick_min tol false age steps = Ok table ->
  Forall (fun s => snd s <> "Formation age"%string) steps ->
  agg_csv depths table = Err TypeError /\ plot_column m table = Err IndexError.
Proof.
  intros rnd thick_min tol age steps table depths m H F.
  destruct (strat_groups _ _ _ _ _ _ _ H) as (groups & G1 & G2 & _). cbn [formation app] in G1.
  assert (L : Forall (fun r : R * R * string * R => snd (fst r) <> "Formation age"%string) (concat groups)).
  { rewrite G1. apply Forall_forall. intros r Hr. apply in_map_iff in Hr as (s & <- & Hs).
    apply filter_In in Hs as [Hs _]. apply filter_In in Hs as [Hs _]. rewrite Forall_forall in F. specialize (F s Hs).
    destruct s as [[[t i] e] src] eqn:Es. cbn [labelled fst snd]. rewrite <- Es.
    apply (step_label_P (fun s => s <> "Formation age"%string)); try discriminate. right. now rewrite Es. }
  assert (N : Forall (fun l => l_label l <> "Formation age"%string) table).
  { clear -G2 L. induction G2 as [|g l groups rest G _ IH]; constructor.
    - destruct G as (A1 & _ & _ & init & r & -> & _). apply Forall_app in A1 as [_ A1].
      inversion A1 as [|? ? A2 _]; subst. rewrite <- A2. cbn [concat] in L. apply Forall_app in L as [L _].
      apply Forall_app in L as [_ L]. now inversion L.
    - apply IH. cbn [concat] in L. now apply Forall_app in L. }
  assert (E : filter (fun l => String.eqb (l_label l) "Formation age") table = []).
  { apply filter_none. eapply Forall_impl; [|exact N]. cbn. intros x Hx. now apply String.eqb_neq. }
  unfold agg_csv, plot_column. rewrite E. split; reflexivity.
Qed.

Definition agg_case : list layer :=
  [mk_layer 0 0 "Formation age" 4 12 None; mk_layer 4 0 "Ice" 3 12 (Some 100);
   mk_layer (1 / 2) 2 "A" 2 8 (Some 20); mk_layer 5 (1 / 2) "Ice" 1 (11 / 2) (Some 90)]%string.

Example C59_case :
  exists f, filter (fun l => String.eqb (l_label l) "Formation age") agg_case = [f] /\
    filter (fun l => Rleb (l_time l) (l_time f)) agg_case = agg_case /\ holds_ice agg_case /\
    Rsum (map (ice_of_layer_above 10) agg_case) = 15 / 2.
Proof.
  eexists. split; [reflexivity|]. split; [|split].
  - unfold agg_case. cbn [filter l_time]. decR. reflexivity.
  - cbn. repeat split; lra.
  - unfold agg_case, Rsum, ice_of_layer_above. cbn [map fold_right l_ice l_depth].
    rewrite (Rmin_left 0), (Rmin_right 4), (Rmin_left (1 / 2)), (Rmin_left 5).
    + rewrite Rmax_right by lra. lra.
    + rewrite Rmax_right; lra.
    + rewrite Rmax_right; lra.
    + rewrite Rmax_right; lra.
    + apply Rmax_l.
Qed.

(** A run's table: three metres of ice, then four metres of ejecta on 10 cm of ice. *)
Definition run_steps : list (R * R * R * string) := [(2, 3, 0, ""); (1, 1 / 10, 4, "A")]%string.
Example C58_C59_run_case : exists table,
  make_strat_col (fun x => x) (1 / 1000) (1 / 1000000) true 3 run_steps = Ok table /\
  map l_label table = ["Formation age"; "Ice"; "A"]%string /\
  (forall x : R, 0 <= x -> 0 <= x) /\ Forall (fun '(_, i, e, _) => 0 <= i /\ 0 <= e) run_steps /\
  StronglySorted (fun a b : R * R * R * string => fst (fst (fst b)) <= fst (fst (fst a))) run_steps /\
  Forall (fun s => snd s <> "Formation age"%string /\ snd s <> "Other"%string) run_steps /\
  map l_label (filter (fun l => Rleb 1 (l_ice l + l_ej l)) (tl table)) = ["Ice"; "A"]%string.
Proof.
  unfold make_strat_col, strat_rows, run_steps, rtol. cbn [map filter r_time].
  rewrite (Rabs_right 3) by lra. decR. unfold row_label. decR. cbn.
  eexists. split; [reflexivity|]. split; [reflexivity|]. split; [auto|].
  split; [repeat constructor; lra|]. split; [repeat constructor; cbn; lra|].
  split; [repeat constructor; discriminate|]. cbn [tl map filter l_ice l_ej]. decR. reflexivity.
Qed.

(** The list of times is not cut as the lists of ice and depths are. *)
Theorem C59_times_refuted : exists depths df ice depth time stats,
  agg_csv depths df = Ok (Some ((ice, depth, time), stats)) /\ length ice <> length time.
Proof.
  exists [], [mk_layer 1 0 "Ice" 5 1 (Some 100); mk_layer 0 0 "Formation age" 4 0 None]%string.
  unfold agg_csv. cbn [filter l_label String.eqb Ascii.eqb Bool.eqb bind l_time].
  decR. cbn. eexists _, _, _, _. split; [reflexivity|]. cbn. lia.
Qed.

(** ** C72 *)
(** In the table that is plotted, layer [i] from the top is the pair of rows [2 i] and
    [2 i + 1]: its label and hatch, from where the layer above ends to where it ends. *)
Theorem C72_ranges : forall by_depth by_diam hash cdf col out i l,
  sorts_by l_depth by_depth -> stacked col ->
  get_strat_col_ranges by_depth by_diam hash cdf col = Ok out ->
  layer_from_top col i l ->
  length out = (2 * length col + 1)%nat /\
  exists a b, nth_error out (2 * i) = Some a /\ nth_error out (2 * i + 1) = Some b /\
    l_label (g_layer a) = l_label l /\ l_label (g_layer b) = l_label l /\
    begins_at col i (l_depth (g_layer a)) /\ l_depth (g_layer b) = l_depth l /\
    l_icepct (g_layer b) = l_icepct l /\ g_hatch a = g_hatch b /\ g_hatchlabel a = g_hatchlabel b /\
    hatch_label by_diam cdf (l_label l) = Ok (g_hatchlabel b).
Proof. exact ranges_layers. Qed.

(** The columns of a run's tables are stacked if layers of no thickness are left out. *)
Theorem C72_run_stacked : forall rnd thick_min tol age steps table m t col,
  make_strat_col rnd thick_min tol true age steps = Ok table ->
  (forall x, 0 <= x -> 0 <= rnd x) -> Forall (fun '(_, i, e, _) => 0 <= i /\ 0 <= e) steps ->
  Forall (fun s => snd s <> "Formation age"%string /\ snd s <> "Other"%string) steps ->
  0 < m -> plot_column m table = Ok (t, col) -> stacked col.
Proof. exact run_stacked. Qed.

(** The legend entry of a layer is its only source or, of several, one with the largest
    diameter. *)
Theorem C72_source : forall by_depth by_diam hash cdf col out i l b,
  sorts_by l_depth by_depth -> sorts_by snd by_diam -> stacked col ->
  get_strat_col_ranges by_depth by_diam hash cdf col = Ok out ->
  layer_from_top col i l -> nth_error out (2 * i + 1) = Some b ->
  ((length (split (l_label l)) = 1)%nat /\ g_hatchlabel b = l_label l) \/
  (In (g_hatchlabel b) (split (l_label l)) /\
   exists d, In (g_hatchlabel b, d) cdf /\
     forall n' d', In n' (split (l_label l)) -> In (n', d') cdf -> d' <= d).
Proof.
  intros by_depth by_diam hash cdf col out i l b S1 S2 K E L B.
  destruct (ranges_layers _ _ _ _ _ _ _ _ S1 K E L) as (_ & a & b' & _ & B' & _ & _ & _ & _ & _ & _ & _ & H).
  rewrite B in B'. injection B' as <-. pose proof (hatch_label_ok by_diam cdf (l_label l) S2) as Q.
  rewrite H in Q. destruct Q as [Q|(_ & Q1 & Q2)]; auto.
Qed.

(** The only failure is a KeyError for a layer of several sources of which one is not in
    the crater list. *)
Theorem C72_errors : forall by_depth by_diam hash cdf col,
  sorts_by l_depth by_depth -> sorts_by snd by_diam -> stacked col ->
  let unknown l := (1 < length (split (l_label l)))%nat /\
                   exists s, In s (split (l_label l)) /\ forall d, ~ In (s, d) cdf in
  match get_strat_col_ranges by_depth by_diam hash cdf col with
  | Ok _ => forall l, In l col -> ~ unknown l
  | Err e => e = KeyError /\ exists l, In l col /\ unknown l
  end.
Proof. exact ranges_errors. Qed.

(** ** C73 *)
(** The colour inside a layer is that of the ice percentage of the deepest layer that has
    the same hatch. *)
Theorem C73_colour : forall by_depth by_diam hash cdf col out i l d y,
  sorts_by l_depth by_depth -> stacked col ->
  get_strat_col_ranges by_depth by_diam hash cdf col = Ok out ->
  layer_from_top col i l -> begins_at col i d -> d < y < l_depth l ->
  exists k l' a b, (i <= k)%nat /\ layer_from_top col k l' /\
    nth_error out (2 * i + 1) = Some a /\ nth_error out (2 * k + 1) = Some b /\ g_hatch b = g_hatch a /\
    (forall k' c, (k < k')%nat -> nth_error out (2 * k' + 1) = Some c -> g_hatch c <> g_hatch a) /\
    visible_at (fills out) y = Some (l_icepct l').
Proof. exact colour_spec. Qed.

(** So a layer shows its own percentage if no deeper layer has its hatch. *)
Theorem C73_own_colour : forall by_depth by_diam hash cdf col out i l d y a,
  sorts_by l_depth by_depth -> stacked col ->
  get_strat_col_ranges by_depth by_diam hash cdf col = Ok out ->
  layer_from_top col i l -> begins_at col i d -> d < y < l_depth l ->
  nth_error out (2 * i + 1) = Some a ->
  (forall k c, (i < k)%nat -> nth_error out (2 * k + 1) = Some c -> g_hatch c <> g_hatch a) ->
  visible_at (fills out) y = Some (l_icepct l).
Proof.
  intros by_depth by_diam hash cdf col out i l d y a SD K E L B Y A D.
  destruct (colour_spec _ _ _ _ _ _ _ _ _ _ SD K E L B Y) as (k & l' & a' & b & Ik & L' & A' & B' & Hh & _ & V).
  rewrite A in A'. injection A' as <-. destruct (Nat.eq_dec i k) as [->|N].
  - unfold layer_from_top in *. rewrite L in L'. injection L' as <-. exact V.
  - exfalso. apply (D k b); auto. lia.
Qed.

Definition colour_case : list layer :=
  [mk_layer 0 3 "A" 2 7 (Some 0); mk_layer 2 2 "B" 1 4 (Some 50)]%string.
Lemma colour_stacked : stacked colour_case.
Proof. split; repeat constructor; cbn; lra. Qed.

(** Two sources whose hashes agree modulo the number of hatches, and two that do not. *)
Definition same_hash (s : string) : Z := 0.
Definition other_hash (s : string) : Z := if String.eqb s "A" then 1 else 0.

Lemma colour_out hash : exists out,
  get_strat_col_ranges (isort l_depth) (isort snd) hash [] colour_case = Ok out.
Proof.
  pose proof (ranges_errors (isort l_depth) (isort snd) hash [] colour_case (isort_ok _) (isort_ok _) colour_stacked) as H.
  cbv zeta in H. destruct (get_strat_col_ranges _ _ hash [] colour_case) as [out|e]; [eauto|].
  exfalso. destruct H as (_ & l & [<-|[<-|[]]] & H & _); cbn in H; lia.
Qed.

Lemma colour_hatches hash out :
  get_strat_col_ranges (isort l_depth) (isort snd) hash [] colour_case = Ok out ->
  map g_hatch out =
  let h s := nth (Z.to_nat (hash s mod Z.of_nat (length HATCHES))) HATCHES EmptyString in
  [h "B"; h "B"; h "A"; h "A"; h "A"]%string.
Proof.
  rewrite (ranges_rows _ _ _ _ _ (isort_ok _) colour_stacked) by discriminate.
  set (h := fun s => nth (Z.to_nat (hash s mod Z.of_nat (length HATCHES))) HATCHES EmptyString).
  cbn [colour_case rev app all_spans spans last map flat_map l_label with_label split Ascii.eqb Bool.eqb comma].
  unfold get_lith_key. fold h. cbn [map app].
  change (hatch_label (isort snd) [] "A") with (@Ok string "A"%string).
  assert (HA : hatch_label (isort snd) [] "A" = Ok "A"%string) by reflexivity.
  assert (HB : hatch_label (isort snd) [] "B" = Ok "B"%string) by reflexivity.
  cbn [mapM l_label with_label]. rewrite HA, HB. cbn [bind].
  unfold dict_get. cbn [rev app find String.eqb Ascii.eqb Bool.eqb bind map]. injection 1 as <-. reflexivity.
Qed.

(** Another layer's percentage can show: a fresh sheet of ejecta without ice and a layer
    that is half ice get the same colour when their names' hashes collide. *)
Theorem C73_own_colour_refuted : exists hash out l y,
  stacked colour_case /\
  get_strat_col_ranges (isort l_depth) (isort snd) hash [] colour_case = Ok out /\
  layer_from_top colour_case 0 l /\ 0 < y < l_depth l /\
  l_icepct l = Some 50 /\ visible_at (fills out) y = Some (Some 0).
Proof.
  destruct (colour_out same_hash) as [out E].
  exists same_hash, out, (mk_layer 2 2 "B" 1 4 (Some 50))%string, 1.
  split; [exact colour_stacked|]. split; [exact E|]. split; [reflexivity|]. split; [cbn; lra|]. split; [reflexivity|].
  destruct (colour_spec _ _ _ _ _ _ 0%nat (mk_layer 2 2 "B" 1 4 (Some 50))%string 0 1 (isort_ok _) colour_stacked E
              eq_refl eq_refl ltac:(cbn; lra)) as (k & l' & a & b & _ & L & A & B & Hh & D & V).
  rewrite V. pose proof (colour_hatches same_hash out E) as Hm. cbv zeta in Hm.
  unfold same_hash in Hm. set (h0 := nth _ _ _) in Hm.
  assert (N : forall j c, nth_error out j = Some c -> g_hatch c = h0).
  { intros j c Hj. assert (X : In (g_hatch c) (map g_hatch out)) by (apply in_map; eapply nth_error_In; exact Hj).
    rewrite Hm in X. cbn in X. intuition. }
  destruct k as [|[|k]].
  - exfalso. assert (exists c, nth_error out 3 = Some c) as [c Hc].
    { destruct (nth_error out 3) eqn:X; [eauto|]. apply nth_error_None in X.
      apply (f_equal (@length _)) in Hm. rewrite map_length in Hm. cbn in Hm. lia. }
    apply (D 1%nat c); [lia|exact Hc|]. rewrite (N _ _ Hc), (N _ _ A). reflexivity.
  - unfold layer_from_top in L. cbn in L. injection L as <-. reflexivity.
  - exfalso. unfold layer_from_top in L. cbn in L. destruct k; discriminate.
Qed.

(** The picture of one file depends on the interpreter's hashes, which change from process
    to process. *)
Theorem C73_reproducible_refuted : exists hash hash' out out' y,
  get_strat_col_ranges (isort l_depth) (isort snd) hash [] colour_case = Ok out /\
  get_strat_col_ranges (isort l_depth) (isort snd) hash' [] colour_case = Ok out' /\
  visible_at (fills out) y <> visible_at (fills out') y.
Proof.
  destruct C73_own_colour_refuted as (hash & out & l & y & _ & E & L & Y & _ & V).
  destruct (colour_out other_hash) as [out' E'].
  exists hash, other_hash, out, out', y. split; [exact E|]. split; [exact E'|].
  pose proof (colour_hatches other_hash out' E') as Hm. cbv zeta in Hm.
  destruct (nth_error out' 1) as [a|] eqn:A.
  2:{ apply nth_error_None in A. apply (f_equal (@length _)) in Hm. rewrite map_length in Hm. cbn in Hm. lia. }
  assert (V' : visible_at (fills out') y = Some (l_icepct l)).
  { eapply (C73_own_colour _ _ _ _ _ _ 0%nat l 0 y a (isort_ok _) colour_stacked E'); auto; [reflexivity|].
    intros k c Lk Hc.
    pose proof (map_nth_error g_hatch _ _ A) as Xa. pose proof (map_nth_error g_hatch _ _ Hc) as Xc.
    rewrite Hm in Xa, Xc. destruct k as [|[|[|k]]]; try lia.
    - cbn in Xa, Xc. injection Xa as <-. injection Xc as <-. vm_compute. discriminate.
    - exfalso. cbn in Xc. discriminate.
    - exfalso. replace (2 * S (S (S k)) + 1)%nat with (5 + (2 * S k))%nat in Xc by lia. discriminate. }
  unfold layer_from_top in L. cbn in L. injection L as <-. rewrite V, V'. cbn. intros X. injection X as X. lra.
Qed.

Example C72_case : exists out, stacked colour_case /\ layer_from_top colour_case 1 (mk_layer 0 3 "A" 2 7 (Some 0))%string /\
  get_strat_col_ranges (isort l_depth) (isort snd) other_hash [] colour_case = Ok out.
Proof. destruct (colour_out other_hash) as [out E]. exists out. split; [exact colour_stacked|]. split; [reflexivity|exact E]. Qed.

(** Several sources: the one with the largest diameter. *)
Example C72_sources_case :
  let cdf := [("A", 3); ("B", 5)]%string in
  sorts_by snd (isort (@snd string R)) /\ hatch_label (isort snd) cdf "A,B" = Ok "B"%string.
Proof.
  cbv zeta. split; [apply isort_ok|].
  unfold hatch_label, loc_names.
  cbn [split Ascii.eqb Bool.eqb comma length Nat.ltb Nat.leb mapM filter String.eqb bind concat app].
  unfold isort. cbn [fold_right insert_by snd]. decR. reflexivity.
Qed.

Print Assumptions C58_rows.
Print Assumptions C58_totals.
Print Assumptions C58_errors.
Print Assumptions C58_no_thin.
Print Assumptions C58_run.
Print Assumptions C58_merged_refuted.
Print Assumptions C58_all_thin_refuted.
Print Assumptions C59_exact.
Print Assumptions C59_amounts.
Print Assumptions C59_run.
Print Assumptions C59_errors.
Print Assumptions C59_no_formation_row.
Print Assumptions C59_times_refuted.
Print Assumptions C72_ranges.
Print Assumptions C72_run_stacked.
Print Assumptions C72_source.
Print Assumptions C72_errors.
Print Assumptions C73_colour.
Print Assumptions C73_own_colour.
Print Assumptions C73_own_colour_refuted.
Print Assumptions C73_reproducible_refuted.
