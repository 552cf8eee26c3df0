(** C97: the figures of columns that compare runs and seeds: on which axes their letters
    are, and the percentages that are saved and shown. *)
From Coq Require Import String List ZArith Reals Bool Lra Lia.
From Verif Require Import Base Model_Path Model_Strat Model_Plot Model_Figure Model_Columns Spec_Plot Spec_Figure Spec_Columns.
From Verif Require Import Proofs_Base Proofs_Plot Proofs_Ranges Proofs_Agg Proofs_Figure Proofs_Columns Props_Figure.
Import ListNotations.
Open Scope R_scope.
Open Scope list_scope.

(** With three cold traps, as by default, the letters are on the first cold trap of the
    first three seeds, in the first run. *)
Theorem C97_seeds : forall read by_depth by_diam hash cdf m runs seeds coldtraps rows pct,
  plot_figure read by_depth by_diam hash cdf m runs seeds coldtraps = Ok (rows, pct) ->
  length coldtraps = 3%nat -> (3 <= length seeds)%nat -> runs <> [] ->
  exists f, strat_cols_seeds read by_depth by_diam hash cdf m runs seeds coldtraps = Ok f /\
    letters f = [("A", Column 0 (axis_of 3 0 0)); ("B", Column 0 (axis_of 3 1 0)); ("C", Column 0 (axis_of 3 2 0))]%string /\
    percents_of f = pct.
Proof.
  intros read by_depth by_diam hash cdf m runs seeds cts rows pct E L3 LS NR.
  destruct (C77_axes _ _ _ _ _ _ _ _ _ _ _ E) as [LR AX]. unfold strat_cols_seeds. rewrite E. cbn [bind].
  destruct rows as [|[axs d] rows]; [destruct runs; [contradiction|discriminate]|].
  destruct runs as [|run runs]; [contradiction|]. destruct (AX 0%nat run axs d eq_refl eq_refl) as [LA _].
  rewrite L3 in LA. assert (L : (11 <= length axs)%nat) by lia.
  pose proof (first_axes _ axs d rows 0%nat eq_refl ltac:(lia)) as G0.
  pose proof (first_axes _ axs d rows 4%nat eq_refl ltac:(lia)) as G4.
  pose proof (first_axes _ axs d rows 8%nat eq_refl ltac:(lia)) as G8. cbn [plus] in G0, G4, G8.
  unfold get. rewrite G0, G4, G8. cbn [bind]. eexists. split; [reflexivity|]. auto.
Qed.

(** With another number of cold traps they are not: with four, the second letter is on the
    empty axis between the first two seeds and the third on the last cold trap of the second
    seed. *)
Theorem C97_seeds_refuted : exists seeds coldtraps f, length seeds = 3%nat /\ length coldtraps = 4%nat /\
  strat_cols_seeds (fun _ _ _ => None) (isort l_depth) (isort snd) (fun _ => 0%Z) [] 5 ["moonpies"]%string seeds coldtraps = Ok f /\
  letters f = [("A", Column 0 (axis_of 4 0 0)); ("B", Column 0 (axis_of 4 0 4)); ("C", Column 0 (axis_of 4 1 3))]%string.
Proof.
  exists [13; 8; 1]%Z, ["Faustini"; "Haworth"; "Shoemaker"; "Cabeus"]%string. eexists.
  split; [reflexivity|]. split; [reflexivity|]. split; [reflexivity|]. reflexivity.
Qed.

(** The figure of seeds fails exactly if the columns cannot be drawn or there are fewer than
    nine axes besides the colour bar: those of each run and one more for each column
    drawn. *)
Theorem C97_seeds_errors : forall read by_depth by_diam hash cdf m runs seeds coldtraps e,
  strat_cols_seeds read by_depth by_diam hash cdf m runs seeds coldtraps = Err e <->
  match plot_figure read by_depth by_diam hash cdf m runs seeds coldtraps with
  | Err e' => e = e'
  | Ok (rows, _) => e = IndexError /\
      (list_sum (map (fun row => length (fst row) +
         length (filter (fun c => match c with Some _ => true | None => false end) (fst row))) rows) < 9)%nat
  end.
Proof.
  intros read by_depth by_diam hash cdf m runs seeds cts e. unfold strat_cols_seeds.
  destruct (plot_figure _ _ _ _ _ _ _ _ _) as [[rows pct]|e']; cbn [bind].
  - pose proof (axes_length rows) as L. fold columns_in. unfold columns_in in L. set (axes := fig_axes rows) in *.
    set (n := list_sum _) in *. unfold get. split.
    + intros H. destruct (nth_error axes 1) eqn:E1; cbn [bind] in H.
      * destruct (nth_error axes 5) eqn:E5; cbn [bind] in H.
        -- destruct (nth_error axes 9) eqn:E9; cbn [bind] in H; [discriminate|]. apply nth_error_None in E9. split; [congruence|lia].
        -- apply nth_error_None in E5. split; [congruence|lia].
      * apply nth_error_None in E1. split; [congruence|lia].
    + intros [-> H]. assert (E9 : nth_error axes 9 = None) by (apply nth_error_None; lia). rewrite E9.
      destruct (nth_error axes 1); [|reflexivity]. cbn [bind]. destruct (nth_error axes 5); reflexivity.
  - split; congruence.
Qed.

(** In the figure of two runs the letters are on the first cold trap of the first two
    runs. *)
Theorem C97_bsed : forall read by_depth by_diam hash cdf m runs seed coldtraps rows pct,
  plot_figure read by_depth by_diam hash cdf m runs [seed] coldtraps = Ok (rows, pct) ->
  (2 <= length runs)%nat ->
  exists f, strat_cols_bsed read by_depth by_diam hash cdf m runs seed coldtraps = Ok (Some f) /\
    letters f = [("A", Column 0 0); ("B", Column 1 0)]%string /\ percents_of f = pct.
Proof.
  intros read by_depth by_diam hash cdf m runs seed cts rows pct E L2.
  destruct (C77_axes _ _ _ _ _ _ _ _ _ _ _ E) as [LR AX]. unfold strat_cols_bsed. rewrite E. cbn [bind].
  assert (NC : cts <> []).
  { intros ->. unfold plot_figure in E. cbn in E. discriminate. }
  destruct runs as [|r0 [|r1 runs]]; cbn in L2; try lia.
  destruct rows as [|[a0 d0] [|[a1 d1] rows]]; cbn in LR; try discriminate.
  destruct (AX 0%nat r0 a0 d0 eq_refl eq_refl) as [LA0 _]. destruct (AX 1%nat r1 a1 d1 eq_refl eq_refl) as [LA1 _].
  assert (0 < length cts)%nat by (destruct cts; [contradiction|cbn; lia]). cbn [length] in LA0, LA1.
  pose proof (first_axes _ a0 d0 ((a1, d1) :: rows) 0%nat eq_refl ltac:(lia)) as G0. cbn [plus] in G0.
  unfold get. rewrite G0. cbn [bind]. cbn [grid_row]. rewrite second_row by lia.
  eexists. split; [reflexivity|]. auto.
Qed.

(** With one run there is no axis for the second letter, with none not for the first. *)
Theorem C97_bsed_few : forall read by_depth by_diam hash cdf m runs seed coldtraps rows pct,
  plot_figure read by_depth by_diam hash cdf m runs [seed] coldtraps = Ok (rows, pct) ->
  (length runs < 2)%nat ->
  strat_cols_bsed read by_depth by_diam hash cdf m runs seed coldtraps =
    match runs with [] => Err IndexError | _ => Ok None end.
Proof.
  intros read by_depth by_diam hash cdf m runs seed cts rows pct E L2.
  destruct (C77_axes _ _ _ _ _ _ _ _ _ _ _ E) as [LR AX]. unfold strat_cols_bsed. rewrite E. cbn [bind].
  assert (NC : cts <> []).
  { intros ->. unfold plot_figure in E. cbn in E. discriminate. }
  destruct runs as [|r0 [|r1 runs]]; cbn in L2; try lia.
  - destruct rows; [reflexivity|discriminate].
  - destruct rows as [|[a0 d0] [|]]; cbn in LR; try discriminate.
    destruct (AX 0%nat r0 a0 d0 eq_refl eq_refl) as [LA0 _].
    assert (0 < length cts)%nat by (destruct cts; [contradiction|cbn; lia]). cbn [length] in LA0.
    pose proof (first_axes _ a0 d0 [] 0%nat eq_refl ltac:(lia)) as G0. cbn [plus] in G0.
    unfold get. rewrite G0. cbn [bind]. cbn [grid_row]. now rewrite one_row.
Qed.

(** The version is on the last column that is drawn in the last run; on the last axis if
    none is. *)
Theorem C97_version : forall read by_depth by_diam hash cdf m runs seeds coldtraps rows pct f r axs depth,
  plot_figure read by_depth by_diam hash cdf m runs seeds coldtraps = Ok (rows, pct) ->
  strat_cols_seeds read by_depth by_diam hash cdf m runs seeds coldtraps = Ok f \/
  (exists seed, seeds = [seed] /\ strat_cols_bsed read by_depth by_diam hash cdf m runs seed coldtraps = Ok (Some f)) ->
  length rows = (r + 1)%nat -> nth_error rows r = Some (axs, depth) ->
  (exists p c, version_on f = Twin r p /\ nth_error axs p = Some (Some c) /\
     forall p', (p < p' < length axs)%nat -> nth_error axs p' = Some None) \/
  ((forall c, ~ In (Some c) axs) /\ version_on f = Column r (length axs - 1)).
Proof.
  intros read by_depth by_diam hash cdf m runs seeds cts rows pct f r axs depth E F L Hr.
  destruct (C77_axes _ _ _ _ _ _ _ _ _ _ _ E) as [LR AX].
  assert (V : version_on f = last (fig_axes rows) Bar).
  { destruct F as [F|(seed & -> & F)].
    - unfold strat_cols_seeds in F. rewrite E in F. cbn [bind] in F.
      destruct (get _ 1); cbn [bind] in F; [|discriminate]. destruct (get _ 5); cbn [bind] in F; [|discriminate].
      destruct (get _ 9); cbn [bind] in F; [|discriminate]. injection F as <-. reflexivity.
    - unfold strat_cols_bsed in F. rewrite E in F. cbn [bind] in F.
      destruct (get _ 1); cbn [bind] in F; [|discriminate]. destruct (find _ _) in F; [|discriminate].
      injection F as <-. reflexivity. }
  rewrite V. clear F V f.
  destruct (nth_error runs r) as [run|] eqn:Rn; [|apply nth_error_None in Rn; lia].
  destruct (AX r run axs depth Rn Hr) as [LA _].
  assert (NE : axs <> []).
  { intros ->. unfold plot_figure in E. cbv zeta in E. destruct (Z.leb_spec (Z.of_nat (length seeds) * Z.of_nat (length cts) + (Z.of_nat (length seeds) - 1)) 0); [discriminate|].
    cbn in LA. nia. }
  assert (S : exists rows', rows = rows' ++ [(axs, depth)] /\ length rows' = r).
  { destruct (nth_error_split _ _ Hr) as (l1 & l2 & -> & L1). exists l1. rewrite app_length in L. cbn in L.
    destruct l2; [auto|cbn in L; lia]. }
  destruct S as (rows' & -> & L'). rewrite last_axis by auto. rewrite L'.
  assert (D : (exists c, In (Some c) axs) \/ forall c, ~ In (Some c) axs).
  { clear. induction axs as [|[c|] axs IH]; [right; intros c []|left; exists c; now left|].
    destruct IH as [(c & H)|N]; [left; exists c; now right|right]. intros c [H|H]; [discriminate|]. now apply (N c). }
  destruct D as [D|D].
  - left. destruct (twins_last _ D) as (N & c & E1 & G). destruct (twins axs) as [|t ts] eqn:T; [contradiction|].
    exists (last (t :: ts) 0%nat), c. auto.
  - right. split; auto. now rewrite twins_none.
Qed.

(** The saved columns are in the order of the runs, in each of the seeds, in each of the
    cold traps. *)
Theorem C97_order : forall read by_depth by_diam hash cdf m runs seeds coldtraps rows pct,
  NoDup runs -> NoDup seeds -> NoDup coldtraps ->
  plot_figure read by_depth by_diam hash cdf m runs seeds coldtraps = Ok (rows, pct) ->
  map fst pct = filter (has_file read) (keys_in_order runs seeds coldtraps).
Proof. intros. eapply figure_keys; eauto. Qed.

(** The table of the figure of seeds has these columns, to two decimals; as many rows as
    the longest column, and empty cells below the others. *)
Theorem C97_fig7 : forall read by_depth by_diam hash cdf df,
  ice_pct_fig7 read by_depth by_diam hash cdf = Ok df ->
  let coldtraps := ["Faustini"; "Haworth"; "Cabeus"]%string in
  map fst df = map (fun '(run, seed, ct) => (run, str_int seed, ct))
                 (filter (has_file read) (keys_in_order ["moonpies"]%string [13; 8; 1]%Z coldtraps)) /\
  exists n,
    (forall seed ct col, In (("moonpies"%string, str_int seed, ct), col) df -> length col = n /\
       exists v, percentages read by_depth 5 "moonpies" seed ct v /\ shows_col v col) /\
    (df <> [] -> exists seed ct v, In seed [13; 8; 1]%Z /\ In ct coldtraps /\
       percentages read by_depth 5 "moonpies" seed ct v /\ length v = n).
Proof.
  intros read by_depth by_diam hash cdf df E. cbv zeta. unfold ice_pct_fig7 in E.
  destruct (strat_cols_seeds _ _ _ _ _ _ _ _ _) as [f|] eqn:F; cbn [bind] in E; [|discriminate].
  destruct (plot_figure read by_depth by_diam hash cdf 5 ["moonpies"]%string [13; 8; 1]%Z ["Faustini"; "Haworth"; "Cabeus"]%string)
    as [[rows pct]|] eqn:P; [|unfold strat_cols_seeds in F; rewrite P in F; discriminate].
  destruct (C97_seeds _ _ _ _ _ _ _ _ _ _ _ P eq_refl ltac:(cbn; lia) ltac:(discriminate)) as (f' & F' & _ & K).
  rewrite F' in F. injection F as ->. rewrite K in E. clear K F' f.
  pose proof (C77_saved _ _ _ _ _ _ _ _ _ _ _ P) as [ND SV].
  assert (O : map fst pct = filter (has_file read) (keys_in_order ["moonpies"]%string [13; 8; 1]%Z ["Faustini"; "Haworth"; "Cabeus"]%string)).
  { eapply C97_order; [| | |exact P]; repeat constructor; cbn; intuition discriminate. }
  destruct pct as [|kv0 pct0] eqn:EP; [discriminate|]. rewrite <- EP in *. unfold read_icepct in E.
  assert (E' : df = map (fun '(k, v) => (k, map (option_map round2) v)) (map (text_col (longest pct)) pct)).
  { rewrite EP in E |- *. cbn [bind] in E. injection E as <-. reflexivity. }
  clear E. subst df. split.
  - rewrite <- O, !map_map. apply map_ext. intros [[[r s] ct] v]. reflexivity.
  - exists (longest pct). split.
    + intros seed ct col H. rewrite map_map in H. apply in_map_iff in H as ([[[r s] c] v] & H & I).
      cbn [text_col] in H. injection H as -> H -> <-. apply str_int_inj in H. subst s.
      destruct (shown_col (longest pct) v (longest_le _ _ _ I)) as [S1 S2]. split; auto. exists v. split; auto.
      apply SV in I as (_ & _ & _ & table & t & cl & R1 & R2 & R3). exists table, t, cl. auto.
    + intros _. destruct (longest_attained pct) as ([[[r s] ct] v] & I & L); [rewrite EP; discriminate|].
      apply SV in I as (I1 & I2 & I3 & table & t & cl & R1 & R2 & R3).
      destruct I1 as [<-|[]]. exists s, ct, v. split; auto. split; auto. split; auto. exists table, t, cl. auto.
Qed.

(** The two tables of the figure of runs: each has the cold traps of its run with a file,
    and both have as many rows as the longest column of either. *)
Theorem C97_fig8 : forall read by_depth by_diam hash cdf top bot,
  ice_pct_fig8 read by_depth by_diam hash cdf = Ok (Some (top, bot)) ->
  map fst top = filter (fun ct => has_file read ("moonpies"%string, 7%Z, ct)) CORDER /\
  map fst bot = filter (fun ct => has_file read ("no_bsed"%string, 7%Z, ct)) CORDER /\
  exists n,
    (forall ct col, In (ct, col) top -> length col = n /\
       exists v, percentages read by_depth 5 "moonpies" 7 ct v /\ shows_col v col) /\
    (forall ct col, In (ct, col) bot -> length col = n /\
       exists v, percentages read by_depth 5 "no_bsed" 7 ct v /\ shows_col v col) /\
    exists run ct v, In run ["moonpies"; "no_bsed"]%string /\ In ct CORDER /\
       percentages read by_depth 5 run 7 ct v /\ length v = n.
Proof.
  intros read by_depth by_diam hash cdf top bot E.
  destruct (plot_figure read by_depth by_diam hash cdf 5 ["moonpies"; "no_bsed"]%string [7%Z] CORDER) as [[rows pct]|] eqn:P;
    [|unfold ice_pct_fig8, strat_cols_bsed in E; rewrite P in E; discriminate].
  rewrite (fig8_eq _ _ _ _ _ _ _ P) in E.
  pose proof (C77_saved _ _ _ _ _ _ _ _ _ _ _ P) as [ND SV].
  destruct pct as [|kv0 pct0] eqn:EP; [discriminate|]. rewrite <- EP in *.
  assert (O := keys8 _ _ _ _ _ _ _ P).
  unfold table8 in E.
  destruct (filter (fun kv => of_run "moonpies" 7 (fst kv)) pct) as [|t0 ts] eqn:T; [discriminate|]. rewrite <- T in E.
  destruct (filter (fun kv => of_run "no_bsed" 7 (fst kv)) pct) as [|b0 bs] eqn:B; [discriminate|]. rewrite <- B in E.
  injection E as <- <-. clear T B t0 ts b0 bs.
  assert (K : forall run, map fst (map (fun kv => (snd (fst kv), map (option_map round2) (fill (longest pct) (snd kv))))
    (filter (fun kv => of_run run 7 (fst kv)) pct)) = map snd (filter (of_run run 7) (map fst pct))).
  { intros run. rewrite <- filter_fst, !map_map. reflexivity. }
  assert (V : forall run ct col, In (ct, col) (map (fun kv => (snd (fst kv), map (option_map round2) (fill (longest pct) (snd kv))))
    (filter (fun kv => of_run run 7 (fst kv)) pct)) -> length col = longest pct /\
       exists v, percentages read by_depth 5 run 7 ct v /\ shows_col v col).
  { intros run ct col H. apply in_map_iff in H as ([[[r s] c] v] & H & I). cbn [fst snd] in H. injection H as -> <-.
    apply filter_In in I as [I J]. unfold of_run in J. cbn [fst snd] in J. apply andb_true_iff in J as [J1 J2].
    apply String.eqb_eq in J1. apply Z.eqb_eq in J2. subst r s.
    destruct (shown_col (longest pct) v (longest_le _ _ _ I)) as [S1 S2]. split; auto. exists v. split; auto.
    apply SV in I as (_ & _ & _ & table & t & cl & R1 & R2 & R3). exists table, t, cl. auto. }
  split; [|split].
  - rewrite K, O. apply two_runs_keys. discriminate.
  - rewrite K, O. apply (two_runs_keys read "moonpies" "no_bsed" 7 CORDER "no_bsed"). discriminate.
  - exists (longest pct). split; [apply V|]. split; [apply V|].
    destruct (longest_attained pct) as ([[[r s] ct] v] & I & L); [rewrite EP; discriminate|].
    apply SV in I as (I1 & I2 & I3 & table & t & cl & R1 & R2 & R3). destruct I2 as [<-|[]].
    exists r, ct, v. split; auto. split; auto. split; auto. exists table, t, cl. auto.
Qed.

(** They are shown exactly if the columns can be drawn and each of the two runs has a file;
    a run without any is a KeyError, and if both have none the saved table cannot be
    read. *)
Theorem C97_fig8_errors : forall read by_depth by_diam hash cdf,
  let some run := exists ct, In ct CORDER /\ has_file read (run, 7%Z, ct) = true in
  match ice_pct_fig8 read by_depth by_diam hash cdf with
  | Ok (Some _) => some "moonpies"%string /\ some "no_bsed"%string
  | Ok None => False
  | Err e =>
      plot_figure read by_depth by_diam hash cdf 5 ["moonpies"; "no_bsed"]%string [7%Z] CORDER = Err e \/
      (e = KeyError /\ (some "moonpies"%string <-> ~ some "no_bsed"%string)) \/
      (e = ValueError /\ ~ some "moonpies"%string /\ ~ some "no_bsed"%string)
  end.
Proof.
  intros read by_depth by_diam hash cdf. cbv zeta.
  destruct (plot_figure read by_depth by_diam hash cdf 5 ["moonpies"; "no_bsed"]%string [7%Z] CORDER) as [[rows pct]|e] eqn:P.
  2: { unfold ice_pct_fig8, strat_cols_bsed. rewrite P. cbn [bind]. auto. }
  rewrite (fig8_eq _ _ _ _ _ _ _ P). assert (O := keys8 _ _ _ _ _ _ _ P).
  assert (Q : forall run, run = "moonpies"%string \/ run = "no_bsed"%string ->
    (filter (fun kv => of_run run 7 (fst kv)) pct <> [] <-> exists ct, In ct CORDER /\ has_file read (run, 7%Z, ct) = true)).
  { intros run Hr. assert (KK : map snd (map fst (filter (fun kv => of_run run 7 (fst kv)) pct)) =
      filter (fun ct => has_file read (run, 7%Z, ct)) CORDER).
    { rewrite filter_fst, O, two_runs_keys by discriminate. destruct Hr as [-> | ->]; cbn [String.eqb Ascii.eqb Bool.eqb]; reflexivity. }
    split.
    - intros N. destruct (filter (fun ct => has_file read (run, 7%Z, ct)) CORDER) as [|ct l] eqn:F.
      + destruct (filter _ pct); [contradiction|discriminate].
      + exists ct. apply (filter_In (fun ct => has_file read (run, 7%Z, ct))). rewrite F. now left.
    - intros (ct & H1 & H2) N. rewrite N in KK. cbn [map] in KK.
      assert (I : In ct (filter (fun ct => has_file read (run, 7%Z, ct)) CORDER)) by (apply filter_In; auto). rewrite <- KK in I. destruct I. }
  pose proof (Q _ (or_introl eq_refl)) as Qm. pose proof (Q _ (or_intror eq_refl)) as Qn. clear Q.
  destruct pct as [|kv0 pct0] eqn:EP.
  { right. right. split; auto. rewrite <- Qm, <- Qn. cbn. tauto. }
  rewrite <- EP in *. unfold table8.
  assert (ANY : filter (fun kv => of_run "moonpies" 7 (fst kv)) pct <> [] \/ filter (fun kv => of_run "no_bsed" 7 (fst kv)) pct <> []).
  { assert (I : In kv0 pct) by (rewrite EP; now left).
    destruct kv0 as [[[r s] ct] v]. pose proof (C77_saved _ _ _ _ _ _ _ _ _ _ _ P) as [_ SV].
    apply SV in I as (I1 & [<-|[]] & _).
    destruct I1 as [<-|[<-|[]]]; [left|right]; rewrite EP; discriminate. }
  destruct (filter (fun kv => of_run "moonpies" 7 (fst kv)) pct) as [|t0 ts].
  - right. left. split; auto. rewrite <- Qm, <- Qn. destruct ANY as [X|X]; [contradiction|]. tauto.
  - destruct (filter (fun kv => of_run "no_bsed" 7 (fst kv)) pct) as [|b0 bs].
    + right. left. split; auto. rewrite <- Qm, <- Qn. split; [intros _ X; contradiction|discriminate].
    + rewrite <- Qm, <- Qn. split; discriminate.
Qed.

(** Two runs with a file each, of different cold traps. *)
Lemma ice_plotted5 d : 5 < d -> plot_column 5 (ice_table d) = Ok (4, [one d]).
Proof.
  intros H. unfold plot_column, ice_table.
  cbn -[clean_up_strat_col].
  unfold clean_up_strat_col.
  cbn -[Rltb Reqb Rplus Rminus Rmult Rdiv IZR].
  rewrite (proj2 (Rltb_false _ _)) by lra. cbn -[Rltb Reqb Rplus Rminus Rmult Rdiv IZR pct].
  rewrite !Rplus_0_r. replace (pct d 0) with (Some 100); [reflexivity|]. unfold pct. rewrite Rplus_0_r.
  unfold Reqb. destruct (Req_EM_T d 0); [lra|]. f_equal. field. lra.
Qed.
Definition found (run : string) (seed : Z) (ct : string) : option (list layer) :=
  if String.eqb run "moonpies" && String.eqb ct "Faustini" then Some (ice_table 10)
  else if String.eqb run "no_bsed" && String.eqb ct "Haworth" then Some (ice_table 20) else None.
Lemma found_drawn runs seeds cts : seeds <> [] -> cts <> [] ->
  exists rows pct, plot_figure found (isort l_depth) (isort snd) (fun _ => 0%Z) [] 5 runs seeds cts = Ok (rows, pct).
Proof.
  intros N N'. destruct (plot_figure _ _ _ _ _ _ _ _ _) as [[rows pct]|e] eqn:E; [eauto|].
  apply C77_errors in E as [[_ [X|[_ X]]]|(run & seed & ct & table & _ & _ & _ & F & X)]; try contradiction.
  assert (T : exists d, 5 < d /\ table = ice_table d).
  { unfold found in F. destruct (_ && _) in F; [injection F as <-; exists 10; split; [lra|auto]|].
    destruct (_ && _) in F; [injection F as <-; exists 20; split; [lra|auto]|discriminate]. }
  destruct T as (d & L & ->). destruct X as [X|(t & col & X & Y)].
  - rewrite ice_plotted5 in X by auto. discriminate.
  - rewrite ice_plotted5 in X by auto. injection X as _ <-. rewrite ice_drawn in Y. discriminate.
Qed.
Example C97_case : exists top bot,
  ice_pct_fig8 found (isort l_depth) (isort snd) (fun _ => 0%Z) [] = Ok (Some (top, bot)) /\
  map fst top = ["Faustini"]%string /\ map fst bot = ["Haworth"]%string.
Proof.
  pose proof (C97_fig8_errors found (isort l_depth) (isort snd) (fun _ => 0%Z) []) as X. cbv zeta in X.
  destruct (ice_pct_fig8 _ _ _ _ _) as [[[top bot]|]|e] eqn:E.
  - exists top, bot. apply C97_fig8 in E as (E1 & E2 & _). split; auto.
  - destruct X.
  - exfalso. destruct (found_drawn ["moonpies"; "no_bsed"]%string [7%Z] CORDER) as (rows & pct & P); try discriminate.
    assert (M : exists ct, In ct CORDER /\ has_file found ("moonpies"%string, 7%Z, ct) = true)
      by (exists "Faustini"%string; split; [cbn; tauto|reflexivity]).
    assert (B : exists ct, In ct CORDER /\ has_file found ("no_bsed"%string, 7%Z, ct) = true)
      by (exists "Haworth"%string; split; [cbn; tauto|reflexivity]).
    destruct X as [X|[[_ X]|[_ [X _]]]]; [congruence|tauto|tauto].
Qed.
Example C97_case_seeds : exists f,
  strat_cols_seeds found (isort l_depth) (isort snd) (fun _ => 0%Z) [] 5 ["moonpies"]%string [13; 8; 1]%Z
    ["Faustini"; "Haworth"; "Cabeus"]%string = Ok f /\
  letters f = [("A", Column 0 0); ("B", Column 0 4); ("C", Column 0 8)]%string /\
  map fst (percents_of f) = [("moonpies", 13%Z, "Faustini"); ("moonpies", 8%Z, "Faustini"); ("moonpies", 1%Z, "Faustini")]%string.
Proof.
  destruct (found_drawn ["moonpies"]%string [13; 8; 1]%Z ["Faustini"; "Haworth"; "Cabeus"]%string) as (rows & pct & P); try discriminate.
  destruct (C97_seeds _ _ _ _ _ _ _ _ _ _ _ P) as (f & F & L & K); [reflexivity|cbn; lia|discriminate|].
  exists f. split; auto. split; auto. rewrite K. refine (eq_trans (C97_order _ _ _ _ _ _ _ _ _ _ _ _ _ _ P) eq_refl);
    repeat constructor; cbn; intuition discriminate.
Qed.
(** The version is not at the right end of the figure if the last cold trap has no file. *)
Theorem C97_version_refuted : exists f,
  strat_cols_seeds found (isort l_depth) (isort snd) (fun _ => 0%Z) [] 5 ["moonpies"]%string [13; 8; 1]%Z
    ["Faustini"; "Haworth"; "Cabeus"]%string = Ok f /\
  version_on f = Twin 0 (axis_of 3 2 0).
Proof.
  destruct C97_case_seeds as (f & F & _ & _). exists f. split; auto.
  destruct (found_drawn ["moonpies"]%string [13; 8; 1]%Z ["Faustini"; "Haworth"; "Cabeus"]%string) as (rows & pct & P); try discriminate.
  destruct (C77_axes _ _ _ _ _ _ _ _ _ _ _ P) as [LR AX]. destruct rows as [|[axs depth] [|]]; try discriminate.
  destruct (AX 0%nat _ axs depth eq_refl eq_refl) as (LA & SH & _). cbn in LA.
  destruct (SH 2%nat 0%nat 1%Z "Faustini"%string eq_refl eq_refl) as (c & Hc & S).
  destruct (SH 2%nat 1%nat 1%Z "Haworth"%string eq_refl eq_refl) as (c9 & Hc9 & S9).
  destruct (SH 2%nat 2%nat 1%Z "Cabeus"%string eq_refl eq_refl) as (c10 & Hc10 & S10). clear SH AX.
  assert (X9 : c9 = None) by exact S9. assert (X10 : c10 = None) by exact S10. subst c9 c10.
  assert (X : exists s, c = Some s) by (unfold shows in S; cbn [found String.eqb Ascii.eqb Bool.eqb andb] in S; destruct S as (t & col & s & _ & _ & ->); eauto).
  destruct X as (s & ->). clear S S9 S10. unfold axis_of in *. cbn [length Nat.mul Nat.add] in *.
  destruct (C97_version _ _ _ _ _ _ _ _ _ _ _ f 0%nat axs depth P (or_introl F) eq_refl eq_refl) as [(p & c & V & Hp & G)|[N _]].
  - rewrite V. f_equal. assert (p < length axs)%nat by (apply nth_error_Some; congruence).
    destruct (Nat.lt_trichotomy p 8) as [Q|[Q|Q]]; [|exact Q|].
    + rewrite (G 8%nat) in Hc by lia. discriminate.
    + assert (p = 9 \/ p = 10)%nat as [-> | ->] by lia; congruence.
  - exfalso. apply nth_error_In in Hc. now apply N in Hc.
Qed.

Print Assumptions C97_seeds.
Print Assumptions C97_seeds_refuted.
Print Assumptions C97_seeds_errors.
Print Assumptions C97_bsed.
Print Assumptions C97_bsed_few.
Print Assumptions C97_version.
Print Assumptions C97_version_refuted.
Print Assumptions C97_order.
Print Assumptions C97_fig7.
Print Assumptions C97_fig8.
Print Assumptions C97_fig8_errors.
