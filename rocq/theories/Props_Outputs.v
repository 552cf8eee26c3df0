(** Properties of what is done with the outputs of runs. *)
From Coq Require Import ZArith Bool String List Reals Lra Permutation.
From Verif Require Import Base Data_Shipped Model_Cfg Spec_Cfg Props_Cfg Model_Time Model_Ice Model_Rng Model_Strat Model_Main Model_Run
  Model_Plot Model_Figure Model_Outputs Spec_Time Spec_Ice Spec_Main Spec_Run Spec_Plot Spec_Outputs
  Proofs_Cfg Proofs_Time Proofs_Rng Proofs_Strat Proofs_Ranges Proofs_Run Proofs_Shipped Proofs_Outputs Props_Plot Props_Figure Props_Run.
Import ListNotations.
Open Scope R_scope.

(** ** C83: from a run to its totals and figures *)

(** The table that a run leaves for a cold trap begins with the row of its age, without ice
    and ejecta; no layer has less than no ice or ejecta; and every label is ice, ejecta
    without a named source, or a list of other craters and basins of the shipped files. *)
Theorem C83_tables : forall names out, shipped_run names out ->
  map fst (o_strat out) = names /\
  forall n table, In (n, table) (o_strat out) ->
  exists first rest, table = first :: rest /\
    l_label first = "Formation age"%string /\ l_ice first = 0 /\ l_ej first = 0 /\
    Forall (fun l => 0 <= l_ice l /\ 0 <= l_ej l /\ layer_label n (l_label l)) rest.
Proof.
  intros names out R. pose proof (shipped_rows names out R) as [S T]. split; [exact S|]. intros n table I.
  rewrite Forall_forall in T. specialize (T _ I). cbn [fst snd] in T.
  destruct (rows_named _ _ T) as (f & rest & -> & F1 & F2 & F3 & L). exists f, rest. repeat (split; [assumption || reflexivity|]).
  destruct T as (rnd & tm & tol & age & steps & H & O & P & _).
  pose proof (strat_nonneg _ _ _ _ _ _ _ H O P) as G. inversion G as [|? ? _ G']; subst.
  rewrite Forall_forall in *. intros l X. specialize (G' l X). specialize (L l X). tauto.
Qed.

(** The tables of one cold trap from any number of runs can be summed up: all ice, the whole
    depth, and the ice above each of the depths asked for. *)
Theorem C83_aggregate : forall depths n tables, Forall (shipped_table n) tables ->
  agg_run depths tables = Ok
    ((map l_ice (concat tables), map l_depth (concat tables), map l_time (concat tables)),
     map (fun table => (Rsum (map l_ice table), Rsum (map l_ice table) + Rsum (map l_ej table),
                        map (fun d => Rsum (map (ice_of_layer_above d) table)) depths)) tables).
Proof.
  intros depths n tables F. apply C59_run. eapply Forall_impl; [|exact F]. cbn beta. intros table T.
  apply table_rows, rows_plain in T as (rnd & tm & tol & age & steps & A1 & A2 & A3 & A4 & A5).
  exists rnd, tm, tol, age, steps. repeat (split; [assumption|]). eapply Forall_impl; [|exact A5]. cbn beta. tauto.
Qed.

(** A figure of such tables is drawn unless it would have no column, or a table has layers
    but none as thick as asked for. *)
Theorem C83_figure : forall read by_depth by_diam hash cdf m runs seeds coldtraps e,
  sorts_by l_depth by_depth -> sorts_by snd by_diam -> 0 < m ->
  (forall n, In n listed -> exists d, In (n, d) cdf) ->
  (forall run seed n table, read run seed n = Some table -> shipped_table n table) ->
  plot_figure read by_depth by_diam hash cdf m runs seeds coldtraps = Err e ->
  (e = ValueError /\ (seeds = [] \/ length seeds = 1%nat /\ coldtraps = [])) \/
  (e = KeyError /\ exists run seed n first rest,
     In run runs /\ In seed seeds /\ In n coldtraps /\ read run seed n = Some (first :: rest) /\
     rest <> [] /\ Forall (fun l => l_ice l + l_ej l < m) rest).
Proof.
  intros read by_depth by_diam hash cdf m runs seeds cts e S1 S2 M C T H.
  destruct (C77_errors _ _ _ _ _ _ _ _ _ _ H) as [X|(run & seed & n & table & R1 & R2 & R3 & R4 & X)]; [left; exact X|]. right.
  pose proof (T _ _ _ _ R4) as Tn.
  destruct (table_errors by_depth by_diam hash cdf m n table e S1 S2 C M Tn X) as (-> & Y1 & Y2). split; auto.
  destruct (rows_named _ _ (table_rows _ _ Tn)) as (f & rest & -> & _). exists run, seed, n, f, rest. auto 10.
Qed.

(** The crater list that the plots use has every crater and basin of the shipped files
    once, with its diameter. *)
Theorem C83_known : forall E c fs rnd ppf sort u k,
  Cfg E [("seed"%string, VInt 1)] = Ok c -> installed fs c -> sorts_by_age sort ->
  exists cdf k' craters basins, plotting_cdf E fs rnd ppf sort u k = Ok (cdf, k') /\
    read_crater_list fs c with_hop = Ok craters /\ read_basin_list fs c with_hop = Ok basins /\
    Permutation cdf (map (fun w => (w_name w, w_diam w * 1000)) (craters ++ basins)) /\
    Permutation (map fst cdf) listed.
Proof.
  intros E c fs rnd ppf sort u k H F S.
  assert (X : stored E "coldtrap_names" (VTuple (map VStr with_hop)) (getv c "coldtrap_names")).
  { apply (C39_pole_fills E _ c "coldtrap_names" "s" _ H); vm_compute; reflexivity. }
  assert (K : known_traps c with_hop).
  { split; [exact X|]. split; [apply nodupb_ok; reflexivity|]. split; [apply inclb_ok; reflexivity|]. intros _ n I. exact I. }
  destruct (cdf_shipped E c fs rnd ppf sort with_hop u k H F K S) as (cdf & k' & A & P).
  assert (U : only_switches [("seed"%string, VInt 1)]) by (apply unset; reflexivity).
  destruct (read_craters E _ c fs with_hop H U F) as [C1 C2]; [apply inclb_ok; reflexivity|].
  exists cdf, k', (map raw0 clines), (map raw0 blines). repeat (split; [assumption|]).
  eapply Permutation_trans; [apply Permutation_map; exact P|]. rewrite map_map. exact names_listed.
Qed.

(** ** Concrete cases *)
(** A run with the defaults, whose table for Haworth is summed up and drawn. *)
Lemma default_run : exists out, shipped_run with_hop out /\ exists table, In ("Haworth"%string, table) (o_strat out).
Proof.
  assert (H : Cfg day [] = Ok (built_from day [])) by (vm_compute; reflexivity).
  assert (F : installed disk0 (built_from day [])) by (apply disk0_installed; cbn [In]; tauto).
  destruct (C81_default_traps _ _ _ disk0 (fun x => x) lin_ppf isort_age (fun _ => 1 / 2) 0%nat H) as (out & k' & A & B).
  - apply unset. reflexivity.
  - reflexivity.
  - reflexivity.
  - exact F.
  - split; auto.
  - reflexivity.
  - apply lin_support.
  - apply isort_age_ok.
  - intros i. lra.
  - exists out. split.
    + exists day, [], (built_from day []), disk0, (fun x => x), lin_ppf, isort_age, (fun _ => 1 / 2), 0%nat, k'.
      split; [exact H|]. split; [apply unset; reflexivity|]. split; [exact F|]. split.
      { split; [vm_compute; reflexivity|]. split; [apply nodupb_ok; reflexivity|]. split; [apply inclb_ok; reflexivity|]. intros _ n I. exact I. }
      split; [split; auto|]. split; [reflexivity|]. split; [apply lin_support|]. split; [apply isort_age_ok|].
      split; [intros i; lra|]. split; [vm_compute; reflexivity|exact A].
    + destruct (o_strat out) as [|[n table] l]; [discriminate|]. cbn [map fst] in B. injection B as -> _. exists table. now left.
Qed.
Example C83_case : exists n table, shipped_table n table /\ exists f rest, table = f :: rest /\ l_label f = "Formation age"%string /\
  exists totals, agg_run [10; 100] [table] = Ok totals.
Proof.
  destruct default_run as (out & R & table & I). exists "Haworth"%string, table.
  assert (T : shipped_table "Haworth" table) by (exists with_hop, out; auto). split; [exact T|].
  destruct (proj2 (C83_tables _ _ R) _ _ I) as (f & rest & E & L & _). exists f, rest. split; [exact E|]. split; [exact L|].
  eexists. apply (C83_aggregate _ "Haworth"). constructor; [exact T|constructor].
Qed.
Example C83_known_case : exists c cdf k', Cfg day [("seed"%string, VInt 1)] = Ok c /\
  plotting_cdf day disk0 (fun x => x) lin_ppf isort_age (fun _ => 1 / 2) 0%nat = Ok (cdf, k') /\
  In "Orientale"%string (map fst cdf) /\ length cdf = 51%nat.
Proof.
  assert (H : Cfg day [("seed"%string, VInt 1)] = Ok (built_from day [("seed"%string, VInt 1)])) by (vm_compute; reflexivity).
  destruct (C83_known day _ disk0 (fun x => x) lin_ppf isort_age (fun _ => 1 / 2) 0%nat H) as (cdf & k' & cr & ba & A & _ & _ & _ & P).
  - repeat (apply Forall_cons; [eexists; split; [vm_compute; reflexivity|reflexivity]|]); apply Forall_nil.
  - apply isort_age_ok.
  - exists (built_from day [("seed"%string, VInt 1)]), cdf, k'. split; [exact H|]. split; [exact A|]. split.
    + eapply Permutation_in; [apply Permutation_sym; exact P|]. apply existsb_eqb. vm_compute. reflexivity.
    + rewrite <- (map_length fst), (Permutation_length P). vm_compute. reflexivity.
Qed.
(** A figure with one file, whose columns are sorted by insertion. *)
Example C83_figure_case : exists read cdf,
  (forall n, In n listed -> exists d, In (n, d) cdf) /\
  (forall run seed n table, read run seed n = Some table -> shipped_table n table) /\
  read "main"%string 1%Z "Haworth"%string <> None /\
  match plot_figure read (isort l_depth) (isort snd) (fun _ => 0%Z) cdf 1 ["main"]%string [1%Z] ["Haworth"]%string with
  | Ok _ => True | Err e => e = KeyError end.
Proof.
  destruct default_run as (out & R & table & I).
  exists (fun _ _ n => if String.eqb n "Haworth" then Some table else None), (map (fun n => (n, 1)) listed).
  assert (A : forall n, In n listed -> exists d, In (n, d) (map (fun n => (n, 1)) listed)).
  { intros n N. exists 1. apply in_map_iff. eauto. }
  assert (B : forall (run : string) (seed : Z) n table0, (if String.eqb n "Haworth" then Some table else None) = Some table0 -> shipped_table n table0).
  { intros run seed n t H. destruct (String.eqb_spec n "Haworth") as [->|_]; [|discriminate]. injection H as <-. exists with_hop, out. auto. }
  split; [exact A|]. split; [exact B|]. split; [discriminate|].
  destruct (plot_figure _ _ _ _ _ _ _ _ _) as [r|e] eqn:H; [exact Logic.I|].
  apply C83_figure in H; [|apply isort_ok|apply isort_ok|lra|exact A|exact B].
  destruct H as [[_ [X|[_ X]]]|[X _]]; [discriminate|discriminate|exact X].
Qed.

Print Assumptions C83_tables.
Print Assumptions C83_aggregate.
Print Assumptions C83_figure.
Print Assumptions C83_known.
