(** Properties of the output files of runs. *)
From Coq Require Import ZArith QArith Qreals Bool Ascii String List Reals Lra Lia.
From Verif Require Import Base Model_Path Model_Csv Model_Cfg Model_Strat Model_Plot Model_Main Model_Run Model_Figure Model_Save Model_Files
  Spec_Csv Spec_Cfg Spec_Figure Spec_Save Spec_Run Spec_Strat Spec_Outputs Spec_Files
  Proofs_Base Proofs_Csv Proofs_Path Proofs_Run Proofs_Outputs Proofs_Files Props_Cfg Props_Figure Props_Run Props_Outputs.
Import ListNotations.
Open Scope R_scope.
Open Scope list_scope.

(** ** C84: what a run writes can be read back *)

(** The text of a stratigraphy table gives back the table when it is read, row by row, with
    a missing percentage of ice as such. *)
Theorem C84_table : forall parse show back table,
  Forall (read_as parse show back) (numbers_of table) -> Forall (fun l => readable (l_label l)) table ->
  read_strat parse (strat_text show table) = Ok (map (renumbered back) table).
Proof. exact table_back. Qed.

(** A crater whose name pandas takes for a missing value does not come back: its layers have
    no label. *)
Theorem C84_missing_refuted : exists n, ~ In n [""; "Ice"]%string /\ one_line n /\
  forall parse show back i e t d, let table := [mk_layer i e n t d None] in
  Forall (read_as parse show back) (numbers_of table) -> read_strat parse (strat_text show table) <> Ok (map (renumbered back) table).
Proof.
  exists "NA"%string. split; [cbn [In]; intuition discriminate|]. split; [vm_compute; intuition discriminate|].
  intros parse show back i e t d table U. unfold read_strat, strat_text. rewrite csv_written.
  - cbn [bind]. unfold table. cbn [map mapM]. set (row := strat_line show _). intros H.
    assert (X : exists e', read_layer parse strat_header row = Err e').
    { unfold read_layer. replace (text_cell strat_header "label" KeyError row) with (Ok (A := string) "NA"%string) by reflexivity.
      destruct (num_at _ _ "ice" row); cbn [bind]; [|eauto]. destruct (num_at _ _ "ejecta" row); cbn [bind]; [|eauto].
      destruct (num_at _ _ "time" row); cbn [bind]; [|eauto]. destruct (num_at _ _ "depth" row); cbn [bind]; [|eauto].
      destruct (num_cell _ "icepct" _ row); cbn [bind]; [exists ValueError; reflexivity|eauto]. }
    destruct X as (e' & X). rewrite X in H. discriminate.
  - constructor; [split; [cbn; lia|repeat constructor; vm_compute; intuition discriminate]|]. constructor; [|constructor].
    split; [cbn; lia|]. apply (line_rows parse show back); [exact U|vm_compute; intuition discriminate].
  - intros r H. apply (f_equal (hd_error (A := ascii))) in H. vm_compute in H. discriminate.
Qed.

(** The tables of a run of the shipped model come back. *)
Theorem C84_shipped : forall parse show back n table, shipped_table n table ->
  Forall (read_as parse show back) (numbers_of table) -> read_strat parse (strat_text show table) = Ok (map (renumbered back) table).
Proof. intros parse show back n table T U. apply C84_table; [exact U|]. eapply shipped_readable; eauto. Qed.

(** The files with the columns over time have a line for each time, with that time and the
    thickness of ice in each cold trap. *)
Theorem C84_ice : forall parse show back out, columns_of (o_time out) (o_ice out) -> o_ice out <> [] ->
  Forall (read_as parse show back) (o_time out) -> Forall (fun c => Forall (read_as parse show back) (snd c)) (o_ice out) ->
  exists rows, csv_rows (ice_text show out) = Ok (("time"%string :: map fst (o_ice out)) :: rows) /\
    length rows = length (o_time out) /\
    forall i t, nth_error (o_time out) i = Some t -> exists row, nth_error rows i = Some row /\
      Forall2 (cell_back parse) row (back t :: map (fun c => back (nth i (snd c) 0)) (o_ice out)).
Proof.
  intros parse show back out C N U V.
  assert (Ls : forall x, read_as parse show back x -> one_line (show x)).
  { intros x (y & Dx & _). apply ordinary_line. eapply decimal_ordinary; eauto. }
  assert (Lm : forall l, Forall (read_as parse show back) l -> Forall one_line (map show l)).
  { intros l Hl. apply Forall_map. eapply Forall_impl; [|exact Hl]. exact Ls. }
  exists (column_lines (map show (o_time out) :: map (fun c => map show (snd c)) (o_ice out)) (length (o_time out))). split; [|split].
  - unfold ice_text. apply columns_back.
    + destruct (o_ice out); [contradiction|]. cbn. lia.
    + cbn [length]. now rewrite !map_length.
    + constructor; [vm_compute; intuition discriminate|]. apply Forall_map. eapply Forall_impl; [|exact C]. cbn beta. tauto.
    + constructor; [split; [apply map_length|now apply Lm]|]. apply Forall_map. unfold columns_of in C. rewrite Forall_forall in C, V |- *.
      intros c I. split; [rewrite map_length; now apply C|]. apply Lm. now apply V.
    + discriminate.
    + destruct (o_ice out); vm_compute; discriminate.
  - unfold column_lines. now rewrite map_length, seq_length.
  - intros i t T. assert (Li : (i < length (o_time out))%nat) by (apply nth_error_Some; congruence).
    destruct (column_cells (map show (o_time out) :: map (fun c => map show (snd c)) (o_ice out)) (length (o_time out)) i 0 _ Li eq_refl) as [A _].
    eexists. split; [exact A|]. cbn [map]. constructor.
    + rewrite Forall_forall in U. rewrite (nth_indep _ ""%string (show 0)) by now rewrite map_length. rewrite map_nth.
      rewrite (nth_error_nth _ _ _ T). apply U. eapply nth_error_In; eauto.
    + rewrite map_map. clear -C V Li. unfold columns_of in C. induction (o_ice out) as [|c l IH]; cbn [map]; [constructor|].
      inversion C as [|? ? [_ C1] C2]; subst. inversion V as [|? ? V1 V2]; subst. constructor; [|now apply IH].
      rewrite (nth_indep _ ""%string (show 0)) by (rewrite map_length; lia). rewrite map_nth. rewrite Forall_forall in V1.
      apply V1, nth_In. lia.
Qed.
(** So it is for ejecta, with the sources of each time in the second column. *)
Theorem C84_ejecta : forall parse show back sources out, columns_of (o_time out) (o_ej out) ->
  length sources = length (o_time out) -> Forall one_line sources ->
  Forall (read_as parse show back) (o_time out) -> Forall (fun c => Forall (read_as parse show back) (snd c)) (o_ej out) ->
  exists rows, csv_rows (ej_text show sources out) = Ok (("time"%string :: "ej_sources"%string :: map fst (o_ej out)) :: rows) /\
    length rows = length (o_time out) /\
    forall i t, nth_error (o_time out) i = Some t -> exists first source rest, nth_error rows i = Some (first :: source :: rest) /\
      nth_error sources i = Some source /\
      Forall2 (cell_back parse) (first :: rest) (back t :: map (fun c => back (nth i (snd c) 0)) (o_ej out)).
Proof.
  intros parse show back sources out C LS OS U V.
  assert (Ls : forall x, read_as parse show back x -> one_line (show x)).
  { intros x (y & Dx & _). apply ordinary_line. eapply decimal_ordinary; eauto. }
  assert (Lm : forall l, Forall (read_as parse show back) l -> Forall one_line (map show l)).
  { intros l Hl. apply Forall_map. eapply Forall_impl; [|exact Hl]. exact Ls. }
  set (cols := map show (o_time out) :: sources :: map (fun c => map show (snd c)) (o_ej out)).
  exists (column_lines cols (length (o_time out))). split; [|split].
  - unfold ej_text. apply columns_back.
    + cbn. lia.
    + unfold cols. cbn [length]. now rewrite !map_length.
    + constructor; [vm_compute; intuition discriminate|]. constructor; [vm_compute; intuition discriminate|].
      apply Forall_map. eapply Forall_impl; [|exact C]. cbn beta. tauto.
    + constructor; [split; [apply map_length|now apply Lm]|]. constructor; [auto|].
      apply Forall_map. unfold columns_of in C. rewrite Forall_forall in C, V |- *.
      intros c I. split; [rewrite map_length; now apply C|]. apply Lm. now apply V.
    + discriminate.
    + vm_compute; discriminate.
  - unfold column_lines. now rewrite map_length, seq_length.
  - intros i t T. assert (Li : (i < length (o_time out))%nat) by (apply nth_error_Some; congruence).
    destruct (column_cells cols (length (o_time out)) i 0 _ Li eq_refl) as [A _].
    exists (nth i (map show (o_time out)) ""%string), (nth i sources ""%string),
      (map (fun col => nth i col ""%string) (map (fun c => map show (snd c)) (o_ej out))). split; [exact A|]. split; [apply nth_error_nth'; lia|]. constructor.
    + rewrite Forall_forall in U. rewrite (nth_indep _ ""%string (show 0)) by now rewrite map_length. rewrite map_nth.
      rewrite (nth_error_nth _ _ _ T). apply U. eapply nth_error_In; eauto.
    + rewrite map_map. clear -C V Li. unfold columns_of in C. induction (o_ej out) as [|c l IH]; cbn [map]; [constructor|].
      inversion C as [|? ? [_ C1] C2]; subst. inversion V as [|? ? V1 V2]; subst. constructor; [|now apply IH].
      rewrite (nth_indep _ ""%string (show 0)) by (rewrite map_length; lia). rewrite map_nth. rewrite Forall_forall in V1.
      apply V1, nth_In. lia.
Qed.

(** A run that writes, into the directory of its day, name and seed, leaves its tables on the
    disk; and the figure, drawn that day from the configuration of this or any other such
    run, finds them and reads them as they were. *)
Theorem C84_figure : forall E kw c z P run kw0 c0 P0 run0 parse show back cfg_text grids sources out s,
  default_outputs E kw run -> Cfg E kw = Ok c -> getv c "seed" = VInt z -> getv c "out_path" = VStr P ->
  getv c "write" = VBool true -> NoDup (map fst (o_strat out)) -> room s (path_parts P) ->
  default_outputs E kw0 run0 -> Cfg E kw0 = Ok c0 -> getv c0 "out_path" = VStr P0 ->
  exists r, results_of show c cfg_text grids sources out = Ok r /\
  forall n table, In (n, table) (o_strat out) ->
  Forall (read_as parse show back) (numbers_of table) -> Forall (fun l => readable (l_label l)) table ->
  read_from parse (exec (cli_ops false r s) s) P0 run z n = Ok (Some (map (renumbered back) table)).
Proof.
  intros E kw c z P run kw0 c0 P0 run0 parse show back ct gr so out s D HC HZ HP W N Rm D0 HC0 HP0.
  destruct (run_back show E kw c z P run ct gr so out D HC HZ HP parse back s Rm N W) as (r & Hr & B). exists r. split; [exact Hr|].
  intros n table I U L. destruct (B n table I U L) as (text & F & T). unfold read_from.
  destruct D as (C1 & C2 & C3 & _ & C5 & C6 & C7 & _). destruct D0 as (_ & _ & _ & _ & O5 & O6 & O7 & _).
  rewrite (C77_files_default E kw0 kw c0 c z run0 run P0 P n C1 C2 C3 O7 C7 HC0 O5 O6 HP0 HC C5 C6 HP HZ).
  cbn [bind]. rewrite F. rewrite T. reflexivity.
Qed.
(** So do all tables of a run of the shipped model whose numbers are read as they were. *)
Theorem C84_run : forall E kw c z P run kw0 c0 P0 run0 parse show back cfg_text grids sources names out s,
  default_outputs E kw run -> Cfg E kw = Ok c -> getv c "seed" = VInt z -> getv c "out_path" = VStr P ->
  getv c "write" = VBool true -> shipped_run names out -> room s (path_parts P) ->
  default_outputs E kw0 run0 -> Cfg E kw0 = Ok c0 -> getv c0 "out_path" = VStr P0 ->
  Forall (fun nt => Forall (read_as parse show back) (numbers_of (snd nt))) (o_strat out) ->
  exists r, results_of show c cfg_text grids sources out = Ok r /\
  forall n, In n names -> exists table, In (n, table) (o_strat out) /\
    read_from parse (exec (cli_ops false r s) s) P0 run z n = Ok (Some (map (renumbered back) table)).
Proof.
  intros E kw c z P run kw0 c0 P0 run0 parse show back ct gr so names out s D HC HZ HP W Sh Rm D0 HC0 HP0 U.
  pose proof (shipped_rows _ _ Sh) as [Sn _].
  assert (N : NoDup (map fst (o_strat out))).
  { rewrite Sn. destruct Sh as (? & ? & ? & ? & ? & ? & ? & ? & ? & ? & _ & _ & _ & (_ & X & _) & _). exact X. }
  destruct (C84_figure E kw c z P run kw0 c0 P0 run0 parse show back ct gr so out s D HC HZ HP W N Rm D0 HC0 HP0) as (r & Hr & B).
  exists r. split; [exact Hr|]. intros n I. rewrite <- Sn in I. apply in_map_iff in I as ([n' table] & <- & I). cbn [fst].
  exists table. split; [exact I|]. rewrite Forall_forall in U. apply B; [exact I|apply (U _ I)|].
  eapply shipped_readable. exists names, out. eauto.
Qed.

(** ** Concrete cases *)
(** Any numbers can be written and read exactly by some way of writing and reading. *)
Lemma ways : forall xs, exists show parse, Forall (read_as parse show (fun x => x)) xs.
Proof. exact show_parse. Qed.
Lemma same_numbers table : map (renumbered (fun x => x)) table = table.
Proof. induction table as [|[i e l t d [p|]] table IH]; cbn [map]; rewrite ?IH; reflexivity. Qed.
Definition two_layers : list layer :=
  [mk_layer 0 0 "Formation age" 4 0 None; mk_layer 1 2 "Cabeus,Idel'son L" 3 3 (Some 40)].
Example C84_case : exists show parse, read_strat parse (strat_text show two_layers) = Ok two_layers /\
  ~ In "Cabeus,Idel'son L"%string missing.
Proof.
  destruct (ways (numbers_of two_layers)) as (show & parse & U). exists show, parse.
  split; [|vm_compute; intuition discriminate]. apply (C84_table parse show (fun x => x)); [exact U|].
  repeat constructor; vm_compute; intuition discriminate.
Qed.
(** A label with a comma is quoted. *)
Example C84_text : strat_text (fun _ => "1.0"%string) [mk_layer 1 1 "Cabeus,Idel'son L" 1 1 None] =
  ("ice,ejecta,label,time,depth,icepct" ++ String lf ("1.0,1.0," ++ String quote ("Cabeus,Idel'son L" ++ String quote (",1.0,1.0," ++ String lf ""))))%string.
Proof. vm_compute. reflexivity. Qed.
(** The default run of a day, on a disk with the working directory only. *)
Definition clean : fs := mk_fs (fun p => is_prefix p ["work"]%string) (fun _ => None).
Lemma prefix_trans p q r : is_prefix p q = true -> is_prefix q r = true -> is_prefix p r = true.
Proof.
  revert q r. induction p as [|a p IH]; intros [|b q] [|c r]; cbn [is_prefix]; try reflexivity; try discriminate.
  intros A B. apply andb_prop in A as [A1 A2]. apply andb_prop in B as [B1 B2]. apply String.eqb_eq in A1, B1. subst.
  rewrite String.eqb_refl. cbn [andb]. eauto.
Qed.
Example C84_run_case : exists E c P out table show parse r s, default_outputs E [] "moonpies" /\ Cfg E [] = Ok c /\
  getv c "out_path" = VStr P /\ room s (path_parts P) /\ shipped_run with_hop out /\ In ("Haworth"%string, table) (o_strat out) /\
  results_of show c "" (""%string, ""%string) [] out = Ok r /\
  read_from parse (exec (cli_ops false r s) s) P "moonpies" 4242 "Haworth" = Ok (Some table).
Proof.
  destruct default_run as (out & R & _).
  assert (D : default_outputs (machine [] "240101") [] "moonpies").
  { split; [reflexivity|]. split; [reflexivity|].
    assert (Pn : forall n, plainc n -> plain_name n).
    { intros n (A1 & A2 & A3 & A4). split; [exact A1|]. split; [exact A2|]. split; [exact A3|]. intros a b ->.
      clear -A4. induction a as [|x a IH]; cbn in A4; [discriminate|]. apply andb_prop in A4 as [_ A4]. auto. }
    split; [apply Pn; repeat split; discriminate || reflexivity|]. split; [intros k v L; discriminate|].
    split; [reflexivity|]. split; [reflexivity|]. split; [apply Pn; repeat split; discriminate || reflexivity|].
    repeat constructor. }
  assert (H : Cfg (machine [] "240101") [] = Ok (built_from (machine [] "240101") [])) by (vm_compute; reflexivity).
  destruct (ways (flat_map (fun nt => numbers_of (snd nt)) (o_strat out))) as (show & parse & U).
  assert (HP : getv (built_from (machine [] "240101") []) "out_path" = VStr "/work/out/240101/moonpies/04242") by (vm_compute; reflexivity).
  assert (Rm : room clean (path_parts "/work/out/240101/moonpies/04242")).
  { split; [|split; [reflexivity|intros x; vm_compute; reflexivity]]. intros p q A B. cbn [clean dirs] in *.
    eapply prefix_trans; eauto. }
  destruct (C84_run _ _ _ 4242 _ "moonpies" _ _ _ "moonpies" parse show (fun x => x) "" (""%string, ""%string) [] with_hop out clean D H ltac:(vm_compute; reflexivity) HP ltac:(vm_compute; reflexivity) R Rm D H HP) as (r & Hr & B).
  - apply Forall_forall. intros nt I. rewrite Forall_forall in U |- *. intros x X. apply U. apply in_flat_map. eauto.
  - destruct (B "Haworth"%string ltac:(now left)) as (table & It & T). rewrite same_numbers in T.
    exists (machine [] "240101"), (built_from (machine [] "240101") []), "/work/out/240101/moonpies/04242"%string, out, table, show, parse, r, clean. auto 12.
Qed.
Example C84_ice_case : exists show out rows, csv_rows (ice_text show out) = Ok (["time"; "Haworth"; "Faustini"]%string :: rows) /\
  length rows = 2%nat.
Proof.
  set (out := mk_outputs [4; 3] [] [("Haworth", [1; 2]); ("Faustini", [0; 5])]%string []).
  destruct (ways [4; 3; 1; 2; 0; 5]) as (show & parse & U). exists show, out.
  rewrite Forall_forall in U.
  destruct (C84_ice parse show (fun x => x) out) as (rows & A & B & _).
  - repeat constructor; vm_compute; intuition discriminate.
  - discriminate.
  - repeat constructor; apply U; cbn [In]; tauto.
  - repeat constructor; apply U; cbn [In]; tauto.
  - exists rows. auto.
Qed.

Print Assumptions C84_table.
Print Assumptions C84_missing_refuted.
Print Assumptions C84_shipped.
Print Assumptions C84_ice.
Print Assumptions C84_ejecta.
Print Assumptions C84_figure.
Print Assumptions C84_run.
