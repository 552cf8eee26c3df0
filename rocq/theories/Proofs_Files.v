(** Proofs about output files. *)
From Coq Require Import ZArith QArith Qreals Bool Ascii String List Permutation FinFun Reals Lra Lia.
From Verif Require Import Base Model_Path Model_Csv Model_Cfg Model_Strat Model_Plot Model_Main Model_Run Model_Figure Model_Save Model_Files Spec_Csv Spec_Cfg Spec_Figure Spec_Save Spec_Run Spec_Strat Spec_Outputs Spec_Files
  Proofs_Base Proofs_Csv Proofs_Path Proofs_Cmap Proofs_Labels Proofs_Run Proofs_Outputs Props_Cfg Props_Save Props_Figure.
Import ListNotations.
Open Scope R_scope.
Open Scope list_scope.

Lemma figure_ordinary d : is_digit d -> ordinary (ascii_of_nat (48 + d)).
Proof.
  unfold is_digit. intros H.
  do 10 (destruct d as [|d]; [repeat split; vm_compute; discriminate|]). lia.
Qed.
Lemma figures_ordinary ds : Forall is_digit ds -> Forall ordinary (figures ds).
Proof. intros H. unfold figures. apply Forall_map. eapply Forall_impl; [|exact H]. exact figure_ordinary. Qed.
Lemma decimal_ordinary t x : decimal_text t x -> Forall ordinary (chars t).
Proof.
  intros (sg & s & int & point & frac & ex & e & S & I & F & _ & P & X & -> & _).
  assert (O : forall a, In a ["+"; "-"; "."; "e"; "E"]%char -> ordinary a).
  { intros a [<-|[<-|[<-|[<-|[<-|[]]]]]]; repeat split; vm_compute; discriminate. }
  repeat (apply Forall_app; split); try (apply figures_ordinary; assumption).
  - destruct S; repeat constructor; apply O; cbn [In]; tauto.
  - destruct P as [->|[-> _]]; repeat constructor; apply O; cbn [In]; tauto.
  - destruct X as [|e' sg' ds Q1 Q2 _ Q3|e' ds Q1 _ Q3]; [constructor| |].
    + constructor; [destruct Q1 as [->| ->]; apply O; cbn [In]; tauto|]. apply Forall_app. split; [|now apply figures_ordinary].
      destruct Q2 as [->| ->]; repeat constructor; apply O; cbn [In]; tauto.
    + constructor; [destruct Q1 as [->| ->]; apply O; cbn [In]; tauto|]. constructor; [apply O; cbn [In]; tauto|now apply figures_ordinary].
Qed.
Lemma ordinary_line s : Forall ordinary (chars s) -> one_line s.
Proof. intros H I. rewrite Forall_forall in H. destruct (H _ I) as (_ & _ & _ & X). now apply X. Qed.

Lemma field_written f : one_line f -> field_text f (csv_field f).
Proof.
  intros O. unfold csv_field. destruct (quoted f) eqn:Q; [apply ft_quoted|]. apply ft_plain.
  apply Forall_forall. intros a A. unfold quoted in Q.
  assert (X : Ascii.eqb a comma || Ascii.eqb a quote || Ascii.eqb a lf = false).
  { destruct (_ || _ || _)%bool eqn:Y; [|reflexivity]. exfalso. assert (Z : existsb (fun a => Ascii.eqb a comma || Ascii.eqb a quote || Ascii.eqb a lf) (list_ascii_of_string f) = true).
    { apply existsb_exists. exists a. auto. } congruence. }
  apply orb_false_iff in X as [X X3]. apply orb_false_iff in X as [X1 X2]. apply Ascii.eqb_neq in X1, X2, X3.
  split; [exact X1|]. split; [exact X2|]. split; [exact X3|]. intros ->. now apply O.
Qed.
Lemma row_written row : (2 <= length row)%nat -> Forall one_line row -> row_text row (csv_fields row) /\ csv_fields row <> [].
Proof.
  intros L F. assert (R : row <> []) by (destruct row; [cbn in L; lia|discriminate]). split.
  - clear L. induction row as [|f row IH]; [contradiction|]. inversion F as [|? ? F1 F2]; subst.
    destruct row as [|g row]; [constructor; now apply field_written|].
    change (csv_fields (f :: g :: row)) with (csv_field f ++ COMMA :: csv_fields (g :: row))%list.
    constructor; [now apply field_written|]. apply IH; [auto|discriminate].
  - destruct row as [|f [|g row]]; cbn in L; [lia|lia|]. cbn [csv_fields]. destruct (csv_field f); discriminate.
Qed.
Lemma chars_of l : chars (string_of_list_ascii l) = l.
Proof. apply list_ascii_of_string_of_list_ascii. Qed.
Lemma rows_written rows : Forall (fun row => (2 <= length row)%nat /\ Forall one_line row) rows ->
  file_text rows (flat_map (fun row => csv_fields row ++ [lf])%list rows).
Proof.
  induction 1 as [|row rows [L F] H IH]; [constructor|]. cbn [flat_map]. rewrite <- app_assoc.
  destruct (row_written row L F) as [R N]. apply fl_line; auto. now left.
Qed.
(** A file whose first character is a letter is read back. *)
Lemma csv_written rows : Forall (fun row => (2 <= length row)%nat /\ Forall one_line row) rows ->
  (forall r, flat_map (fun row => csv_fields row ++ [lf])%list rows <> BOM ++ r)%list ->
  csv_rows (to_csv rows) = Ok rows.
Proof.
  intros H B. apply read_rows. exists (flat_map (fun row => csv_fields row ++ [lf])%list rows).
  split; [now apply rows_written|]. left. split; [apply chars_of|exact B].
Qed.

Section Table.
  Variables (parse : R -> R) (show : R -> string) (back : R -> R).
  Lemma number_back x : read_as parse show back x -> exists q, number (show x) = Ok (Some q) /\ parse (Q2R q) = back x.
  Proof. intros (y & D & P). apply number_value in D as (q & N & <-). eauto. Qed.
  Lemma layer_back l : Forall (read_as parse show back) (numbers_of [l]) -> ~ In (l_label l) missing ->
    read_layer parse strat_header (strat_line show l) = Ok (renumbered back l).
  Proof.
    intros F N. destruct l as [i e lab t d p]. cbn [numbers_of flat_map l_ice l_ej l_time l_depth l_icepct l_label] in *.
    inversion F as [|? ? F1 F']; subst. inversion F' as [|? ? F2 F'']; subst. inversion F'' as [|? ? F3 F3']; subst.
    inversion F3' as [|? ? F4 F5]; subst. rewrite app_nil_r in F5.
    destruct (number_back _ F1) as (q1 & N1 & P1). destruct (number_back _ F2) as (q2 & N2 & P2).
    destruct (number_back _ F3) as (q3 & N3 & P3). destruct (number_back _ F4) as (q4 & N4 & P4).
    unfold read_layer, renumbered, num_at, num_cell, text_cell, strat_header, strat_line.
    cbn [col_index String.eqb Ascii.eqb Bool.eqb option_map nth bind l_ice l_ej l_time l_depth l_icepct l_label].
    rewrite N1, N2, N3, N4. cbn [need bind].
    assert (M : existsb (String.eqb lab) na_values = false).
    { destruct (existsb _ _) eqn:X; [|reflexivity]. apply existsb_exists in X as (y & Y1 & Y2). apply String.eqb_eq in Y2. subst y. contradiction. }
    rewrite M, P1, P2, P3, P4. destruct p as [x|].
    - inversion F5 as [|? ? F6 _]; subst. destruct (number_back _ F6) as (q & Nq & Pq). rewrite Nq. cbn [bind]. now rewrite Pq.
    - rewrite blank_na. reflexivity.
  Qed.
  Lemma line_rows l : Forall (read_as parse show back) (numbers_of [l]) -> one_line (l_label l) -> Forall one_line (strat_line show l).
  Proof.
    intros F O. assert (U : forall x, read_as parse show back x -> one_line (show x)).
    { intros x (y & D & _). apply ordinary_line. eapply decimal_ordinary; eauto. }
    destruct l as [i e lab t d p]. cbn [numbers_of flat_map strat_line l_ice l_ej l_time l_depth l_icepct l_label] in *.
    rewrite app_nil_r in F. apply Forall_app in F as [F Fp].
    inversion F as [|? ? F1 F']; subst. inversion F' as [|? ? F2 F'']; subst. inversion F'' as [|? ? F3 F3']; subst.
    inversion F3' as [|? ? F4 _]; subst. repeat constructor; auto.
    destruct p as [x|]; cbn [l_icepct]; [inversion Fp; subst; auto|]. intros Y; exact Y.
  Qed.
  Lemma numbers_cons l table : Forall (read_as parse show back) (numbers_of (l :: table)) ->
    Forall (read_as parse show back) (numbers_of [l]) /\ Forall (read_as parse show back) (numbers_of table).
  Proof. unfold numbers_of. cbn [flat_map]. rewrite app_nil_r. apply Forall_app. Qed.
  Lemma table_back table : Forall (read_as parse show back) (numbers_of table) -> Forall (fun l => readable (l_label l)) table ->
    read_strat parse (strat_text show table) = Ok (map (renumbered back) table).
  Proof.
    intros F L. unfold read_strat, strat_text. rewrite csv_written.
    - cbn [bind]. revert F L. induction table as [|l table IH]; intros F L; [reflexivity|]. apply numbers_cons in F as [F1 F2].
      inversion L as [|? ? [L1 _] L2]; subst. cbn [map mapM]. rewrite layer_back by auto. cbn [bind]. rewrite IH by auto. reflexivity.
    - constructor; [split; [cbn; lia|]|].
      + repeat constructor; vm_compute; intuition discriminate.
      + apply Forall_map. revert F L. induction table as [|l table IH]; intros F L; constructor.
        * apply numbers_cons in F as [F1 F2]. inversion L as [|? ? [_ L1] L2]; subst. split; [cbn; lia|]. now apply line_rows.
        * apply numbers_cons in F as [F1 F2]. inversion L; subst. auto.
    - intros r H. apply (f_equal (hd_error (A := ascii))) in H. vm_compute in H. discriminate.
  Qed.
End Table.

(** ** Labels of shipped runs *)
Lemma chars_app a b : chars (a ++ b)%string = chars a ++ chars b.
Proof. induction a as [|x a IH]; [reflexivity|]. cbn. now rewrite <- IH. Qed.
Lemma concat_chars ns a : In a (chars (String.concat "," ns)) -> a = ","%char \/ exists n, In n ns /\ In a (chars n).
Proof.
  induction ns as [|n ns IH]; [contradiction|]. destruct ns as [|m ns].
  - intros H. right. exists n. split; [now left|exact H].
  - change (String.concat "," (n :: m :: ns)) with (n ++ "," ++ String.concat "," (m :: ns))%string.
    rewrite !chars_app. intros H. apply in_app_iff in H as [H|[H|H]].
    + right. exists n. split; [now left|exact H].
    + left. now symmetry.
    + apply IH in H as [H|(x & X1 & X2)]; [now left|]. right. exists x. split; [now right|exact X2].
Qed.
Lemma listed_lines n : In n listed -> ~ In n missing /\ one_line n.
Proof.
  intros I. assert (B : forallb (fun n => negb (existsb (String.eqb n) missing) && negb (existsb (Ascii.eqb CR) (chars n))) listed = true) by (vm_compute; reflexivity).
  rewrite forallb_forall in B. specialize (B n I). apply andb_prop in B as [B1 B2]. apply negb_true_iff in B1, B2. split.
  - intros X. enough (existsb (String.eqb n) missing = true) by congruence. apply existsb_exists. exists n. split; [exact X|apply String.eqb_refl].
  - intros X. enough (existsb (Ascii.eqb CR) (chars n) = true) by congruence. apply existsb_exists. exists CR. split; [exact X|apply Ascii.eqb_refl].
Qed.
Lemma missing_no_comma m : In m missing -> no_comma m.
Proof.
  intros I. assert (B : forallb (fun n => negb (existsb (Ascii.eqb ","%char) (list_ascii_of_string n))) missing = true) by (vm_compute; reflexivity).
  rewrite forallb_forall in B. specialize (B m I). apply negb_true_iff in B. now apply no_comma_b.
Qed.
Lemma label_readable n l : layer_label n l -> readable l.
Proof.
  assert (P : forallb (fun l => negb (existsb (String.eqb l) missing) && negb (existsb (Ascii.eqb CR) (chars l))) ["Ice"; "Minor source(s)"]%string = true) by (vm_compute; reflexivity).
  intros [->|[->|(ns & N0 & _ & I & _ & ->)]].
  - split; vm_compute; intuition discriminate.
  - split; vm_compute; intuition discriminate.
  - pose proof listed_ok as L. rewrite Forall_forall in L. split.
    + intros M. pose proof (split_no_comma _ (missing_no_comma _ M)) as X.
      assert (Sj : split (String.concat "," ns) = ns).
      { apply (split_join ns N0). apply Forall_forall. intros x Hx. apply (L x). auto. }
      assert (Y : In (String.concat "," ns) ns) by (rewrite <- Sj, X; now left). apply I, listed_lines in Y as [Y _]. now apply Y.
    + intros M. apply concat_chars in M as [M|(m & M1 & M2)]; [discriminate|]. apply I, listed_lines in M1 as [_ M1]. now apply M1.
Qed.
Lemma shipped_readable n table : shipped_table n table -> Forall (fun l => readable (l_label l)) table.
Proof.
  intros T. destruct (rows_named _ _ (table_rows _ _ T)) as (f & rest & -> & F & _ & _ & L). constructor.
  - rewrite F. split; vm_compute; intuition discriminate.
  - eapply Forall_impl; [|exact L]. cbn beta. intros l. apply label_readable.
Qed.

(** ** The files *)
Lemma default_dir E kw c z P run : default_outputs E kw run -> Cfg E kw = Ok c -> getv c "seed" = VInt z -> getv c "out_path" = VStr P ->
  path_parts P = path_parts (cwd E) ++ ["out"; date_now E; run; format_05d z]%string /\
  path_parts (abspath (cwd E) (expanduser (home E) P)) = path_parts P.
Proof.
  intros (C & CN & D & T & HO & HN & Pl & _) HC HZ HP.
  pose proof (C40_default E kw c z P run C HC HZ HO HN HP) as X. cbv zeta in X.
  apply plain_plainc in D, Pl. pose proof (seed_plain z) as Sp.
  assert (Po : plainc "out") by (split; [discriminate|split; [discriminate|split; [discriminate|reflexivity]]]).
  set (dir := path_join _ (format_05d z)) in *.
  assert (SS : forall a b, starts_slash a = true -> plainc b -> starts_slash (path_join a b) = true).
  { intros a b H (_ & _ & _ & K). unfold path_join. rewrite (noslash_starts b K). destruct a as [|x a]; [discriminate|].
    destruct (ends_slash (String x a)); exact H. }
  assert (S4 : starts_slash dir = true) by (unfold dir; auto 8).
  assert (PD : forall l, plainc l -> path_parts l = [l]) by (intros; now apply parts_plain).
  assert (NS : forall l, plainc l -> starts_slash l = false) by (intros l (_ & _ & _ & K); now apply noslash_starts).
  assert (Q1 : path_parts dir = path_parts (cwd E) ++ ["out"; date_now E; run; format_05d z]%string).
  { unfold dir. rewrite !parts_join by auto. rewrite (PD (format_05d z)), (PD run), (PD (date_now E)), (PD "out"%string) by auto. rewrite <- !app_assoc. reflexivity. }
  assert (Q2 : path_parts (normpath dir) = path_parts (cwd E) ++ ["out"; date_now E; run; format_05d z]%string).
  { unfold dir. rewrite !normpath_join by auto 8. rewrite CN, !parts_addc. rewrite (PD (format_05d z)), (PD run), (PD (date_now E)), (PD "out"%string) by auto. rewrite <- !app_assoc. reflexivity. }
  fold (resolve (cwd E) (home E) P). fold (resolve (cwd E) (home E) dir) in X.
  assert (HD : has_digit dir = true).
  { unfold dir. unfold path_join at 1. rewrite (NS (format_05d z) Sp). set (a := path_join _ run). destruct a as [|b a]; [apply seed_digit|].
    destruct (ends_slash (String b a)); repeat apply has_digit_app_r; apply seed_digit. }
  rewrite X. destruct (Model_Cfg.exists_ E (dir ++ "/")%string).
  - rewrite parts_end. split; [exact Q1|]. rewrite resolve_slash_end by auto. rewrite resolve_normal by auto. congruence.
  - rewrite resolve_idem by auto. rewrite resolve_normal by auto. auto.
Qed.
Lemma out_file E kw c z P run k v : default_outputs E kw run -> Cfg E kw = Ok c -> getv c "seed" = VInt z -> getv c "out_path" = VStr P ->
  In (k, v) output_files -> exists p, getv c k = VStr p /\ path_parts p = path_parts P ++ [v].
Proof.
  intros D HC HZ HP I. destruct (default_dir E kw c z P run D HC HZ HP) as [_ Q].
  destruct D as (C & CN & _ & T & _ & _ & _ & F). rewrite Forall_forall in F. destruct (F _ I) as [F1 F2]. cbn [fst snd] in F1, F2.
  assert (St : start kw k = VStr v).
  { unfold start. rewrite F1. destruct I as [I|[I|[I|[I|[I|[]]]]]]; injection I as <- <-; vm_compute; reflexivity. }
  assert (Pv : plainc v /\ basename v = v).
  { destruct I as [I|[I|[I|[I|[I|[]]]]]]; injection I as <- <-; (split; [repeat split; try discriminate|]); vm_compute; reflexivity. }
  destruct Pv as [Pv Bv].
  assert (Ik : In k options /\ endswith "_out" k = true).
  { clear - I. destruct I as [I|[I|[I|[I|[I|[]]]]]]; injection I as <- _; (split; [apply existsb_eqb; vm_compute; reflexivity|vm_compute; reflexivity]). }
  destruct Ik as [Ik Ek]. pose proof (C69_outputs E kw c k v P C HC T Ik Ek St HP) as X. rewrite F2, Bv in X.
  eexists. split; [exact X|]. pose proof Pv as (_ & _ & _ & K). rewrite parts_join by now apply noslash_starts. rewrite Q, (parts_plain v Pv). reflexivity.
Qed.
Lemma strat_inj a b : ("strat_" ++ a ++ ".csv" = "strat_" ++ b ++ ".csv" -> a = b)%string.
Proof.
  intros H. cbn [String.append] in H. injection H as H. apply (f_equal (fun s => rev (chars s))) in H. rewrite !chars_app, !rev_app_distr in H.
  apply app_inv_head in H. apply (f_equal (@rev _)) in H. rewrite !rev_involutive in H.
  rewrite <- (string_of_list_ascii_of_string a), <- (string_of_list_ascii_of_string b). unfold chars in H. now rewrite H.
Qed.
Lemma npy_same d v : ends_with ".npy" v = true -> npy_path (d ++ [v]) = d ++ [v].
Proof. intros H. unfold npy_path. rewrite last_last, H. reflexivity. Qed.
Lemma is_prefix_longer p q : is_prefix p q = true -> (length p <= length q)%nat.
Proof.
  revert q. induction p as [|a p IH]; intros [|b q]; cbn; try lia; try discriminate. intros H. apply andb_prop in H as [_ H]. apply IH in H. lia.
Qed.

Lemma nodup_app {A} (a b : list A) : NoDup a -> NoDup b -> (forall x, In x a -> In x b -> False) -> NoDup (a ++ b).
Proof.
  intros Na Nb H. induction Na as [|x a X Na IH]; [exact Nb|]. cbn. constructor.
  - intros I. apply in_app_iff in I as [I|I]; [contradiction|]. apply (H x); [now left|exact I].
  - apply IH. intros y I J. apply (H y); [now right|exact J].
Qed.

Section Run.
  Variables (show : R -> string) (E : env) (kw c : cfg) (z : Z) (P run : string).
  Variables (cfg_text : string) (grids : string * string) (sources : list string) (out : outputs).
  Hypotheses (D : default_outputs E kw run) (HC : Cfg E kw = Ok c) (HZ : getv c "seed" = VInt z) (HP : getv c "out_path" = VStr P).

  Lemma results_default : exists r, results_of show c cfg_text grids sources out = Ok r /\
    f_write r = truthy (getv c "write") /\
    f_out_path r = path_parts P /\ f_strat r = map (fun nt => (fst nt, [strat_text show (snd nt)])) (o_strat out) /\
    exists names, map fst (planned r) = map (fun x => path_parts P ++ [x]) names /\
      (NoDup (map fst (o_strat out)) -> NoDup names).
  Proof.
    assert (G : forall k v, In (k, v) output_files -> exists p, getv c k = VStr p /\ path_parts p = path_parts P ++ [v])
      by (intros; eapply out_file; eauto).
    destruct (G "config_py_out" _ ltac:(now left))%string as (p1 & G1 & A1). destruct (G "ej_t_csv_out" _ ltac:(right; now left))%string as (p2 & G2 & A2).
    destruct (G "ice_t_csv_out" _ ltac:(do 2 right; now left))%string as (p3 & G3 & A3).
    destruct (G "agegrd_npy_out" _ ltac:(do 3 right; now left))%string as (p4 & G4 & A4).
    destruct (G "ejmatrix_npy_out" _ ltac:(do 4 right; now left))%string as (p5 & G5 & A5).
    unfold results_of. rewrite HP, G1, G2, G3, G4, G5. cbn [opt_str bind].
    eexists. split; [reflexivity|]. cbn [f_write f_out_path f_strat]. repeat (split; [reflexivity|]).
    set (S := map (fun nt : string * list layer => ("strat_" ++ fst nt ++ ".csv")%string) (o_strat out)).
    exists ((if truthy (getv c "write") then ["config_moonpies_v1.1.1.py"%string] ++ S ++ ["ej_columns.csv"; "ice_columns.csv"]%string else []) ++
            (if truthy (getv c "write_npy") then ["age_grid.npy"; "ejecta_matrix.npy"]%string else [])). split.
    - unfold planned. cbn [f_write f_npy f_cfg_name f_out_path f_strat f_ej_name f_ice_name f_age_name f_mat_name].
      rewrite A1, A2, A3, A4, A5, !npy_same by reflexivity. unfold opt_bool. rewrite !map_app. f_equal.
      + destruct (truthy (getv c "write")); [|reflexivity]. rewrite !map_app. cbn [map fst app]. f_equal. unfold S. rewrite !map_map. cbn [fst]. reflexivity.
      + destruct (truthy (getv c "write_npy")); reflexivity.
    - intros N. assert (NS : NoDup S).
      { unfold S. rewrite <- (map_map fst (fun n => ("strat_" ++ n ++ ".csv")%string)). apply FinFun.Injective_map_NoDup; [|exact N].
        intros a b. apply strat_inj. }
      assert (X : forall s, String.prefix "strat_" s = false -> ~ In s S).
      { intros s B I. unfold S in I. apply in_map_iff in I as ([n t] & <- & _). cbn in B. destruct n; discriminate. }
      assert (Y : forall l, NoDup l -> Forall (fun s => String.prefix "strat_" s = false) l -> NoDup (S ++ l)).
      { intros l Nl F. apply nodup_app; [exact NS|exact Nl|]. intros s I J. rewrite Forall_forall in F. now apply (X s (F s J)). }
      destruct (truthy (getv c "write")), (truthy (getv c "write_npy")).
      + eapply Permutation_NoDup; [|apply (Y ["config_moonpies_v1.1.1.py"; "ej_columns.csv"; "ice_columns.csv"; "age_grid.npy"; "ejecta_matrix.npy"]%string)].
        * cbn [app]. rewrite <- app_assoc. cbn [app]. symmetry. apply Permutation_middle.
        * apply nodupb_ok. reflexivity.
        * repeat constructor.
      + eapply Permutation_NoDup; [|apply (Y ["config_moonpies_v1.1.1.py"; "ej_columns.csv"; "ice_columns.csv"]%string)].
        * cbn [app]. rewrite app_nil_r. symmetry. apply Permutation_middle.
        * apply nodupb_ok. reflexivity.
        * repeat constructor.
      + apply nodupb_ok. reflexivity.
      + constructor.
  Qed.
  Lemma run_back parse back s : room s (path_parts P) -> NoDup (map fst (o_strat out)) -> getv c "write" = VBool true ->
    exists r, results_of show c cfg_text grids sources out = Ok r /\
    forall n table, In (n, table) (o_strat out) -> Forall (read_as parse show back) (numbers_of table) ->
    Forall (fun l => readable (l_label l)) table ->
    exists text, Model_Save.files (exec (cli_ops false r s) s) (path_parts P ++ ["strat_" ++ n ++ ".csv"]%string) = Some text /\
      read_strat parse text = Ok (map (renumbered back) table).
  Proof.
    intros (T & Fd & Dd) N W. destruct results_default as (r & Hr & Fw & Fo & Fs & names & Np & Nn). exists r. split; [exact Hr|].
    intros n table I U L. specialize (Nn N).
    assert (Nd : NoDup (map fst (planned r))).
    { rewrite Np. apply FinFun.Injective_map_NoDup; [|exact Nn]. intros a b H. apply app_inj_tail in H. tauto. }
    assert (Pl : forall p t, In (p, t) (planned r) -> exists x, p = path_parts P ++ [x]).
    { intros p t H. apply (in_map fst) in H. rewrite Np in H. cbn [fst] in H. apply in_map_iff in H as (x & <- & _). eauto. }
    assert (Cl : no_clash s r).
    { intros p t H. destruct (Pl p t H) as (x & ->). unfold dirname. rewrite removelast_last. split; [exact Fd|]. split; [apply Dd|].
      intros p' t' H'. destruct (Pl p' t' H') as (x' & ->). rewrite removelast_last.
      destruct (is_prefix _ _) eqn:B; [|reflexivity]. apply is_prefix_longer in B. rewrite app_length in B. cbn in B. lia. }
    destruct (C48_complete r s T Cl Nd) as (A & _). exists (strat_text show table). split; [|now apply table_back].
    apply A. unfold planned. rewrite Fw, W, Fo, Fs. cbn [truthy]. apply in_or_app. left. apply in_or_app. right. apply in_or_app. left.
    rewrite map_map. cbn [fst snd String.concat]. apply in_map_iff. exists (n, table). split; [reflexivity|exact I].
  Qed.
End Run.

(** ** Columns *)
Lemma column_cells cols n i j x : (i < n)%nat -> nth_error cols j = Some x ->
  nth_error (column_lines cols n) i = Some (map (fun col => nth i col ""%string) cols) /\
  nth_error (map (fun col => nth i col ""%string) cols) j = Some (nth i x ""%string).
Proof.
  intros I J. unfold column_lines. split.
  - rewrite nth_error_map. assert (X : nth_error (seq 0 n) i = Some i).
    { rewrite (nth_error_nth' _ 0%nat) by now rewrite seq_length. now rewrite seq_nth. }
    now rewrite X.
  - rewrite nth_error_map, J. reflexivity.
Qed.
Lemma columns_back head cols n : (2 <= length cols)%nat -> length head = length cols ->
  Forall one_line head -> Forall (fun col => length col = n /\ Forall one_line col) cols ->
  (forall r, head <> "" :: r)%string ->
  hd_error (csv_fields head) <> hd_error BOM ->
  csv_rows (to_csv (head :: column_lines cols n)) = Ok (head :: column_lines cols n).
Proof.
  intros L LH H F Hn B. apply csv_written.
  - constructor; [split; [lia|exact H]|]. unfold column_lines. apply Forall_map, Forall_forall. intros i I. apply in_seq in I.
    split; [now rewrite map_length|]. apply Forall_map. eapply Forall_impl; [|exact F]. cbn beta. intros col [L1 L2].
    rewrite Forall_forall in L2. apply L2, nth_In. lia.
  - intros r X. apply (f_equal (hd_error (A := ascii))) in X. cbn [flat_map] in X.
    destruct (csv_fields head) as [|a l] eqn:Q; [|now apply B].
    destruct head as [|f [|g h]]; [cbn in LH; lia|cbn in LH; lia|]. cbn [csv_fields] in Q. destruct (csv_field f); discriminate.
Qed.

(** ** Numbers *)
Lemma ones_pos n : 0 <= value (repeat 1%nat n).
Proof. induction n as [|n IH]; cbn [repeat value]; [lra|]. rewrite repeat_length. pose proof (pow_lt 10 n). cbn [INR]. lra. Qed.
Lemma ones_lt n : value (repeat 1%nat n) < value (repeat 1%nat (S n)).
Proof. cbn [repeat value]. rewrite repeat_length. pose proof (pow_lt 10 n). cbn [INR]. lra. Qed.
Lemma ones_inc m n : (m < n)%nat -> value (repeat 1%nat m) < value (repeat 1%nat n).
Proof. induction 1 as [|n _ IH]; [apply ones_lt|]. pose proof (ones_lt n). lra. Qed.
Lemma ones_inj m n : value (repeat 1%nat m) = value (repeat 1%nat n) -> m = n.
Proof.
  intros H. destruct (lt_eq_lt_dec m n) as [[L|L]|L]; [apply ones_inc in L; lra|exact L|apply ones_inc in L; lra].
Qed.
Fixpoint place (x : R) (xs : list R) : nat :=
  match xs with [] => 0 | y :: r => if Req_EM_T x y then 0 else S (place x r) end.
Lemma place_nth x xs : In x xs -> nth (place x xs) xs 0 = x.
Proof.
  induction xs as [|y xs IH]; [contradiction|]. intros I. cbn [place]. destruct (Req_EM_T x y) as [->|N]; [reflexivity|].
  destruct I as [<-|I]; [contradiction|]. cbn [nth]. now apply IH.
Qed.
Lemma place_lt x xs : In x xs -> (place x xs < length xs)%nat.
Proof.
  induction xs as [|y xs IH]; [contradiction|]. intros I. cbn [place length]. destruct (Req_EM_T x y); [lia|].
  destruct I as [->|I]; [contradiction|]. apply IH in I. lia.
Qed.
Lemma show_parse xs : exists show parse, Forall (read_as parse show (fun x => x)) xs.
Proof.
  set (ones := fun n => value (repeat 1%nat (S n))).
  exists (fun x => string_of_list_ascii (figures (repeat 1%nat (S (place x xs))))).
  exists (fun y => nth (match find (fun n => if Req_EM_T (ones n) y then true else false) (seq 0 (length xs)) with Some n => n | None => 0%nat end) xs 0).
  apply Forall_forall. intros x I. exists (ones (place x xs)). split.
  - exists [], 1, (repeat 1%nat (S (place x xs))), [], [], [], 1.
    split; [constructor|]. split; [apply Forall_forall; intros d Dd; apply repeat_spec in Dd; subst d; unfold is_digit; lia|].
    split; [constructor|]. split; [left; discriminate|]. split; [right; auto|]. split; [constructor|]. split.
    + rewrite chars_of. cbn [app figures]. now rewrite !app_nil_r.
    + unfold ones. cbn [length]. change (value []) with 0. rewrite pow_O. lra.
  - destruct (find _ _) as [n|] eqn:F.
    + apply find_some in F as [_ F]. destruct (Req_EM_T _ _) as [Q|]; [|discriminate]. apply ones_inj in Q. injection Q as ->. now apply place_nth.
    + exfalso. assert (Z : In (place x xs) (seq 0 (length xs))) by (apply in_seq; pose proof (place_lt x xs I); lia).
      apply (find_none _ _ F) in Z. destruct (Req_EM_T _ _); [discriminate|contradiction].
Qed.
