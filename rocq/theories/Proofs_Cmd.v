(** Proofs about the command. *)
From Coq Require Import ZArith Bool Ascii String List Reals Lia.
From Verif Require Import Base Model_Path Model_Cfg Model_Strat Model_Main Model_Run Model_Figure Model_Save Model_Files Model_Cmd
  Spec_Cfg Spec_Figure Spec_Save Spec_Run Spec_Options Spec_Outputs Spec_Files Spec_Cmd
  Proofs_Base Proofs_Path Proofs_Cmap Proofs_Cfg Proofs_Rebuild Proofs_Default Proofs_Run Proofs_Files
  Props_Cfg Props_Save Props_Run Props_Options.
Import ListNotations.
Open Scope list_scope.

(** ** Arguments *)
Lemma parse_skip int (I : int "--resume"%string = None) : forall argv sd cf rs,
  (exists rest, rest = filter (fun a => negb (String.eqb a "--resume")) argv /\
    (rest = [] \/ (sd = None /\ exists t n, rest = [t] /\ int t = Some n))) ->
  parse_args int argv sd cf rs =
    Args (match filter (fun a => negb (String.eqb a "--resume")) argv with t :: _ => int t | [] => sd end) cf
         (rs || existsb (String.eqb "--resume") argv).
Proof.
  induction argv as [|a argv IH]; intros sd cf rs (rest & F & H).
  - cbn [filter existsb parse_args]. now rewrite orb_false_r.
  - cbn [parse_args filter existsb] in *. destruct (String.eqb_spec a "--resume") as [->|N].
    + assert (O : is_option int "--resume" = true) by (unfold is_option, negative_number; rewrite I; reflexivity).
      rewrite O. change (String.eqb "--resume" "--resume") with true. cbv iota. cbn [negb] in *.
      rewrite (IH sd cf true) by eauto. rewrite !orb_true_r. reflexivity.
    + cbn [negb] in *. cbv iota in *. subst rest. destruct H as [H|(-> & t & n & H & T)]; [discriminate|].
      injection H as -> H.
      assert (O : is_option int t = false).
      { unfold is_option, negative_number. rewrite T. destruct t as [|x [|y t]]; try reflexivity. cbn. now rewrite andb_false_r. }
      rewrite O. rewrite T. rewrite (IH (Some n) cf rs) by eauto. rewrite H. rewrite <- T.
      assert (X : String.eqb "--resume" t = false) by (apply String.eqb_neq; congruence). rewrite X. now rewrite T.
Qed.

(** ** Configurations *)
Definition with_draw (E : env) (z : Z) : env := {|
  cwd := cwd E; home := home E; Model_Cfg.exists_ := Model_Cfg.exists_ E; package_data := package_data E;
  date_now := date_now E; time_now := time_now E; draw := z; str_of := str_of E;
  parse_int := parse_int E; parse_float := parse_float E |}.
Lemma cfg_seed E z : Cfg E [("seed"%string, VInt z)] = Cfg (with_draw E (if (z =? 0)%Z then draw E else z)) [].
Proof.
  unfold Cfg. change (forallb (fun kv : string * val => is_field (fst kv)) [("seed"%string, VInt z)]) with true.
  change (forallb (fun kv : string * val => is_field (fst kv)) []) with true. cbn [negb].
  assert (X : set_seed_time E (init [("seed"%string, VInt z)]) = set_seed_time (with_draw E (if (z =? 0)%Z then draw E else z)) (init [])).
  { unfold set_seed_time. replace (getv (init [("seed"%string, VInt z)]) "seed") with (VInt z) by reflexivity.
    replace (getv (init []) "seed") with (VInt 0) by reflexivity. unfold get_random_seed. cbn [to_int bind].
    change ((0 =? 0)%Z) with true. cbv iota. cbn [draw with_draw]. reflexivity. }
  rewrite X. destruct (set_seed_time _ _) as [c|e]; [|reflexivity]. cbn [bind]. reflexivity.
Qed.
Definition at_ (E : env) (s : fs) (z : Z) : env := with_draw (with_disk E s) z.
Definition conf (E : env) (s : fs) (z : Z) : cfg := of_fun (dfinal (at_ E s z)).
Lemma asked_cfg E s argv resume z : asks E argv resume z ->
  exists seed, parse_args (parse_int E) argv None None false = Args seed None resume /\
    read_custom_cfg (with_disk E s) None (option_map VInt seed) = Ok (conf E s z).
Proof.
  intros (Z0 & I & Rs & rest & F & H).
  assert (Re : existsb (String.eqb "--resume") argv = resume).
  { destruct resume.
    - apply existsb_exists. exists "--resume"%string. split; [now apply Rs|apply String.eqb_refl].
    - destruct (existsb _ argv) eqn:B; [|reflexivity]. apply existsb_exists in B as (x & X & Y). apply String.eqb_eq in Y. subst x.
      now apply Rs in X. }
  rewrite (parse_skip (parse_int E) I).
  2: { exists rest. split; [exact F|]. destruct H as [[H _]|(t & n & H & T & _)]; eauto 8. }
  rewrite <- F, Re. cbn [orb]. destruct H as [[-> ->]|(t & n & -> & T & H)].
  - exists None. split; [reflexivity|]. unfold read_custom_cfg, from_dict. cbn [option_map]. rewrite default_cfg. reflexivity.
  - rewrite T. exists (Some n). split; [reflexivity|]. unfold read_custom_cfg, from_dict. cbn [option_map].
    change (put [] "seed" (VInt n)) with [("seed"%string, VInt n)]. rewrite cfg_seed, default_cfg. unfold conf, at_.
    destruct H as [->|[-> ->]]; [|reflexivity]. destruct (Z.eqb_spec z 0); [lia|reflexivity].
Qed.
Lemma conf_seed E s z : getv (conf E s z) "seed" = VInt z.
Proof. unfold conf. rewrite getv_of_fun by inn. reflexivity. Qed.
Lemma conf_plain E s z k : In k field_names -> plain_key k = true -> getv (conf E s z) k = dval k.
Proof. intros I K. unfold conf. rewrite getv_of_fun by exact I. unfold dfinal. now rewrite K. Qed.
Lemma conf_write E s z : getv (conf E s z) "write" = VBool true /\ getv (conf E s z) "write_npy" = VBool false /\
  getv (conf E s z) "strat_after_age" = VBool true.
Proof. rewrite !conf_plain by (try reflexivity; inn). vm_compute. auto. Qed.
Lemma conf_cfg E s z : Cfg (at_ E s z) [] = Ok (conf E s z).
Proof. apply default_cfg. Qed.
Lemma conf_agree E s E2 s2 z : agree_but (idle ++ map fst data_files) (conf E s z) (conf E2 s2 z).
Proof.
  intros o N. destruct (in_dec string_dec o field_names) as [I|I].
  - assert (K : plain_key o = true).
    { pose proof (forall_names (fun k => plain_key k || existsb (String.eqb k) (idle ++ map fst data_files)) ltac:(vm_compute; reflexivity) o I) as X.
      cbv beta in X. apply orb_prop in X as [X|X]; [exact X|]. apply existsb_exists in X as (y & Y & X). apply String.eqb_eq in X. subst y. contradiction. }
    rewrite !conf_plain by auto. reflexivity.
  - unfold getv. assert (X : forall E s, lookup o (conf E s z) = None) by (intros; apply lookup_none; unfold conf; rewrite keys_of_fun; exact I). now rewrite !X.
Qed.
Lemma conf_path E s z k : In k field_names -> path_key k = true -> exists p, getv (conf E s z) k = VStr p.
Proof.
  intros I K. unfold conf. rewrite getv_of_fun by exact I. unfold dfinal.
  assert (Pk : plain_key k = false) by (unfold plain_key; now rewrite K). rewrite Pk.
  destruct (raw_path_str (at_ E s z) k I K) as (v & V). rewrite V.
  change (get_data_path (at_ E s z) (VStr "")) with (VStr (package_data E ++ "/")%string). rewrite make_path by exact K. eauto.
Qed.

(** ** Places *)
Lemma parts_normpath p : starts_slash p = true -> path_parts (normpath p) = rev (comps true p).
Proof.
  intros H. rewrite normpath_abs by exact H. pose proof (Forall_rev (comps_plain p)) as F. set (l := rev (comps true p)) in *. clearbody l.
  assert (X : path_parts (join_path l) = l).
  { destruct l as [|x l]; [reflexivity|]. unfold path_parts. rewrite split_join by (try discriminate; now apply plain_noslash).
    clear -F. induction F as [|y m (A & B & _) F IH]; [reflexivity|]. cbn [filter]. apply String.eqb_neq in A, B. rewrite A, B. cbn [orb negb]. now rewrite IH. }
  destruct (initial_abs p H) as [-> | ->].
  - change ("/" ++ join_path l)%string with ("" ++ String slash (join_path l))%string. rewrite parts_slash. exact X.
  - change ("//" ++ join_path l)%string with ("/" ++ String slash (join_path l))%string. rewrite parts_slash. exact X.
Qed.
Lemma place_plain E n : starts_slash (cwd E) = true -> normpath (cwd E) = cwd E -> plainc n ->
  place_of E n = path_parts (cwd E) ++ [n].
Proof.
  intros C N Pl. pose proof Pl as (_ & _ & _ & K). unfold place_of, abspath. rewrite (noslash_starts n K).
  rewrite normpath_join by auto. now rewrite N, parts_addc, (parts_plain n Pl).
Qed.
Lemma on_disk_plain E s n : starts_slash (cwd E) = true -> normpath (cwd E) = cwd E -> plainc n ->
  on_disk E s n = Model_Save.exists_ s (path_parts (cwd E) ++ [n]).
Proof.
  intros C N Pl. unfold on_disk. rewrite (place_plain E n C N Pl). destruct Pl as (A & _ & _ & K).
  apply String.eqb_neq in A. now rewrite A, (noslash_ends n K).
Qed.
Definition plainb (n : string) : bool :=
  negb (String.eqb n "") && negb (String.eqb n ".") && negb (String.eqb n "..") && noslash n.
Lemma plainb_ok n : plainb n = true -> plainc n.
Proof.
  unfold plainb. intros H. apply andb_prop in H as [H H4]. apply andb_prop in H as [H H3]. apply andb_prop in H as [H1 H2].
  apply negb_true_iff in H1, H2, H3. apply String.eqb_neq in H1, H2, H3. repeat split; auto.
Qed.
Lemma plainc_plain n : plainc n -> plain_name n.
Proof.
  intros (A1 & A2 & A3 & A4). split; [exact A1|]. split; [exact A2|]. split; [exact A3|]. intros a b ->.
  clear -A4. induction a as [|x a IH]; cbn in A4; [discriminate|]. apply andb_prop in A4 as [_ A4]. auto.
Qed.
Lemma ready_absent E s n : ready E s -> In n (map fst data ++ map snd output_files) -> on_disk E s n = false.
Proof.
  intros ((C & N) & _ & _ & _ & F & _) I. rewrite Forall_forall in F. rewrite on_disk_plain; auto.
  apply plainb_ok. assert (B : forallb plainb (map fst data ++ map snd output_files) = true) by (vm_compute; reflexivity).
  rewrite forallb_forall in B. auto.
Qed.
Lemma ready_outputs E s z : ready E s -> default_outputs (at_ E s z) [] "moonpies".
Proof.
  intros H. pose proof H as ((C & N) & D & _). split; [exact C|]. split; [exact N|]. split; [exact D|].
  split; [intros k v L; discriminate|]. split; [reflexivity|]. split; [reflexivity|].
  split; [apply plainc_plain, plainb_ok; reflexivity|]. apply Forall_forall. intros [k v] I. split; [reflexivity|].
  apply (ready_absent E s v H). apply in_or_app. right. apply (in_map snd _ _ I).
Qed.
Lemma conf_data E s z : exists D, getv (conf E s z) "data_path" = VStr D /\
  (D = (package_data E ++ "/")%string \/ D = resolve (cwd E) (home E) (package_data E ++ "/")).
Proof.
  unfold conf. rewrite getv_of_fun by inn. unfold dfinal. change (plain_key "data_path") with false. cbv iota.
  assert (R : raw (at_ E s z) [] (draw (at_ E s z)) m0 p0 (op0 (at_ E s z)) "data_path" = VStr (package_data E ++ "/")) by reflexivity.
  rewrite R. change (get_data_path (at_ E s z) (VStr "")) with (VStr (package_data E ++ "/")%string). rewrite make_path by reflexivity.
  eexists. split; [reflexivity|]. unfold settle. destruct (Model_Cfg.exists_ _ _); [now left|right; reflexivity].
Qed.
Definition data_options : list (string * string) := [
  ("crater_csv_in", "crater_list.csv"); ("basin_csv_in", "basin_list.csv"); ("bahcall_csv_in", "bahcall_etal_2001_t2.csv");
  ("bhop_csv_in", "ballistic_hop_coldtraps.csv"); ("bsed_frac_mean_in", "ballistic_sed_frac_melted_mean.csv")]%string.
Lemma conf_input E s z k v t : ready E s -> In (k, v) data_options -> In (v, t) data ->
  exists p, getv (conf E s z) k = VStr p /\ text_of E s p = Some t.
Proof.
  intros H I J. pose proof H as ((C & N) & D & (Pk1 & Pk2) & F & _).
  destruct (conf_data E s z) as (Dp & HD & RD).
  assert (Ik : In k options /\ endswith "_in" k = true /\ start [] k = VStr v /\ plainb v = true /\ basename v = v).
  { clear - I. destruct I as [I|[I|[I|[I|[I|[]]]]]]; injection I as <- <-;
      (split; [apply existsb_eqb; vm_compute; reflexivity|repeat split; vm_compute; reflexivity]). }
  destruct Ik as (Ik & Ek & St & Pv & Bv). apply plainb_ok in Pv.
  pose proof (C69_inputs (at_ E s z) [] (conf E s z) k v Dp C (conf_cfg E s z) ltac:(intros ? ? L; discriminate) Ik Ek St HD) as X.
  assert (A : Model_Cfg.exists_ (at_ E s z) v = false).
  { apply (ready_absent E s v H). apply in_or_app. left. apply (in_map fst _ _ J). }
  rewrite A, Bv in X. eexists. split; [exact X|]. unfold text_of, place_of.
  set (q := abspath (cwd (at_ E s z)) (expanduser (home (at_ E s z)) Dp)).
  assert (Q : q = normpath (package_data E ++ "/")).
  { unfold q. change (abspath (cwd (at_ E s z)) (expanduser (home (at_ E s z)) Dp)) with (resolve (cwd E) (home E) Dp).
    assert (S1 : starts_slash (package_data E ++ "/") = true) by (destruct (package_data E); [discriminate|exact Pk1]).
    destruct RD as [-> | ->]; [|rewrite resolve_idem by exact C]; now apply resolve_normal. }
  assert (S1 : starts_slash (package_data E ++ "/") = true) by (destruct (package_data E); [discriminate|exact Pk1]).
  assert (S2 : starts_slash q = true) by (rewrite Q; now apply normpath_starts).
  pose proof Pv as (_ & _ & _ & K).
  unfold abspath. rewrite path_join_starts by (auto; now apply noslash_starts). rewrite normpath_join by auto.
  rewrite parts_addc, (parts_plain v Pv). rewrite Q, normpath_idem by exact S1. rewrite parts_normpath by exact S1.
  rewrite comps_slash_end. rewrite <- parts_normpath by exact Pk1. rewrite Pk2. rewrite Forall_forall in F. apply (F _ J).
Qed.
Lemma conf_installed E s z : ready E s -> installed (text_of E s) (conf E s z).
Proof.
  intros H. repeat (apply Forall_cons; [eapply (conf_input E s z _ _ _ H); cbn [In data data_options]; eauto 8|]). apply Forall_nil.
Qed.

(** ** Runs *)
Lemma conf_traps E s z : known_traps (conf E s z) with_hop.
Proof.
  split; [|split; [apply nodupb_ok; reflexivity|split; [apply inclb_ok; reflexivity|intros _ n I; exact I]]].
  rewrite conf_plain by (try reflexivity; inn). vm_compute. reflexivity.
Qed.
Lemma run_any P z E s : lawful P -> ready E s ->
  exists out k', shipped_run with_hop out /\
    forall E2 s2, ready E2 s2 -> run (text_of E2 s2) (p_rnd P) (p_ppf P) (p_sort P) (conf E2 s2 z) (p_stream P z) 0%nat = Ok (out, k').
Proof.
  intros (L1 & L2 & L3 & L4 & L5) H.
  assert (U : only_switches []) by (intros k _; reflexivity).
  destruct (C81_finishes (at_ E s z) [] (conf E s z) (text_of E s) (p_rnd P) (p_ppf P) (p_sort P) with_hop (p_stream P z) 0%nat
    (conf_cfg E s z) U (conf_installed E s z H) (conf_traps E s z) L1 L2 L3 L4 (L5 z)) as (out & k' & A & _).
  exists out, k'. split.
  - exists (at_ E s z), [], (conf E s z), (text_of E s), (p_rnd P), (p_ppf P), (p_sort P), (p_stream P z), 0%nat, k'.
    split; [apply conf_cfg|]. split; [exact U|]. split; [now apply conf_installed|]. split; [apply conf_traps|].
    split; [exact L1|]. split; [exact L2|]. split; [exact L3|]. split; [exact L4|]. split; [exact (L5 z)|]. split; [apply conf_write|exact A].
  - intros E2 s2 H2. rewrite <- A. apply C82_idle; [apply conf_agree|]. intros o sw I _.
    assert (X : exists v t, In (o, v) data_options /\ In (v, t) data).
    { destruct I as [I|[I|[I|[I|[I|[]]]]]]; injection I as <- _; eexists; eexists; cbn [In data data_options]; split; eauto 8. }
    destruct X as (v & t & V & T). destruct (conf_input E2 s2 z o v t H2 V T) as (p & P1 & P2).
    destruct (conf_input E s z o v t H V T) as (p' & P3 & P4). exists p, p'. rewrite P2, P4. auto.
Qed.

(** The files that a run plans. *)
Definition plan (P : libraries) (E : env) (s : fs) (z : Z) (out : outputs) : list (path * string) :=
  [(run_dir E z ++ ["config_moonpies_v1.1.1.py"%string], p_pprint P (conf E s z))] ++
  map (fun nt => (run_dir E z ++ [table_name (fst nt)], strat_text (p_show P) (snd nt))) (o_strat out) ++
  [(run_dir E z ++ ["ej_columns.csv"%string], ej_text (p_show P) (p_sources P (conf E s z)) out);
   (run_dir E z ++ ["ice_columns.csv"%string], ice_text (p_show P) out)].
Lemma main_done P E s z out k' : (0 < z)%Z -> ready E s -> NoDup (map fst (o_strat out)) ->
  run (text_of E s) (p_rnd P) (p_ppf P) (p_sort P) (conf E s z) (p_stream P z) 0%nat = Ok (out, k') ->
  exists ops, main_ops P (with_disk E s) (conf E s z) s = Ok ops /\
    let s' := exec ops s in
    (forall p t, In (p, t) (plan P E s z out) -> files s' p = Some t) /\
    (forall p, ~ In p (map fst (plan P E s z out)) -> files s' p = files s p) /\
    (forall q, dirs s' q = true <-> dirs s q = true \/ is_prefix q (run_dir E z) = true).
Proof.
  intros Z0 H N R. pose proof (ready_outputs E s z H) as D.
  destruct (conf_path E s z "out_path" ltac:(inn) eq_refl) as (Pa & HP).
  destruct (default_dir _ _ _ z Pa _ D (conf_cfg E s z) (conf_seed E s z) HP) as [PD _].
  change (path_parts Pa = run_dir E z) in PD.
  assert (G : forall k v, In (k, v) output_files -> exists p, getv (conf E s z) k = VStr p /\ path_parts p = run_dir E z ++ [v]).
  { intros k v I. rewrite <- PD. exact (out_file _ _ _ z Pa _ k v D (conf_cfg E s z) (conf_seed E s z) HP I). }
  destruct (results_default (p_show P) _ _ _ z Pa _ (p_pprint P (conf E s z)) (p_grids P (conf E s z)) (p_sources P (conf E s z)) out
    D (conf_cfg E s z) (conf_seed E s z) HP) as (r & Hr & _ & _ & _ & names & Np & Nn).
  assert (Pl : planned r = plan P E s z out).
  { destruct (G "config_py_out" _ ltac:(now left))%string as (p1 & G1 & A1). destruct (G "ej_t_csv_out" _ ltac:(right; now left))%string as (p2 & G2 & A2).
    destruct (G "ice_t_csv_out" _ ltac:(do 2 right; now left))%string as (p3 & G3 & A3).
    destruct (G "agegrd_npy_out" _ ltac:(do 3 right; now left))%string as (p4 & G4 & A4).
    destruct (G "ejmatrix_npy_out" _ ltac:(do 4 right; now left))%string as (p5 & G5 & A5).
    destruct (conf_write E s z) as (W1 & W2 & _).
    unfold results_of in Hr. rewrite HP, G1, G2, G3, G4, G5, W1, W2 in Hr. cbn [opt_str bind] in Hr.
    assert (Inj : forall a b : results, Ok a = Ok b -> b = a) by congruence. apply Inj in Hr. rewrite Hr.
    unfold planned. cbn [f_write f_npy f_cfg f_cfg_name f_out_path f_strat f_ej f_ej_name f_ice f_ice_name opt_bool truthy].
    rewrite A1, A2, A3, PD. unfold plan. rewrite app_nil_r, map_map. cbn [fst snd String.concat]. reflexivity. }
  specialize (Nn N). destruct H as (_ & _ & _ & _ & _ & T & Rm). destruct (Rm z) as [Rm1 Rm2].
  assert (Nd : NoDup (map fst (planned r))).
  { rewrite Np. apply FinFun.Injective_map_NoDup; [|exact Nn]. intros a b X. apply app_inj_tail in X. tauto. }
  assert (Pn : forall p t, In (p, t) (planned r) -> exists x, p = run_dir E z ++ [x]).
  { intros p t X. apply (in_map fst) in X. rewrite Np in X. cbn [fst] in X. apply in_map_iff in X as (x & <- & _). rewrite PD. eauto. }
  assert (Cl : no_clash s r).
  { intros p t X. destruct (Pn p t X) as (x & ->). unfold dirname. rewrite removelast_last. split; [|split; [apply Rm2|]].
    - apply Rm1. apply Proofs_Save.is_prefix_refl.
    - intros p' t' X'. destruct (Pn p' t' X') as (x' & ->). rewrite removelast_last.
      destruct (is_prefix _ _) eqn:B; [|reflexivity]. apply is_prefix_longer in B. rewrite app_length in B. cbn in B. lia. }
  destruct (C48_complete r s T Cl Nd) as (A1 & A2 & A3). change (cli_ops false r s) with (format_save_ops r s) in *.
  exists (format_save_ops r s). split; [|cbv zeta; split; [|split]].
  - unfold main_ops. rewrite conf_seed. cbn [bind]. destruct (Z.ltb_spec z 0); [lia|].
    change (text_of (with_disk E s) s) with (text_of E s). rewrite R. cbn [bind]. rewrite Hr. reflexivity.
  - rewrite <- Pl. exact A1.
  - rewrite <- Pl. exact A2.
  - intros q. rewrite A3. split; intros [X|X]; auto; right.
    + destruct X as (p & t & X & B). destruct (Pn p t X) as (x & ->). unfold dirname in B. now rewrite removelast_last in B.
    + exists (run_dir E z ++ ["config_moonpies_v1.1.1.py"%string]), (p_pprint P (conf E s z)). split.
      * rewrite Pl. unfold plan. now left.
      * unfold dirname. now rewrite removelast_last.
Qed.
Lemma plan_names P E s z out p : map fst (o_strat out) = with_hop ->
  (In p (map fst (plan P E s z out)) <-> exists x, In x written /\ p = run_dir E z ++ [x]).
Proof.
  intros N. assert (Q : map fst (plan P E s z out) = map (fun x => run_dir E z ++ [x])
    (["config_moonpies_v1.1.1.py"%string] ++ map table_name with_hop ++ ["ej_columns.csv"; "ice_columns.csv"]%string)).
  { unfold plan. rewrite !map_app, <- N, !map_map. reflexivity. }
  rewrite Q, in_map_iff. unfold written, tables. split; intros (x & A & B); exists x.
  - split; [|now symmetry]. rewrite !in_app_iff in B. rewrite !in_app_iff. cbn [In] in *. tauto.
  - split; [now symmetry|]. rewrite !in_app_iff in A. rewrite !in_app_iff. cbn [In] in *. tauto.
Qed.
Lemma dir_length E z : length (run_dir E z) = (length (path_parts (cwd E)) + 4)%nat.
Proof. unfold run_dir. rewrite app_length. reflexivity. Qed.
Lemma is_prefix_app_head a p q : is_prefix (a ++ p) (a ++ q) = is_prefix p q.
Proof. induction a as [|x a IH]; cbn [app is_prefix]; [reflexivity|]. rewrite String.eqb_refl. exact IH. Qed.

(** What a finished run has done. *)
Record done (E : env) (z : Z) (s s' : fs) : Prop := {
  d_files : forall x, In x written -> files s' (run_dir E z ++ [x]) <> None;
  d_other : forall p, (forall x, In x written -> p <> run_dir E z ++ [x]) -> files s' p = files s p;
  d_dirs : forall q, dirs s' q = true <-> dirs s q = true \/ is_prefix q (run_dir E z) = true }.
Lemma ready_after E z s s' E2 : done E z s s' -> same_place E E2 -> ready E2 s -> ready E2 s'.
Proof.
  intros [_ O D] [Sc Sp] (R1 & R2 & R3 & R4 & R5 & R6 & R7). split; [exact R1|]. split; [exact R2|]. split; [exact R3|].
  assert (Ln : forall p, (length p <= length (path_parts (cwd E2)) + 4)%nat -> files s' p = files s p).
  { intros p L. apply O. intros x _ ->. rewrite app_length, dir_length, <- Sc in L. cbn in L. lia. }
  split; [|split; [|split]].
  - rewrite Forall_forall in R4 |- *. intros f I. rewrite O; [now apply R4|]. intros x W X. apply app_inj_tail in X as [_ X]. subst x.
    assert (B : forallb (fun v => negb (existsb (String.eqb v) written)) (map fst data) = true) by (vm_compute; reflexivity).
    rewrite forallb_forall in B. specialize (B _ (in_map fst _ _ I)). apply negb_true_iff in B.
    assert (C : existsb (String.eqb (fst f)) written = true) by (apply existsb_exists; exists (fst f); split; [exact W|apply String.eqb_refl]). congruence.
  - rewrite Forall_forall in R5 |- *. intros n I. specialize (R5 n I). unfold Model_Save.exists_ in *. apply orb_false_iff in R5 as [R5 R5'].
    rewrite Ln by (rewrite app_length; cbn; lia). rewrite R5', orb_false_r. destruct (dirs s' _) eqn:B; [|reflexivity]. apply D in B as [B|B]; [congruence|].
    unfold run_dir in B. rewrite <- Sc, is_prefix_app_head in B. cbn [is_prefix] in B. rewrite andb_true_r in B. apply String.eqb_eq in B. subst n.
    exfalso. revert I. clear. assert (B : existsb (String.eqb "out") (map fst data ++ map snd output_files) = false) by (vm_compute; reflexivity).
    intros I. assert (C : existsb (String.eqb "out") (map fst data ++ map snd output_files) = true) by (apply existsb_exists; exists "out"%string; split; [exact I|apply String.eqb_refl]). congruence.
  - intros p q A B. apply D in B as [B|B]; apply D; [left; eauto|right]. eapply Proofs_Save.is_prefix_trans; eauto.
  - intros z2. destruct (R7 z2) as [R71 R72]. split.
    + intros p A. rewrite Ln; [auto|]. apply is_prefix_longer in A. now rewrite dir_length in A.
    + intros x. destruct (dirs s' _) eqn:B; [|reflexivity]. apply D in B as [B|B]; [now rewrite R72 in B|].
      apply is_prefix_longer in B. rewrite app_length, !dir_length, <- Sc in B. cbn in B. lia.
Qed.

(** The text of a table of the run with this seed. *)
Definition text_for (P : libraries) (E : env) (s : fs) (z : Z) (x : string) : string :=
  match run (text_of E s) (p_rnd P) (p_ppf P) (p_sort P) (conf E s z) (p_stream P z) 0%nat with
  | Ok (out, _) => match find (fun nt => String.eqb (table_name (fst nt)) x) (o_strat out) with
                   | Some nt => strat_text (p_show P) (snd nt)
                   | None => ice_text (p_show P) out
                   end
  | Err _ => ""%string
  end.
Lemma text_same P z E s E2 s2 x : lawful P -> ready E s -> ready E2 s2 -> text_for P E s z x = text_for P E2 s2 z x.
Proof.
  intros L H H2. destruct (run_any P z E s L H) as (out & k' & _ & A). unfold text_for. rewrite (A E s H), (A E2 s2 H2). reflexivity.
Qed.
Lemma out_place E s z o : ready E s -> getv (conf E s z) "out_path" = VStr o -> place_of E o = run_dir E z.
Proof.
  intros H HP. pose proof (ready_outputs E s z H) as D.
  destruct (default_dir _ _ _ z o _ D (conf_cfg E s z) (conf_seed E s z) HP) as [PD PA].
  destruct D as (C & CN & Da & _ & HO & HN & _).
  pose proof (C40_default (at_ E s z) [] (conf E s z) z o "moonpies" C (conf_cfg E s z) (conf_seed E s z) HO HN HP) as X. cbv zeta in X.
  set (dir := path_join _ (format_05d z)) in X.
  assert (S : starts_slash o = true).
  { rewrite X. destruct (Model_Cfg.exists_ _ _).
    - apply plain_plainc in Da. destruct Da as (_ & _ & _ & Da).
      assert (S4 : starts_slash dir = true).
      { unfold dir. repeat apply path_join_starts; try exact C; try reflexivity; apply noslash_starts; [exact Da|apply seed_noslash]. }
      destruct dir; [discriminate|exact S4].
    - apply (resolve_starts _ (home (at_ E s z)) dir C). }
  unfold place_of. rewrite expanduser_slash in PA by exact S. change (cwd (at_ E s z)) with (cwd E) in PA. rewrite PA. exact PD.
Qed.
Lemma command_run P E s argv resume z : lawful P -> ready E s -> asks E argv resume z ->
  (resume = true -> dirs s (run_dir E z) = false) ->
  exists s' out, command P E argv s = Ok s' /\ done E z s s' /\
    (shipped_run with_hop out /\ exists k', run (text_of E s) (p_rnd P) (p_ppf P) (p_sort P) (conf E s z) (p_stream P z) 0%nat = Ok (out, k')) /\
    (forall n table, In (n, table) (o_strat out) -> files s' (run_dir E z ++ [table_name n]) = Some (strat_text (p_show P) table)) /\
    (forall x, In x tables -> files s' (run_dir E z ++ [x]) = Some (text_for P E s z x)).
Proof.
  intros L H A Rs. destruct (run_any P z E s L H) as (out & k' & Sh & R). specialize (R E s H).
  pose proof (Proofs_Outputs.shipped_rows _ _ Sh) as [Sn _].
  assert (N : NoDup (map fst (o_strat out))) by (rewrite Sn; apply nodupb_ok; reflexivity).
  pose proof A as (Z0 & _).
  destruct (main_done P E s z out k' Z0 H N R) as (ops & M & F1 & F2 & F3).
  destruct (asked_cfg E s argv resume z A) as (seed & Pa & Cf). exists (exec ops s), out.
  assert (St : forall n table, In (n, table) (o_strat out) -> files (exec ops s) (run_dir E z ++ [table_name n]) = Some (strat_text (p_show P) table)).
  { intros n table I. apply F1. unfold plan. apply in_or_app. right. apply in_or_app. left. apply in_map_iff. exists (n, table). auto. }
  split; [|split; [|split; [split; [exact Sh|eauto]|split; [exact St|]]]].
  - unfold command. rewrite Pa. cbn [bind]. rewrite Cf. cbn [bind]. destruct (conf_path E s z "out_path" ltac:(inn) eq_refl) as (o & HP).
    rewrite HP. cbn [opt_str bind]. change (place_of (with_disk E s) o) with (place_of E o). rewrite (out_place E s z o H HP).
    assert (X : resume && Model_Save.exists_ s (run_dir E z) = false).
    { destruct resume; [|reflexivity]. unfold Model_Save.exists_. rewrite (Rs eq_refl).
      destruct H as (_ & _ & _ & _ & _ & _ & H). rewrite (proj1 (H z)); [reflexivity|apply Proofs_Save.is_prefix_refl]. }
    rewrite X, M. reflexivity.
  - constructor.
    + intros x I. assert (J : In (run_dir E z ++ [x]) (map fst (plan P E s z out))) by (apply plan_names; eauto).
      apply in_map_iff in J as ([p t] & Q & J). cbn [fst] in Q. subst p. rewrite (F1 _ _ J). discriminate.
    + intros p X. apply F2. intros J. apply plan_names in J as (x & I & ->); [|exact Sn]. now apply (X x I).
    + exact F3.
  - intros x I. unfold text_for. rewrite R. unfold tables in I. apply in_app_iff in I as [I|[<-|[]]].
    + apply in_map_iff in I as (n & <- & I). rewrite <- Sn in I. apply in_map_iff in I as ([n' table] & Q & I). cbn [fst] in Q. subst n'.
      destruct (find _ (o_strat out)) as [[n' t']|] eqn:Fi.
      * apply find_some in Fi as [I' Q]. cbn [fst snd] in *. apply String.eqb_eq in Q. apply strat_inj in Q. subst n'.
        now apply St.
      * exfalso. pose proof (find_none _ _ Fi _ I) as Q. cbn [fst] in Q. now rewrite String.eqb_refl in Q.
    + destruct (find _ (o_strat out)) as [[n' t']|] eqn:Fi.
      * exfalso. apply find_some in Fi as [_ Q]. cbn [fst] in Q. apply String.eqb_eq in Q. unfold table_name in Q.
        apply (f_equal (String.prefix "strat_")) in Q. cbn in Q. destruct n'; discriminate.
      * apply F1. unfold plan. rewrite !in_app_iff. right. right. right. now left.
Qed.
Lemma command_skip P E s argv z : ready E s -> asks E argv true z -> dirs s (run_dir E z) = true -> command P E argv s = Ok s.
Proof.
  intros H A D. destruct (asked_cfg E s argv true z A) as (seed & Pa & Cf). unfold command. rewrite Pa. cbn [bind]. rewrite Cf. cbn [bind].
  destruct (conf_path E s z "out_path" ltac:(inn) eq_refl) as (o & HP). rewrite HP. cbn [opt_str bind].
  change (place_of (with_disk E s) o) with (place_of E o). rewrite (out_place E s z o H HP).
  unfold Model_Save.exists_. rewrite D. reflexivity.
Qed.

(** ** Several commands *)
Lemma asks_unique E argv r z r' z' : asks E argv r z -> asks E argv r' z' -> r' = r /\ z' = z.
Proof.
  intros (A1 & _ & A2 & rest & A3 & A4) (B1 & _ & B2 & rest' & B3 & B4). split.
  - destruct r, r'; try reflexivity; exfalso.
    + pose proof (proj2 B2 (proj1 A2 eq_refl)). discriminate.
    + pose proof (proj2 A2 (proj1 B2 eq_refl)). discriminate.
  - assert (Q : rest' = rest) by congruence. clear A3 B3. subst rest'. destruct A4 as [[-> ->]|(t & n & -> & T & A4)].
    + destruct B4 as [[_ ->]|(t & n & Q & _)]; [reflexivity|discriminate].
    + destruct B4 as [[Q _]|(t' & n' & Q & T' & B4)]; [discriminate|]. injection Q as <-. rewrite T in T'. injection T' as <-. lia.
Qed.
Lemma dir_seed E z E' z' : run_dir E z = run_dir E' z' -> z = z'.
Proof.
  unfold run_dir. intros H. apply (f_equal (@rev string)) in H. rewrite !rev_app_distr in H. cbn [rev app] in H. injection H as H _.
  now apply format_inj.
Qed.
Lemma prefix_same p q : is_prefix p q = true -> length p = length q -> p = q.
Proof.
  revert q. induction p as [|a p IH]; intros [|b q]; cbn [is_prefix length]; try discriminate; [reflexivity|].
  intros H L. apply andb_prop in H as [H1 H2]. apply String.eqb_eq in H1. f_equal; auto.
Qed.
Section Campaign.
  Variables (P : libraries) (E0 : env) (s0 : fs).
  Hypotheses (L : lawful P) (H0 : ready E0 s0).
  Definition good (s : fs) (E : env) (z : Z) : Prop :=
    forall x, In x tables -> files s (run_dir E z ++ [x]) = Some (text_for P E0 s0 z x).
  Lemma good_after E z s s' E2 z2 : done E z s s' -> good s' E z -> good s E2 z2 -> good s' E2 z2.
  Proof.
    intros D G G2 x I. destruct (list_eq_dec string_dec (run_dir E2 z2) (run_dir E z)) as [Q|Q].
    - pose proof (dir_seed _ _ _ _ Q). subst z2. rewrite Q. now apply G.
    - rewrite (d_other _ _ _ _ D); [now apply G2|]. intros y _ X. apply app_inj_tail in X as [X _]. contradiction.
  Qed.
  Lemma campaign l : forall s,
    (forall E argv, In (E, argv) l -> ready E s /\ same_place E0 E /\
       exists r z, asks E argv r z /\ (r = true -> dirs s (run_dir E z) = true -> good s E z)) ->
    exists s', commands P l s = Ok s' /\
      (forall E argv r z, In (E, argv) l -> asks E argv r z -> good s' E z) /\
      (forall E z, good s E z -> good s' E z) /\
      (forall p, (forall E argv r z x, In (E, argv) l -> asks E argv r z -> In x written -> p <> run_dir E z ++ [x]) -> files s' p = files s p) /\
      (forall E, same_place E0 E -> ready E s -> ready E s') /\
      (forall q, dirs s' q = true <-> dirs s q = true \/ exists E argv r z, In (E, argv) l /\ asks E argv r z /\ is_prefix q (run_dir E z) = true) /\
      (forall p, files s p <> None -> files s' p <> None).
  Proof.
    induction l as [|[E argv] l IH]; intros s H.
    - exists s. split; [reflexivity|]. split; [contradiction|]. split; [auto|]. split; [auto|]. split; [auto|]. split; [|auto].
      intros q. split; [auto|]. intros [D|(E & argv & r & z & [] & _)]. exact D.
    - destruct (H E argv (or_introl eq_refl)) as (HR & HS & r & z & HA & HG).
      assert (Step : exists s1, command P E argv s = Ok s1 /\ good s1 E z /\
        (forall E2 z2, good s E2 z2 -> good s1 E2 z2) /\
        (forall p, (forall x, In x written -> p <> run_dir E z ++ [x]) -> files s1 p = files s p) /\
        (forall E2, same_place E0 E2 -> ready E2 s -> ready E2 s1) /\
        (forall E2 z2, same_place E0 E2 -> dirs s1 (run_dir E2 z2) = true -> dirs s (run_dir E2 z2) = true \/ run_dir E2 z2 = run_dir E z) /\
        (forall q, dirs s1 q = true <-> dirs s q = true \/ is_prefix q (run_dir E z) = true) /\
        (forall p, files s p <> None -> files s1 p <> None)).
      { destruct (r && dirs s (run_dir E z)) eqn:B.
        - apply andb_prop in B as [-> B]. exists s. split; [eapply command_skip; eauto|]. repeat (split; [now auto|]). split; [|auto].
          intros q. split; [auto|]. intros [D|D]; [exact D|]. destruct HR as (_ & _ & _ & _ & _ & Tr & _). eapply Tr; eauto.
        - destruct (command_run P E s argv r z L HR HA) as (s1 & out & C1 & C2 & _ & _ & C5).
          { intros ->. exact B. }
          assert (G : good s1 E z).
          { intros x I. rewrite (C5 x I). f_equal. now apply text_same. }
          exists s1. split; [exact C1|]. split; [exact G|]. split; [intros; eapply good_after; eauto|].
          split; [apply (d_other _ _ _ _ C2)|]. split.
          + intros E2 S2. apply (ready_after _ _ _ _ _ C2). destruct HS, S2. split; congruence.
          + split; [|split].
            * intros E2 z2 S2 D. apply (d_dirs _ _ _ _ C2) in D as [D|D]; [now left|]. right. apply prefix_same; [exact D|].
              rewrite !dir_length. destruct HS, S2. congruence.
            * apply (d_dirs _ _ _ _ C2).
            * intros p X. destruct (in_dec (list_eq_dec string_dec) p (map (fun x => run_dir E z ++ [x]) written)) as [J|J].
              -- apply in_map_iff in J as (x & <- & J). now apply (d_files _ _ _ _ C2).
              -- rewrite (d_other _ _ _ _ C2); [exact X|]. intros x I ->. apply J. apply in_map_iff. eauto. }
      destruct Step as (s1 & S1 & S2 & S3 & S4 & S5 & S6 & S7 & S8).
      destruct (IH s1) as (s' & I1 & I2 & I3 & I4 & I5 & I6 & I7).
      { intros E2 argv2 I. destruct (H E2 argv2 (or_intror I)) as (HR2 & HS2 & r2 & z2 & HA2 & HG2).
        split; [auto|]. split; [exact HS2|]. exists r2, z2. split; [exact HA2|]. intros R2 D.
        apply S6 in D as [D|D]; [auto| |exact HS2]. intros x X. rewrite D. pose proof (dir_seed _ _ _ _ D). subst z2. now apply S2. }
      exists s'. split; [cbn [commands]; rewrite S1; exact I1|]. split; [|split; [auto|split; [|split; [|split; [|auto]]]]].
      + intros E2 argv2 r2 z2 [Q|I] A2; [|eauto]. injection Q as <- <-. destruct (asks_unique _ _ _ _ _ _ HA A2) as [_ ->]. auto.
      + intros p X. rewrite I4 by (intros; eapply X; [right; eauto|eauto|auto]). apply S4. intros x I. eapply X; [left; reflexivity|eauto|exact I].
      + intros E2 A2 B2. auto.
      + intros q. rewrite I6, S7. split.
        * intros [[D|D]|(E2 & argv2 & r2 & z2 & I & D)]; [now left|right; exists E, argv, r, z; split; [now left|auto]|right; exists E2, argv2, r2, z2; split; [now right|exact D]].
        * intros [D|(E2 & argv2 & r2 & z2 & [Q|I] & A2 & D)]; [auto| |right; eauto 8].
          injection Q as <- <-. destruct (asks_unique _ _ _ _ _ _ HA A2) as [_ ->]. auto.
  Qed.
End Campaign.

Lemma ready_env E E2 s : ready E s -> same_place E E2 -> date_now E2 = date_now E -> ready E2 s.
Proof. intros H [C D] T. unfold ready, run_dir in *. rewrite C, D, T. exact H. Qed.
Lemma command_negative P E s t z : parse_int E t = Some z -> (z < 0)%Z -> command P E [t] s = Err ValueError.
Proof.
  intros T Z0. unfold command, parse_args.
  assert (O : is_option (parse_int E) t = false).
  { unfold is_option, negative_number. rewrite T. destruct t as [|x [|y t]]; try reflexivity. cbn. now rewrite andb_false_r. }
  rewrite O, T. cbn [bind option_map].
  assert (Cf : read_custom_cfg (with_disk E s) None (Some (VInt z)) = Ok (conf E s z)).
  { unfold read_custom_cfg, from_dict. change (put [] "seed" (VInt z)) with [("seed"%string, VInt z)]. rewrite cfg_seed, default_cfg.
    unfold conf, at_. destruct (Z.eqb_spec z 0); [lia|reflexivity]. }
  rewrite Cf. cbn [bind]. destruct (conf_path E s z "out_path" ltac:(inn) eq_refl) as (o & HP). rewrite HP. cbn [opt_str bind andb].
  unfold main_ops. rewrite conf_seed. cbn [bind]. destruct (Z.ltb_spec z 0); [reflexivity|lia].
Qed.
