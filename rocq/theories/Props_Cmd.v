(** Properties of the command. *)
From Coq Require Import ZArith Bool Ascii String List Reals Lra Lia.
From Verif Require Import Base Model_Path Model_Cfg Model_Time Model_Strat Model_Main Model_Run Model_Figure Model_Save Model_Files Model_Cmd
  Spec_Cfg Spec_Figure Spec_Save Spec_Ice Spec_Run Spec_Outputs Spec_Files Spec_Cmd
  Proofs_Base Proofs_Rng Proofs_Time Proofs_Main Proofs_Run Proofs_Files Proofs_Cmd Props_Cfg Props_Figure Props_Run Props_Outputs Props_Files.
Import ListNotations.
Open Scope list_scope.

(** ** C85: the command, end to end *)

(** A command on a disk where MoonPIES is installed finishes: it runs the default
    configuration with its seed and the random numbers of that seed, writes the files of its
    directory, among them a table for each cold trap that the shipped model can produce,
    changes no other file, makes no other directories, and leaves the disk ready for further
    commands. *)
Theorem C85_runs : forall P E s argv resume z, lawful P -> ready E s -> asks E argv resume z ->
  (resume = true -> dirs s (run_dir E z) = false) ->
  exists s' out, command P E argv s = Ok s' /\
    shipped_run with_hop out /\
    (exists c k', Cfg (with_disk E s) [("seed"%string, VInt z)] = Ok c /\ getv c "seed" = VInt z /\
       run (text_of E s) (p_rnd P) (p_ppf P) (p_sort P) c (p_stream P z) 0%nat = Ok (out, k')) /\
    (forall n, In n with_hop -> exists table, In (n, table) (o_strat out) /\
       Model_Save.files s' (run_dir E z ++ [table_name n]) = Some (strat_text (p_show P) table)) /\
    (forall x, In x written -> Model_Save.files s' (run_dir E z ++ [x]) <> None) /\
    (forall p, (forall x, In x written -> p <> run_dir E z ++ [x]) -> Model_Save.files s' p = Model_Save.files s p) /\
    (forall q, dirs s' q = true <-> dirs s q = true \/ is_prefix q (run_dir E z) = true) /\
    (forall E2, same_place E E2 -> ready E2 s -> ready E2 s').
Proof.
  intros P E s argv resume z L H A Rs. destruct (command_run P E s argv resume z L H A Rs) as (s' & out & C & D & (Sh & k' & Rn) & St & _).
  exists s', out. split; [exact C|]. split; [exact Sh|]. split; [|split; [|split; [apply D|split; [apply D|split; [apply D|]]]]].
  - exists (conf E s z), k'. split; [|split; [apply conf_seed|exact Rn]]. rewrite cfg_seed, Proofs_Default.default_cfg.
    pose proof A as (Z0 & _). unfold conf, at_. destruct (Z.eqb_spec z 0); [lia|reflexivity].
  - intros n I. pose proof (Proofs_Outputs.shipped_rows _ _ Sh) as [Sn _]. rewrite <- Sn in I.
    apply in_map_iff in I as ([n' table] & <- & I). exists table. split; [exact I|]. now apply St.
  - intros E2 S2 R2. eapply ready_after; eauto.
Qed.

(** With --resume, a command whose directory exists does nothing. *)
Theorem C85_resume : forall P E s argv z, ready E s -> asks E argv true z ->
  dirs s (run_dir E z) = true -> command P E argv s = Ok s.
Proof. exact command_skip. Qed.

(** A negative seed is an error, whatever the disk. *)
Theorem C85_negative : forall P E s t z, parse_int E t = Some z -> (z < 0)%Z -> command P E [t] s = Err ValueError.
Proof. exact command_negative. Qed.

(** The tables of a seed are the same text on every disk, in every working directory and on
    every day, whatever the clock and the home directory. *)
Theorem C85_reproducible : forall P E s argv resume z s' E2 s2 argv2 resume2 s2', lawful P ->
  ready E s -> asks E argv resume z -> (resume = true -> dirs s (run_dir E z) = false) -> command P E argv s = Ok s' ->
  ready E2 s2 -> asks E2 argv2 resume2 z -> (resume2 = true -> dirs s2 (run_dir E2 z) = false) -> command P E2 argv2 s2 = Ok s2' ->
  forall x, In x tables -> exists text, Model_Save.files s' (run_dir E z ++ [x]) = Some text /\
    Model_Save.files s2' (run_dir E2 z ++ [x]) = Some text.
Proof.
  intros P E s argv r z s' E2 s2 argv2 r2 s2' L H A Rs C H2 A2 Rs2 C2 x I.
  destruct (command_run P E s argv r z L H A Rs) as (t' & _ & C' & _ & _ & _ & T).
  destruct (command_run P E2 s2 argv2 r2 z L H2 A2 Rs2) as (t2' & _ & C2' & _ & _ & _ & T2).
  assert (Inj : forall a b : fs, Ok a = Ok b -> a = b) by congruence. rewrite C in C'. rewrite C2 in C2'. apply Inj in C', C2'. subst t' t2'.
  exists (text_for P E s z x). split; [now apply T|]. rewrite (T2 x I). f_equal. now apply text_same.
Qed.

(** Any number of commands in one working directory, in any order, on any days, with any
    seeds, some of them several times, all finish.  Each leaves the tables that a single run
    of its seed leaves on any disk; other files stay as they were, and no directories but those
    of the runs are made.  With --resume this needs
    that the directory was not there before the first command. *)
Theorem C85_campaign : forall P l s E0, lawful P ->
  (forall E argv, In (E, argv) l -> ready E s /\ same_place E0 E /\
     exists resume z, asks E argv resume z /\ (resume = true -> dirs s (run_dir E z) = false)) ->
  exists s', commands P l s = Ok s' /\
    (forall E argv resume z, In (E, argv) l -> asks E argv resume z ->
       forall E1 s1 argv1 s1', ready E1 s1 -> asks E1 argv1 false z -> command P E1 argv1 s1 = Ok s1' ->
       forall x, In x tables -> exists text, Model_Save.files s1' (run_dir E1 z ++ [x]) = Some text /\
         Model_Save.files s' (run_dir E z ++ [x]) = Some text) /\
    (forall p, (forall E argv resume z x, In (E, argv) l -> asks E argv resume z -> In x written -> p <> run_dir E z ++ [x]) ->
       Model_Save.files s' p = Model_Save.files s p) /\
    (forall q, dirs s' q = true <-> dirs s q = true \/
       exists E argv resume z, In (E, argv) l /\ asks E argv resume z /\ is_prefix q (run_dir E z) = true).
Proof.
  intros P l s E0 L H. destruct l as [|[E argv] l].
  { exists s. split; [reflexivity|]. split; [contradiction|]. split; [auto|]. intros q. split; [auto|]. intros [D|(E & argv & r & z & [] & _)]. exact D. }
  destruct (H E argv (or_introl eq_refl)) as (HR & HS & _).
  destruct (campaign P E s L HR ((E, argv) :: l) s) as (s' & A & B & _ & D & _ & Ds & _).
  { intros E2 argv2 I. destruct (H E2 argv2 I) as (R2 & S2 & r & z & A2 & D2). split; [exact R2|].
    split; [destruct HS, S2; split; congruence|]. exists r, z. split; [exact A2|]. intros -> X. rewrite D2 in X by reflexivity. discriminate. }
  exists s'. split; [exact A|]. split; [|split; [exact D|exact Ds]]. intros E2 argv2 r z I A2 E1 s1 argv1 s1' H1 A1 C1 x X.
  destruct (command_run P E1 s1 argv1 false z L H1 A1) as (t' & _ & C' & _ & _ & _ & T); [discriminate|].
  assert (Inj : forall a b : fs, Ok a = Ok b -> a = b) by congruence. rewrite C1 in C'. apply Inj in C'. subst t'.
  exists (text_for P E1 s1 z x). split; [now apply T|]. rewrite (B E2 argv2 r z I A2 x X). f_equal. now apply text_same.
Qed.

(** The figure, drawn the same day from the same working directory, finds the tables of the
    run and reads them as they were. *)
Theorem C85_figure : forall P E s argv resume z s' E2 kw0 c0 run0 P0 parse back, lawful P ->
  ready E s -> asks E argv resume z -> (resume = true -> dirs s (run_dir E z) = false) -> command P E argv s = Ok s' ->
  same_place E E2 -> date_now E2 = date_now E -> Cfg (with_disk E2 s') kw0 = Ok c0 ->
  start kw0 "out_path" = VStr "" -> start kw0 "run_name" = VStr run0 -> plain_name run0 -> getv c0 "out_path" = VStr P0 ->
  (forall x, read_as parse (p_show P) back x) ->
  forall n, In n with_hop -> exists table, shipped_table n table /\
    read_from parse s' P0 "moonpies" z n = Ok (Some (map (renumbered back) table)).
Proof.
  intros P E s argv r z s' E2 kw0 c0 run0 P0 parse back L H A Rs C Sp Da H0 O0 N0 Pl HP0 U n I.
  destruct (command_run P E s argv r z L H A Rs) as (t' & out & C' & D & (Sh & _) & St & _).
  assert (Inj : forall a b : fs, Ok a = Ok b -> a = b) by congruence. rewrite C in C'. apply Inj in C'. subst t'.
  pose proof (Proofs_Outputs.shipped_rows _ _ Sh) as [Sn _]. rewrite <- Sn in I.
  apply in_map_iff in I as ([n' table] & <- & I). cbn [fst]. exists table.
  assert (T : shipped_table n' table) by (exists with_hop, out; auto). split; [exact T|].
  assert (R2 : ready E2 s') by (eapply ready_after; eauto; eapply ready_env; eauto).
  pose proof A as (Z0 & _).
  assert (Hz : Cfg (with_disk E2 s') [("seed"%string, VInt z)] = Ok (conf E2 s' z)).
  { rewrite cfg_seed, Proofs_Default.default_cfg. unfold conf, at_. destruct (Z.eqb_spec z 0); [lia|reflexivity]. }
  destruct (conf_path E2 s' z "out_path" ltac:(now apply existsb_eqb) eq_refl) as (Pa & HP).
  pose proof (ready_outputs E2 s' z R2) as Dz.
  destruct (default_dir _ _ _ z Pa _ Dz (conf_cfg E2 s' z) (conf_seed E2 s' z) HP) as [PD _].
  destruct R2 as ((R21 & R22) & R23 & _). unfold read_from.
  rewrite (C77_files_default (with_disk E2 s') kw0 [("seed"%string, VInt z)] c0 (conf E2 s' z) z run0 "moonpies" P0 Pa n' R21 R22 R23 Pl
    ltac:(apply plainc_plain, plainb_ok; reflexivity) H0 O0 N0 HP0 Hz eq_refl eq_refl HP (conf_seed E2 s' z)).
  cbn [bind]. rewrite PD. change (path_parts (cwd (at_ E2 s' z)) ++ ["out"; date_now (at_ E2 s' z); "moonpies"; format_05d z]%string) with (run_dir E2 z).
  assert (Q : run_dir E2 z = run_dir E z) by (unfold run_dir; destruct Sp as [-> _]; now rewrite Da). rewrite Q.
  change ("strat_" ++ n' ++ ".csv")%string with (table_name n'). rewrite (St n' table I). unfold bind at 1.
  rewrite (C84_shipped parse (p_show P) back n' table T); [reflexivity|]. apply Forall_forall. intros x _. apply U.
Qed.

(** ** Concrete cases *)
(** The installation of Props_Cfg.machine, with /work as an empty working directory. *)
Definition pkg : path := ["lib"; "moonpies"; "data"]%string.
Definition installed0 : fs := mk_fs (fun p => is_prefix p ["work"]%string || is_prefix p pkg)
  (fun p => match find (fun f => path_eqb p (pkg ++ [fst f])) data with Some f => Some (snd f) | None => None end).
Definition libraries0 : libraries :=
  mk_libraries (fun x => x) lin_ppf isort_age (fun _ _ => (1 / 2)%R) (fun _ => "0.0"%string) (fun _ => Err ValueError) (fun _ => ""%string)
    (fun _ => (""%string, ""%string)) (fun _ => []).
Lemma lawful0 : lawful libraries0.
Proof.
  split; [split; auto|]. split; [reflexivity|]. split; [apply lin_support|]. split; [apply isort_age_ok|]. intros z i. cbn. lra.
Qed.
Lemma pkg_short p : (length p <= 3)%nat -> Model_Save.files installed0 p = None.
Proof.
  intros H. cbn [installed0 Model_Save.files]. destruct (find _ data) as [f|] eqn:F; [|reflexivity]. exfalso.
  apply find_some in F as [_ F]. unfold path_eqb in F. destruct (list_eq_dec _ _ _) as [->|]; [|discriminate].
  rewrite app_length in H. cbn in H. lia.
Qed.
Lemma work_files p x : Model_Save.files installed0 ("work"%string :: x :: p) = None.
Proof.
  cbn [installed0 Model_Save.files]. destruct (find _ data) as [f|] eqn:F; [|reflexivity]. exfalso.
  apply find_some in F as [_ F]. unfold path_eqb in F. destruct (list_eq_dec _ _ _) as [Q|]; [|discriminate]. discriminate Q.
Qed.
Lemma ready0 E : cwd E = "/work"%string -> package_data E = "/lib/moonpies/data"%string -> plain_name (date_now E) -> ready E installed0.
Proof.
  intros C K D. unfold ready, run_dir. rewrite C, K. change (path_parts "/work") with ["work"]%string.
  change (path_parts "/lib/moonpies/data") with pkg. split; [split; reflexivity|]. split; [exact D|]. split; [split; reflexivity|].
  split; [repeat constructor|]. split; [repeat (apply Forall_cons; [reflexivity|]); apply Forall_nil|]. split.
  - intros p q A B. cbn [installed0 dirs] in *. apply orb_prop in B as [B|B]; apply orb_true_intro; [left|right]; eapply prefix_trans; eauto.
  - intros z. cbn [app]. split; [|intros x; reflexivity]. intros p A. destruct p as [|a [|b p]]; [apply pkg_short; cbn; lia..|].
    cbn [is_prefix] in A. apply andb_prop in A as [A _]. apply String.eqb_eq in A. subst a. apply work_files.
Qed.
Lemma day_plain d : plainb d = true -> plain_name d.
Proof. intros H. now apply plainc_plain, plainb_ok. Qed.
Lemma asks0 d z t r argv : argv = [t] /\ r = false \/ argv = ["--resume"; t]%string /\ r = true ->
  parse_int (machine [] d) t = Some z -> (0 < z)%Z -> asks (machine [] d) argv r z.
Proof.
  intros H T Z0. assert (N : t <> "--resume"%string) by (intros ->; discriminate). apply String.eqb_neq in N.
  split; [exact Z0|]. split; [reflexivity|]. destruct H as [[-> ->]|[-> ->]].
  - split; [split; [discriminate|intros [X|[]]; subst; discriminate]|]. exists [t]. cbn [filter]. rewrite N. cbn [negb]. split; [reflexivity|]. right. eauto 8.
  - split; [split; [intros _; now left|reflexivity]|]. exists [t]. cbn [filter]. change (String.eqb "--resume" "--resume") with true. rewrite N. cbn [negb].
    split; [reflexivity|]. right. eauto 8.
Qed.
(** One run; and without a seed. *)
Example C85_case : exists s', command libraries0 (machine [] "240101") ["7"]%string installed0 = Ok s' /\
  Model_Save.files s' ["work"; "out"; "240101"; "moonpies"; "00007"; "strat_Haworth.csv"]%string <> None /\
  command libraries0 (machine [] "240101") ["--resume"; "7"]%string s' = Ok s'.
Proof.
  assert (A : asks (machine [] "240101") ["7"%string] false 7) by (apply (asks0 "240101" 7 "7"); [auto|reflexivity|lia]).
  assert (R : ready (machine [] "240101") installed0) by (apply ready0; [reflexivity..|now apply day_plain]).
  destruct (C85_runs libraries0 (machine [] "240101") installed0 ["7"%string] false 7 lawful0 R A ltac:(discriminate)) as (s' & out & C & _ & _ & _ & W & _ & D & F).
  exists s'. split; [exact C|]. split.
  - apply (W "strat_Haworth.csv"%string). apply existsb_eqb. vm_compute. reflexivity.
  - apply (C85_resume _ _ _ _ 7).
    + apply F; [split; reflexivity|exact R].
    + apply (asks0 "240101" 7 "7"); [auto|reflexivity|lia].
    + apply D. right. apply Proofs_Save.is_prefix_refl.
Qed.
Example C85_draw_case : asks (machine [] "240101") [] false 4242 /\ asks (machine [] "240101") ["0"%string] false 4242.
Proof.
  split; (split; [lia|]); (split; [reflexivity|]).
  - split; [split; [discriminate|contradiction]|]. exists []. auto.
  - split; [split; [discriminate|intros [X|[]]; discriminate]|]. exists ["0"%string]. split; [reflexivity|]. right. exists "0"%string, 0%Z. auto.
Qed.
(** The same seed on two days. *)
Example C85_reproducible_case : exists s1 s2 text,
  command libraries0 (machine [] "240101") ["7"]%string installed0 = Ok s1 /\ command libraries0 (machine [] "250202") ["--resume"; "7"]%string installed0 = Ok s2 /\
  Model_Save.files s1 ["work"; "out"; "240101"; "moonpies"; "00007"; "ice_columns.csv"]%string = Some text /\
  Model_Save.files s2 ["work"; "out"; "250202"; "moonpies"; "00007"; "ice_columns.csv"]%string = Some text.
Proof.
  assert (A : asks (machine [] "240101") ["7"%string] false 7) by (apply (asks0 "240101" 7 "7"); [auto|reflexivity|lia]).
  assert (A2 : asks (machine [] "250202") ["--resume"; "7"]%string true 7) by (apply (asks0 "250202" 7 "7"); [auto|reflexivity|lia]).
  assert (R : ready (machine [] "240101") installed0) by (apply ready0; [reflexivity..|now apply day_plain]).
  assert (R2 : ready (machine [] "250202") installed0) by (apply ready0; [reflexivity..|now apply day_plain]).
  destruct (C85_runs libraries0 _ installed0 _ _ 7 lawful0 R A ltac:(discriminate)) as (s1 & _ & C1 & _).
  destruct (C85_runs libraries0 _ installed0 _ _ 7 lawful0 R2 A2 ltac:(reflexivity)) as (s2 & _ & C2 & _).
  destruct (C85_reproducible _ _ _ _ _ 7 _ _ _ _ _ _ lawful0 R A ltac:(discriminate) C1 R2 A2 ltac:(reflexivity) C2 "ice_columns.csv") as (text & T1 & T2).
  - apply existsb_eqb. vm_compute. reflexivity.
  - exists s1, s2, text. auto.
Qed.
(** Seeds 7, 3 and 7 again on two days. *)
Definition week : list (env * list string) :=
  [(machine [] "240101", ["7"]); (machine [] "240102", ["3"]); (machine [] "240102", ["--resume"; "7"]); (machine [] "240102", ["7"])]%string.
Example C85_campaign_case : exists s', commands libraries0 week installed0 = Ok s' /\ exists text,
  Model_Save.files s' ["work"; "out"; "240101"; "moonpies"; "00007"; "strat_Cabeus B.csv"]%string = Some text /\
  Model_Save.files s' ["work"; "out"; "240102"; "moonpies"; "00007"; "strat_Cabeus B.csv"]%string = Some text.
Proof.
  assert (R : forall d, plainb d = true -> ready (machine [] d) installed0) by (intros d Hd; apply ready0; [reflexivity..|now apply day_plain]).
  assert (A7 : forall d, asks (machine [] d) ["7"%string] false 7) by (intros d; apply (asks0 d 7 "7"); [auto|reflexivity|lia]).
  destruct (C85_campaign libraries0 week installed0 (machine [] "240101") lawful0) as (s' & C & T & _).
  { intros E argv [I|[I|[I|[I|[]]]]]; injection I as <- <-; (split; [now apply R|]); (split; [split; reflexivity|]).
    - exists false, 7%Z. split; [apply A7|discriminate].
    - exists false, 3%Z. split; [apply (asks0 "240102" 3 "3"); [auto|reflexivity|lia]|discriminate].
    - exists true, 7%Z. split; [apply (asks0 "240102" 7 "7"); [auto|reflexivity|lia]|reflexivity].
    - exists false, 7%Z. split; [apply A7|discriminate]. }
  exists s'. split; [exact C|]. assert (R1 : ready (machine [] "240101") installed0) by now apply R.
  destruct (C85_runs libraries0 (machine [] "240101") installed0 ["7"%string] false 7 lawful0 R1 (A7 _) ltac:(discriminate)) as (s1 & out & C1 & _).
  assert (I : In "strat_Cabeus B.csv"%string tables) by (apply existsb_eqb; vm_compute; reflexivity).
  destruct (T _ _ _ _ (or_introl eq_refl) (A7 _) _ _ _ _ R1 (A7 _) C1 _ I) as (t & Q1 & Q2).
  destruct (T (machine [] "240102") ["7"%string] false 7%Z ltac:(do 3 right; now left) (A7 _) _ _ _ _ R1 (A7 _) C1 _ I) as (t' & Q1' & Q2').
  assert (t' = t) by congruence. subst t'. exists t. split; [exact Q2|exact Q2'].
Qed.
Example C85_negative_case : command libraries0 (machine [] "240101") ["-5"]%string installed0 = Err ValueError.
Proof. apply (C85_negative _ _ _ _ (-5)); reflexivity. Qed.
(** The figure of that day. *)
Example C85_figure_case : exists s' c0 P0 table, command libraries0 (machine [] "240101") ["7"]%string installed0 = Ok s' /\
  Cfg (with_disk (machine [] "240101") s') [("seed"%string, VInt 1)] = Ok c0 /\ getv c0 "out_path" = VStr P0 /\
  read_from (fun _ => 0%R) s' P0 "moonpies" 7 "Haworth" = Ok (Some table).
Proof.
  assert (A : asks (machine [] "240101") ["7"%string] false 7) by (apply (asks0 "240101" 7 "7"); [auto|reflexivity|lia]).
  assert (R : ready (machine [] "240101") installed0) by (apply ready0; [reflexivity..|now apply day_plain]).
  destruct (C85_runs libraries0 (machine [] "240101") installed0 ["7"%string] false 7 lawful0 R A ltac:(discriminate)) as (s' & out & C & _).
  assert (H1 : Cfg (with_disk (machine [] "240101") s') [("seed"%string, VInt 1)] = Ok (conf (machine [] "240101") s' 1)).
  { rewrite cfg_seed, Proofs_Default.default_cfg. reflexivity. }
  destruct (conf_path (machine [] "240101") s' 1 "out_path" ltac:(now apply existsb_eqb) eq_refl) as (P0 & HP).
  destruct (C85_figure libraries0 _ _ _ _ 7 s' (machine [] "240101") [("seed"%string, VInt 1)] _ "moonpies" P0 (fun _ => 0%R) (fun _ => 0%R)
    lawful0 R A ltac:(discriminate) C ltac:(split; reflexivity) eq_refl H1 eq_refl eq_refl ltac:(now apply day_plain) HP) with (n := "Haworth"%string) as (table & _ & T).
  - intros x. eexists. split; [|reflexivity]. exists [], 1%R, [0%nat], ["."%char], [0%nat], [], 1%R.
    split; [constructor|]. split; [repeat constructor; lia|]. split; [repeat constructor; lia|]. split; [left; discriminate|].
    split; [now left|]. split; [constructor|]. split; reflexivity.
  - now left.
  - exists s', (conf (machine [] "240101") s' 1), P0. eexists. split; [exact C|]. split; [exact H1|]. split; [exact HP|exact T].
Qed.

Print Assumptions C85_runs.
Print Assumptions C85_resume.
Print Assumptions C85_negative.
Print Assumptions C85_reproducible.
Print Assumptions C85_campaign.
Print Assumptions C85_figure.
