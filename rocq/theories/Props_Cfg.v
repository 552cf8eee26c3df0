(** Properties of the configuration object (C38-C42, C67-C70). *)
From Coq Require Import ZArith QArith Lia Bool Ascii String List DecimalString.
From Verif Require Import Base Proofs_Base Model_Path Proofs_Path Model_Cfg Spec_Cfg Proofs_Cfg Proofs_Rebuild Proofs_Default.
Import ListNotations.
Open Scope string_scope.

(** A machine on which nothing but the given paths exists, with or without slashes at the end. *)
Definition machine (present : list string) (day : string) : env := {|
  cwd := "/work"; home := "/home/me"; exists_ := fun p => existsb (String.eqb (rstrip_slash p)) present;
  package_data := "/lib/moonpies/data"; date_now := day; time_now := "12:00:00"; draw := 4242;
  str_of := fun _ => "?";
  parse_int := fun s => option_map Z.of_int (NilZero.int_of_string s);
  parse_float := fun _ => None |}.
Definition built_from (E : env) (kw : cfg) : cfg := match Cfg E kw with Ok c => c | Err _ => [] end.

(** *** C38: seeds *)

(** The seed is the number given when that is not 0, and numpy's draw otherwise. *)
Theorem C38_seed : forall E kw c, fair_draw E -> Cfg E kw = Ok c ->
  exists z, getv c "seed" = VInt z /\ z <> 0%Z /\
  (forall n, seed_number E (start kw "seed") = Some n -> n <> 0%Z -> z = n) /\
  (seed_number E (start kw "seed") = None \/ seed_number E (start kw "seed") = Some 0%Z ->
     z = draw E /\ (1 <= z <= 99998)%Z).
Proof.
  intros E kw c D H. apply Cfg_built in H as (s & m & p & op & B). exists s.
  pose proof (b_seed _ _ _ _ _ _ _ B) as S. pose proof (random_seed _ _ _ S) as R.
  split; [exact (seed_value _ _ _ _ _ _ _ B)|]. split; [exact (seed_nonzero _ _ _ D S)|]. split.
  - intros n N NZ. rewrite N in R. destruct (Z.eqb_spec n 0); [easy|exact R].
  - intros [N|N]; rewrite N in R; cbn in R; subst s; auto.
Qed.
Example C38_cases :
  getv (built_from (machine [] "240101") [("seed", VInt 7)]) "seed" = VInt 7 /\
  getv (built_from (machine [] "240101") [("seed", VStr "12")]) "seed" = VInt 12 /\
  getv (built_from (machine [] "240101") [("seed", VStr "1e4")]) "seed" = VInt 4242 /\
  getv (built_from (machine [] "240101") []) "seed" = VInt 4242.
Proof. repeat split; vm_compute; reflexivity. Qed.

(** A dictionary that carries the seed of a configuration gives that seed again, on any
    machine, whatever else it holds. *)
Theorem C38_seed_kept : forall E kw c E' d c',
  fair_draw E -> Cfg E kw = Ok c ->
  lookup "seed" d = Some (getv c "seed") -> Cfg E' d = Ok c' ->
  getv c' "seed" = getv c "seed".
Proof.
  intros E kw c E' d c' D H L H'. apply Cfg_built in H as (s & m & p & op & B).
  apply Cfg_built in H' as (s' & m' & p' & op' & B').
  rewrite (seed_value _ _ _ _ _ _ _ B) in *. rewrite (seed_value _ _ _ _ _ _ _ B').
  pose proof (b_seed _ _ _ _ _ _ _ B') as S. unfold start in S. rewrite L in S.
  rewrite seed_again in S; [congruence|]. exact (seed_nonzero _ _ _ D (b_seed _ _ _ _ _ _ _ B)).
Qed.
(** The seed on the command line wins over the one in the file. *)
Theorem C38_command_line_wins : forall E file z c, z <> 0%Z ->
  read_custom_cfg E file (Some (VInt z)) = Ok c -> getv c "seed" = VInt z.
Proof.
  intros E file z c Z H. unfold read_custom_cfg, from_dict in H. apply Cfg_built in H as (s & m & p & op & B).
  rewrite (seed_value _ _ _ _ _ _ _ B). pose proof (b_seed _ _ _ _ _ _ _ B) as S. unfold start in S.
  assert (L : forall d : cfg, lookup "seed" (put d "seed" (VInt z)) = Some (VInt z)).
  { induction d as [|[k v] d IH]; [reflexivity|]. unfold put in *. cbn [existsb fst].
    destruct (String.eqb_spec k "seed"); cbn [orb].
    - subst. reflexivity.
    - destruct (existsb _ d) eqn:X; unfold setv; cbn [map app fst]; apply String.eqb_neq in n; rewrite ?n, lookup_cons, n; exact IH. }
  rewrite L in S. rewrite seed_again in S by exact Z. congruence.
Qed.
Example C38_command_line_case :
  exists c, read_custom_cfg (machine [] "240101") (Some [("mode", VStr "cannon"); ("seed", VInt 5)]) (Some (VInt 9)) = Ok c.
Proof. eexists. vm_compute. reflexivity. Qed.
(** An infinite seed is neither replaced by a random one nor reported as a bad seed: the
    OverflowError of int() escapes. *)
Theorem C38_infinite_seed_refuted : exists E kw,
  seed_number E (start kw "seed") = None /\ Cfg E kw = Err OverflowError.
Proof. exists (machine [] "240101"), [("seed", VFloat (Inf false))]. split; vm_compute; reflexivity. Qed.

(** *** C39: mode and pole tables *)

(** An option the user gave (or that has a default) is the value given, in its type. *)
Theorem C39_user_wins : forall E kw c k, Cfg E kw = Ok c -> In k options -> plain_key k = true ->
  start kw k <> VNone -> stored E k (start kw k) (getv c k).
Proof.
  intros E kw c k H I K N. apply Cfg_built in H as (s & m & p & op & B).
  destruct (plain_path k K) as (K1 & K2 & K3 & K4).
  pose proof (nonpath_value _ _ _ _ _ _ _ B k I K1) as X. unfold raw in X.
  apply String.eqb_neq in K2, K3, K4. rewrite K2, K3, K4 in X.
  assert (Y : (k =? "figs_path") = false /\ (k =? "out_path") = false /\ (k =? "data_path") = false)
    by (repeat split; apply String.eqb_neq; intros ->; discriminate).
  destruct Y as (Y1 & Y2 & Y3). rewrite Y1, Y2, Y3 in X.
  rewrite (filled_typed m), (filled_typed p) in X by auto. exact X.
Qed.
(** An option left at None is the value of the table. *)
Theorem C39_mode_fills : forall E kw c k r v, Cfg E kw = Ok c ->
  start kw "mode" = VStr r -> in_table MODE_DEFAULTS r k = Some v -> start kw k = VNone ->
  stored E k v (getv c k).
Proof.
  intros E kw c k r v H M T N. apply Cfg_built in H as (s & m & p & op & B).
  destruct (b_mode _ _ _ _ _ _ _ B) as (r' & M1 & M2). rewrite M in M1. injection M1 as <-.
  unfold in_table in T. rewrite M2 in T.
  destruct (mode_row _ _ M2) as (Q1 & Q2 & Q3).
  assert (I : In k field_names) by (apply Q2, lookup_in; eauto).
  assert (K : plain_key k = true /\ v <> VNone).
  { assert (A : Forall (fun row => Forall (fun kv : string * val => plain_key (fst kv) = true /\ snd kv <> VNone) row) (map snd MODE_DEFAULTS)).
    { repeat constructor; try discriminate; try (intros; discriminate). }
    rewrite Forall_forall in A. apply lookup_some_in, (in_map snd) in M2. specialize (A _ M2). rewrite Forall_forall in A.
    apply lookup_some_in in T. exact (A _ T). }
  destruct K as (K & V).
  destruct (plain_path k K) as (K1 & K2 & K3 & K4).
  pose proof (nonpath_value _ _ _ _ _ _ _ B k I K1) as X. unfold raw in X.
  apply String.eqb_neq in K2, K3, K4. rewrite K2, K3, K4 in X.
  assert (Y : (k =? "figs_path") = false /\ (k =? "out_path") = false /\ (k =? "data_path") = false)
    by (repeat split; apply String.eqb_neq; intros ->; discriminate).
  destruct Y as (Y1 & Y2 & Y3). rewrite Y1, Y2, Y3 in X. rewrite N in X.
  assert (F : filled m k VNone = v) by (unfold filled; now rewrite T). rewrite F in X.
  rewrite filled_typed in X by exact V. exact X.
Qed.
Theorem C39_pole_fills : forall E kw c k r v, Cfg E kw = Ok c ->
  start kw "pole" = VStr r -> in_table POLE_DEFAULTS r k = Some v -> start kw k = VNone ->
  stored E k v (getv c k).
Proof.
  intros E kw c k r v H M T N. apply Cfg_built in H as (s & m & p & op & B).
  destruct (b_pole _ _ _ _ _ _ _ B) as (r' & M1 & M2). rewrite M in M1. injection M1 as <-.
  destruct (b_mode _ _ _ _ _ _ _ B) as (rm & _ & Mm).
  unfold in_table in T. rewrite M2 in T.
  destruct (pole_row _ _ M2) as (Q1 & Q2 & Q3).
  assert (I : In k field_names) by (apply Q2, lookup_in; eauto).
  assert (K : plain_key k = true /\ forall row, In row (map snd MODE_DEFAULTS) -> lookup k row = None).
  { assert (A : Forall (fun row => Forall (fun kv : string * val => plain_key (fst kv) = true /\
        Forall (fun row' => lookup (fst kv) row' = None) (map snd MODE_DEFAULTS)) row) (map snd POLE_DEFAULTS)).
    { repeat constructor. }
    rewrite Forall_forall in A. apply lookup_some_in, (in_map snd) in M2. specialize (A _ M2). rewrite Forall_forall in A.
    apply lookup_some_in in T. destruct (A _ T) as (A1 & A2). rewrite Forall_forall in A2. auto. }
  destruct K as (K & V). apply lookup_some_in, (in_map snd) in Mm. specialize (V _ Mm). cbn [snd] in V.
  destruct (plain_path k K) as (K1 & K2 & K3 & K4).
  pose proof (nonpath_value _ _ _ _ _ _ _ B k I K1) as X. unfold raw in X.
  apply String.eqb_neq in K2, K3, K4. rewrite K2, K3, K4 in X.
  assert (Y : (k =? "figs_path") = false /\ (k =? "out_path") = false /\ (k =? "data_path") = false)
    by (repeat split; apply String.eqb_neq; intros ->; discriminate).
  destruct Y as (Y1 & Y2 & Y3). rewrite Y1, Y2, Y3 in X. rewrite N, (filled_none m) in X by exact V.
  unfold filled in X. rewrite T in X. exact X.
Qed.
Example C39_case :
  let c := built_from (machine [] "240101") [("mode", VStr "cannon"); ("pole", VStr "n"); ("ballistic_sed", VBool true); ("volc_dep_effcy", VInt 1)] in
  getv c "ballistic_sed" = VBool true /\ getv c "solar_wind_ice" = VBool false /\
  getv c "volc_dep_effcy" = VFloat 1 /\ getv c "ballistic_hop_effcy" = VFloat (27 # 1000).
Proof. repeat split; vm_compute; reflexivity. Qed.
(** A mode or pole that is not in its table is refused. *)
Theorem C39_unknown_mode : forall E kw r c, start kw "mode" = VStr r ->
  r <> "cannon" -> r <> "moonpies" -> Cfg E kw <> Ok c.
Proof.
  intros E kw r c M N1 N2 H. apply Cfg_built in H as (s & m & p & op & B).
  destruct (b_mode _ _ _ _ _ _ _ B) as (r' & M1 & M2). rewrite M in M1. injection M1 as <-.
  apply lookup_some_in in M2. destruct M2 as [X|[X|[]]]; injection X as X _; congruence.
Qed.
Theorem C39_unknown_pole : forall E kw r c, start kw "pole" = VStr r ->
  r <> "n" -> r <> "s" -> Cfg E kw <> Ok c.
Proof.
  intros E kw r c M N1 N2 H. apply Cfg_built in H as (s & m & p & op & B).
  destruct (b_pole _ _ _ _ _ _ _ B) as (r' & M1 & M2). rewrite M in M1. injection M1 as <-.
  apply lookup_some_in in M2. destruct M2 as [X|[X|[]]]; injection X as X _; congruence.
Qed.
(** The impact speed of the mode is never used: without a speed from the user it is
    20 km/s in both modes, though the table of the default mode says 17 km/s. *)
Theorem C39_mode_speed_refuted :
  in_table MODE_DEFAULTS "moonpies" "impact_speed_mean" = Some (VFloat 17000) /\
  forall E kw c, Cfg E kw = Ok c -> lookup "impact_speed_mean" kw = None ->
  getv c "impact_speed_mean" = VFloat 20000.
Proof.
  split; [reflexivity|]. intros E kw c H L.
  assert (S : start kw "impact_speed_mean" = VFloat 20000) by (unfold start; rewrite L; reflexivity).
  pose proof (C39_user_wins E kw c "impact_speed_mean" H ltac:(inn) eq_refl) as X. rewrite S in X. apply X. discriminate.
Qed.
Example C39_speed_case : exists c, Cfg (machine [] "240101") [("mode", VStr "moonpies")] = Ok c.
Proof. eexists. vm_compute. reflexivity. Qed.

(** *** C40: output directories *)

(** Without an out_path, or with one that does not show the seed, the output directory is
    named after the seed. *)
Theorem C40_named_after_seed : forall E kw c z p P, starts_slash (cwd E) = true ->
  Cfg E kw = Ok c -> getv c "seed" = VInt z ->
  start kw "out_path" = VStr p -> p = "" \/ contains (format_05d z) p = false ->
  getv c "out_path" = VStr P -> last_part P = format_05d z.
Proof.
  intros E kw c z p P C H S Op N HP. apply Cfg_built in H as (s & m & pr & op & B).
  rewrite (seed_value _ _ _ _ _ _ _ B) in S. injection S as <-.
  rewrite (out_value _ _ _ _ _ _ _ B) in HP. injection HP as <-.
  pose proof (b_out _ _ _ _ _ _ _ B) as O. rewrite Op in O.
  destruct (out_shape _ _ _ _ _ _ O N) as (q & ->). now apply dirname_nonnil_or.
Qed.
(** So two runs with different seeds never share a directory. *)
Theorem C40_seeds_separate : forall E1 E2 kw1 kw2 c1 c2 z1 z2 p1 p2 P1 P2,
  starts_slash (cwd E1) = true -> starts_slash (cwd E2) = true ->
  Cfg E1 kw1 = Ok c1 -> Cfg E2 kw2 = Ok c2 ->
  getv c1 "seed" = VInt z1 -> getv c2 "seed" = VInt z2 ->
  start kw1 "out_path" = VStr p1 -> p1 = "" \/ contains (format_05d z1) p1 = false ->
  start kw2 "out_path" = VStr p2 -> p2 = "" \/ contains (format_05d z2) p2 = false ->
  getv c1 "out_path" = VStr P1 -> getv c2 "out_path" = VStr P2 ->
  z1 <> z2 -> last_part P1 <> last_part P2.
Proof.
  intros E1 E2 kw1 kw2 c1 c2 z1 z2 p1 p2 P1 P2 C1 C2 H1 H2 S1 S2 O1 N1 O2 N2 G1 G2 Z.
  rewrite (C40_named_after_seed E1 kw1 c1 z1 p1 P1) by auto.
  rewrite (C40_named_after_seed E2 kw2 c2 z2 p2 P2) by auto.
  intros X. apply Z. now apply format_inj.
Qed.
Example C40_case :
  getv (built_from (machine [] "240101") [("seed", VInt 3)]) "out_path" = VStr "/work/out/240101/moonpies/00003" /\
  getv (built_from (machine [] "240101") [("seed", VInt 4); ("out_path", VStr "~/runs/")]) "out_path" = VStr "/home/me/runs/00004" /\
  getv (built_from (machine [] "240101") [("seed", VInt 4); ("out_path", VStr "/runs/00003/")]) "out_path" = VStr "/runs/00004".
Proof. repeat split; vm_compute; reflexivity. Qed.
(** The directory is the seed's under the out_path given; a last part that is a number is
    replaced. *)
Theorem C40_under_given : forall E kw c z p P, starts_slash (cwd E) = true ->
  Cfg E kw = Ok c -> getv c "seed" = VInt z ->
  start kw "out_path" = VStr p -> p <> "" -> contains (format_05d z) p = false ->
  getv c "out_path" = VStr P ->
  let parent := if isnumeric (basename (normpath p)) then dirname (normpath p) else p in
  let dir := path_join parent (format_05d z) in
  P = if exists_ E (dir ++ "/") then dir ++ "/" else abspath (cwd E) (expanduser (home E) dir).
Proof.
  intros E kw c z p P C H S Op Pn N HP. apply Cfg_built in H as (s & m & pr & op & B).
  rewrite (seed_value _ _ _ _ _ _ _ B) in S. injection S as <-.
  rewrite (out_value _ _ _ _ _ _ _ B) in HP. injection HP as <-.
  pose proof (b_out _ _ _ _ _ _ _ B) as O. rewrite Op in O. unfold get_out_path in O. cbn [as_str bind] in O.
  apply String.eqb_neq in Pn. rewrite Pn, N in O. cbn [negb] in O. injection O as <-. cbv zeta.
  set (dir := path_join _ (format_05d s)). unfold settle. destruct (exists_ E (dir ++ "/")); [reflexivity|].
  apply resolve_slash_end; [exact C|]. apply (path_join_digit _ s).
Qed.
(** Without an out_path it is out/<date>/<run name>/<seed> in the working directory. *)
Theorem C40_default : forall E kw c z P name, starts_slash (cwd E) = true ->
  Cfg E kw = Ok c -> getv c "seed" = VInt z ->
  start kw "out_path" = VStr "" -> start kw "run_name" = VStr name ->
  getv c "out_path" = VStr P ->
  let dir := path_join (path_join (path_join (path_join (cwd E) "out") (date_now E)) name) (format_05d z) in
  P = if exists_ E (dir ++ "/") then dir ++ "/" else abspath (cwd E) (expanduser (home E) dir).
Proof.
  intros E kw c z P name C H S Op Nm HP. apply Cfg_built in H as (s & m & pr & op & B).
  rewrite (seed_value _ _ _ _ _ _ _ B) in S. injection S as <-.
  rewrite (out_value _ _ _ _ _ _ _ B) in HP. injection HP as <-.
  pose proof (b_out _ _ _ _ _ _ _ B) as O. rewrite Op, Nm in O. unfold get_out_path in O. cbn [as_str bind] in O.
  change ("" =? "") with true in O. cbv iota in O. injection O as <-. cbv zeta.
  set (dir := path_join _ (format_05d s)). unfold settle. destruct (exists_ E (dir ++ "/")); [reflexivity|].
  apply resolve_slash_end; [exact C|]. apply (path_join_digit _ s).
Qed.
(** An out_path that shows the seed is kept. *)
Theorem C40_shown_seed_kept : forall E kw c z p P, starts_slash (cwd E) = true ->
  Cfg E kw = Ok c -> getv c "seed" = VInt z ->
  start kw "out_path" = VStr p -> contains (format_05d z) p = true ->
  getv c "out_path" = VStr P ->
  P = if exists_ E (p ++ "/") then p ++ "/" else abspath (cwd E) (expanduser (home E) p).
Proof.
  intros E kw c z p P C H S Op N HP. apply Cfg_built in H as (s & m & pr & op & B).
  rewrite (seed_value _ _ _ _ _ _ _ B) in S. injection S as <-.
  rewrite (out_value _ _ _ _ _ _ _ B) in HP. injection HP as <-.
  pose proof (b_out _ _ _ _ _ _ _ B) as O. rewrite Op in O.
  assert (Pn : p <> "") by (intros ->; destruct (seed_plain s) as (X & _); cbn in N; destruct (format_05d s); easy).
  rewrite get_out_again in O by auto. injection O as <-. unfold settle.
  destruct (exists_ E (p ++ "/")); [reflexivity|].
  apply resolve_slash_end; [exact C|]. exact (contains_digit _ _ N).
Qed.
(** "Prevent overwrites" fails for a path that shows both seeds ... *)
Theorem C40_two_seeds_refuted : exists E p c1 c2,
  Cfg E [("seed", VInt 1); ("out_path", VStr p)] = Ok c1 /\
  Cfg E [("seed", VInt 2); ("out_path", VStr p)] = Ok c2 /\
  getv c1 "out_path" = getv c2 "out_path" /\ getv c1 "ice_t_csv_out" = getv c2 "ice_t_csv_out".
Proof.
  exists (machine [] "240101"), "/data/0000100002".
  eexists. eexists. split; [vm_compute; reflexivity|]. split; [vm_compute; reflexivity|]. split; reflexivity.
Qed.
(** ... and a directory named by a number is taken for an old seed and dropped, so that
    two different out_paths share the directory. *)
Theorem C40_numeric_directory_refuted : exists E c1 c2,
  Cfg E [("seed", VInt 1); ("out_path", VStr "/data/2023")] = Ok c1 /\
  Cfg E [("seed", VInt 1); ("out_path", VStr "/data/2024")] = Ok c2 /\
  getv c1 "out_path" = VStr "/data/00001" /\ getv c2 "out_path" = VStr "/data/00001".
Proof.
  exists (machine [] "240101"). eexists. eexists.
  split; [vm_compute; reflexivity|]. split; [vm_compute; reflexivity|]. split; reflexivity.
Qed.

(** *** C41: types *)

(** Every option is there and has its declared type. *)
Theorem C41_typed : forall E kw c, Cfg E kw = Ok c ->
  map fst c = options /\ forall k, In k options -> has_type (getv c k) (type_of k) = true.
Proof.
  intros E kw c H. apply Cfg_built in H as (s & m & p & op & B).
  split; [exact (b_keys _ _ _ _ _ _ _ B)|]. intros k I. rewrite <- isinstance_type. exact (typed_value _ _ _ _ _ _ _ B k I).
Qed.
(** A value given in the type of its option is kept. *)
Theorem C41_kept : forall E kw c k v, Cfg E kw = Ok c -> In k options -> plain_key k = true ->
  lookup k kw = Some v -> has_type v (type_of k) = true -> getv c k = v.
Proof.
  intros E kw c k v H I K L T.
  assert (S : start kw k = v) by (unfold start; now rewrite L).
  pose proof (C39_user_wins E kw c k H I K) as X. rewrite S in X.
  assert (N : v <> VNone) by (intros ->; destruct (type_of k); discriminate).
  specialize (X N). unfold stored in X. now rewrite T in X.
Qed.
(** A whole number written as a float (4.25e9) becomes that integer. *)
Theorem C41_whole_floats : forall E kw c k q z, Cfg E kw = Ok c -> In k options -> plain_key k = true ->
  type_of k = TInt -> lookup k kw = Some (VFloat (Fin q)) -> (q == inject_Z z)%Q -> getv c k = VInt z.
Proof.
  intros E kw c k q z H I K T L Q.
  assert (S : start kw k = VFloat (Fin q)) by (unfold start; now rewrite L).
  pose proof (C39_user_wins E kw c k H I K) as X. rewrite S in X. specialize (X ltac:(discriminate)).
  unfold stored in X. rewrite T in X. cbn [has_type convert to_int bind] in X.
  unfold Qeq in Q. cbn [Qnum Qden inject_Z] in Q. rewrite Z.mul_1_r in Q. rewrite Q in X.
  rewrite Z.quot_mul in X by lia. congruence.
Qed.
Example C41_case :
  getv (built_from (machine [] "240101") [("timestart", VFloat (42500000000 # 10))]) "timestart" = VInt 4250000000 /\
  type_of "timestart" = TInt /\ plain_key "timestart" = true.
Proof. repeat split; vm_compute; reflexivity. Qed.
(** Enforcing the types twice is enforcing them once. *)
Theorem C41_idempotent : forall E E' c c', enforce_types E c = Ok c' -> enforce_types E' c' = Ok c'.
Proof.
  intros E E' c. induction c as [|e c IH]; intros c' H; [injection H as <-; reflexivity|].
  unfold enforce_types in *. cbn [mapM] in H. destruct (enforce_field E e) as [e'|] eqn:X; [|discriminate]. cbn [bind] in H.
  destruct (mapM (enforce_field E) c) as [d|]; [|discriminate]. cbn [bind] in H. injection H as <-.
  cbn [mapM]. rewrite (IH d eq_refl).
  assert (Y : enforce_field E' e' = Ok e'); [|rewrite Y; reflexivity].
  pose proof (enforce_key _ _ _ X) as K. destruct e as [k v], e' as [k' v']. cbn [fst] in K. subst k'.
  apply enforce_stored. apply enforce_stored in X. unfold stored in *. rewrite <- isinstance_type in *.
  destruct (isinstance v (type_of k)) eqn:T; [subst; now rewrite T|].
  apply convert_isinstance in X. now rewrite X.
Qed.
Example C41_idempotent_case : exists c', enforce_types (machine [] "240101") [("timestart", VFloat 10); ("write", VInt 0)] = Ok c'.
Proof. eexists. vm_compute. reflexivity. Qed.
(** "Raise error if invalid" fails: the text 'False' given for a switch turns it on, and a
    fraction given for an integer is cut. *)
Theorem C41_false_text_refuted : exists E c,
  Cfg E [("write", VStr "False"); ("timestep", VFloat (19 # 10))] = Ok c /\
  getv c "write" = VBool true /\ getv c "timestep" = VInt 1.
Proof. exists (machine [] "240101"). eexists. split; [vm_compute; reflexivity|]. split; reflexivity. Qed.
(** Nor is every failure the documented ValueError. *)
Theorem C41_error_kind_refuted : exists E,
  Cfg E [("timestep", VNone)] = Err TypeError /\ Cfg E [("timestep", VFloat (Inf false))] = Err OverflowError.
Proof. exists (machine [] "240101"). split; vm_compute; reflexivity. Qed.

(** *** C70: unknown options *)
Theorem C70_unknown_option : forall E kw k v, In (k, v) kw -> ~ In k options -> Cfg E kw = Err TypeError.
Proof.
  intros E kw k v I N. unfold Cfg.
  destruct (forallb (fun kv => is_field (fst kv)) kw) eqn:F; [|reflexivity]. exfalso.
  rewrite forallb_forall in F. specialize (F _ I). cbn [fst] in F. unfold is_field in F.
  apply existsb_exists in F as (f & F1 & F2). apply String.eqb_eq in F2. subst k. apply N.
  unfold options. now apply (in_map (fun f => fst (fst f))).
Qed.
(** The attributes that the class documents next to its options but that cannot be set. *)
Theorem C70_not_settable : forall k, In k ["dtype"; "rtol"; "ice_species"; "basin_impact_speed"] -> ~ In k options.
Proof.
  intros k H I.
  pose proof (forall_names (fun k => negb (existsb (String.eqb k) ["dtype"; "rtol"; "ice_species"; "basin_impact_speed"]))
    ltac:(vm_compute; reflexivity) k I) as X. cbv beta in X. apply negb_true_iff in X.
  assert (Y : existsb (String.eqb k) ["dtype"; "rtol"; "ice_species"; "basin_impact_speed"] = true).
  { apply existsb_exists. exists k. split; [exact H|apply String.eqb_refl]. }
  congruence.
Qed.

(** *** C42: the configuration for comets; C68: the saved configuration *)
Lemma rebuild_any : forall E E' kw c d z P, fair_draw E -> Cfg E kw = Ok c -> text_paths kw -> later E E' ->
  getv c "seed" = VInt z -> getv c "out_path" = VStr P -> contains (format_05d z) P = true ->
  map fst d = options -> (forall k, In k options -> has_type (getv d k) (type_of k) = true) ->
  (forall k, In k options -> path_key k = true \/ In k ["seed"; "mode"; "pole"] -> getv d k = getv c k) ->
  Cfg E' d = Ok (of_fun (rebuilt E' d P)).
Proof.
  intros E E' kw c d z P D H T L S O C K1 K2 K3. apply Cfg_built in H as (s & m & p & op & B).
  rewrite (seed_value _ _ _ _ _ _ _ B) in S. injection S as <-.
  apply rebuild with (E := E) (kw := kw) (c := c) (s := s) (m := m) (p := p) (op := op); auto.
  2: { intros k I. rewrite isinstance_type. auto. }
  exact (seed_nonzero _ _ _ D (b_seed _ _ _ _ _ _ _ B)).
Qed.
Lemma put_field : forall (d : cfg) k v, map fst d = options -> In k options -> put d k v = setv d k v.
Proof.
  intros d k v K I. unfold put. rewrite <- K in I. apply in_map_iff in I as (e & Q & J).
  assert (X : existsb (fun e => fst e =? k) d = true); [|now rewrite X].
  apply existsb_exists. exists e. split; [exact J|]. now apply String.eqb_eq.
Qed.
(** get_comet_cfg succeeds and changes the four comet options, the clock, and out_path: a
    slash is added to it when the directory exists.  Nothing else changes. *)
Theorem C42_comets : forall E E' kw c z P,
  fair_draw E -> Cfg E kw = Ok c -> text_paths kw -> later E E' ->
  getv c "seed" = VInt z -> getv c "out_path" = VStr P -> contains (format_05d z) P = true ->
  exists c', get_comet_cfg E' c = Ok c' /\ map fst c' = options /\
    getv c' "is_comet" = VBool true /\
    getv c' "hydrated_wt_pct" = getv c "comet_hydrated_wt_pct" /\
    getv c' "impactor_density" = getv c "comet_density" /\
    getv c' "impact_mass_retained" = getv c "comet_mass_retained" /\
    getv c' "run_date" = VStr (date_now E') /\ getv c' "run_time" = VStr (time_now E') /\
    getv c' "out_path" = VStr (if exists_ E' (P ++ "/") then P ++ "/" else P) /\
    forall k, In k options ->
      ~ In k ["is_comet"; "hydrated_wt_pct"; "impactor_density"; "impact_mass_retained"; "run_date"; "run_time"; "out_path"] ->
      getv c' k = getv c k.
Proof.
  intros E E' kw c z P D H T L S O C. destruct (C41_typed _ _ _ H) as (K & Ty).
  unfold get_comet_cfg, from_dict.
  rewrite (put_field c) by (auto; inn).
  set (d1 := setv c "is_comet" (VBool true)). assert (K1 : keys d1 = options) by (unfold d1; now rewrite keys_setv).
  rewrite (put_field d1) by (auto; inn). set (d2 := setv d1 _ _). assert (K2 : keys d2 = options) by (unfold d2; now rewrite keys_setv).
  rewrite (put_field d2) by (auto; inn). set (d3 := setv d2 _ _). assert (K3 : keys d3 = options) by (unfold d3; now rewrite keys_setv).
  rewrite (put_field d3) by (auto; inn). set (d4 := setv d3 _ _). assert (K4 : keys d4 = options) by (unfold d4; now rewrite keys_setv).
  assert (G : forall k, getv d4 k =
    if k =? "impact_mass_retained" then getv c "comet_mass_retained"
    else if k =? "impactor_density" then getv c "comet_density"
    else if k =? "hydrated_wt_pct" then getv c "comet_hydrated_wt_pct"
    else if k =? "is_comet" then VBool true else getv c k).
  { intros k. unfold d4. rewrite getv_setv by (rewrite K3; inn). destruct (k =? _); [reflexivity|].
    unfold d3. rewrite getv_setv by (rewrite K2; inn). destruct (k =? _); [reflexivity|].
    unfold d2. rewrite getv_setv by (rewrite K1; inn). destruct (k =? _); [reflexivity|].
    unfold d1. rewrite getv_setv by (change (keys c) with (map fst c); rewrite K; inn). reflexivity. }
  clearbody d4. clear d1 d2 d3 K1 K2 K3.
  exists (of_fun (rebuilt E' d4 P)). split; [|split; [apply keys_of_fun|]].
  - apply (rebuild_any E E' kw c d4 z P); auto.
    + intros k I. rewrite G.
      destruct (String.eqb_spec k "impact_mass_retained") as [->|]; [apply (Ty "comet_mass_retained"); inn|].
      destruct (String.eqb_spec k "impactor_density") as [->|]; [apply (Ty "comet_density"); inn|].
      destruct (String.eqb_spec k "hydrated_wt_pct") as [->|]; [apply (Ty "comet_hydrated_wt_pct"); inn|].
      destruct (String.eqb_spec k "is_comet") as [->|]; [reflexivity|auto].
    + intros k I J. rewrite G.
      assert (X : (k =? "impact_mass_retained") = false /\ (k =? "impactor_density") = false /\ (k =? "hydrated_wt_pct") = false /\ (k =? "is_comet") = false).
      { repeat split; apply String.eqb_neq; intros ->; (destruct J as [J|J]; [discriminate|cbn in J; intuition discriminate]). }
      destruct X as (-> & -> & -> & ->). reflexivity.
  - repeat (split; [rewrite getv_of_fun by inn; unfold rebuilt; rewrite ?G; reflexivity|]).
    intros k I N. rewrite getv_of_fun by exact I. unfold rebuilt. rewrite G.
    repeat match goal with |- context [k =? ?s] => destruct (String.eqb_spec k s); [exfalso; apply N; subst k; cbn; tauto|] end.
    reflexivity.
Qed.
Definition plain_run : cfg := [("seed", VInt 11); ("comet_density", VInt 500); ("crater_csv_in", VStr "my/craters.csv")].
Definition day1 : env := machine [] "240101".
Definition day2 : env := machine ["/work/out/240101/moonpies/00011"] "240102".
Lemma machine_later : forall l l' d d', incl l l' -> later (machine l d) (machine l' d').
Proof.
  intros l l' d d' I. constructor; try reflexivity.
  - intros p H. cbn in *. apply existsb_exists in H as (x & X & Y). apply existsb_exists. exists x. auto.
  - intros p H _. cbn in *. now rewrite rstrip_slash_app.
Qed.
Example C42_case : fair_draw day1 /\ later day1 day2 /\ text_paths plain_run /\
  getv (built_from day1 plain_run) "out_path" = VStr "/work/out/240101/moonpies/00011" /\
  getv (built_from day1 plain_run) "crater_csv_in" = VStr "/lib/moonpies/data/craters.csv" /\
  match get_comet_cfg day2 (built_from day1 plain_run) with
  | Ok c' => getv c' "out_path" = VStr "/work/out/240101/moonpies/00011/" /\ getv c' "impactor_density" = VFloat 500
  | Err _ => False
  end.
Proof.
  split; [unfold fair_draw; cbn; lia|]. split; [apply machine_later; easy|]. split.
  { intros k v L P. unfold plain_run in L. rewrite !lookup_cons in L.
    destruct (String.eqb_spec "seed" k); [subst; discriminate|].
    destruct (String.eqb_spec "comet_density" k); [subst; discriminate|].
    destruct (String.eqb_spec "crater_csv_in" k); [|discriminate]. injection L as <-.
    eexists. split; [reflexivity|right]. repeat split; discriminate. }
  split; [vm_compute; reflexivity|]. split; [vm_compute; reflexivity|]. vm_compute. auto.
Qed.
(** The out_path shows the seed whenever none was given or the one given did not show it. *)
Theorem C42_seed_shown : forall E kw c z p P, starts_slash (cwd E) = true ->
  Cfg E kw = Ok c -> getv c "seed" = VInt z ->
  start kw "out_path" = VStr p -> p = "" \/ contains (format_05d z) p = false ->
  getv c "out_path" = VStr P -> contains (format_05d z) P = true.
Proof.
  intros E kw c z p P C H S Op N G. apply last_part_contains; [|apply seed_plain].
  exact (C40_named_after_seed E kw c z p P C H S Op N G).
Qed.
(** An out_path that shows the seed only before a ".." breaks this: the comet configuration
    then points to other output files. *)
Theorem C42_dotdot_refuted : exists E kw c c',
  Cfg E kw = Ok c /\ get_comet_cfg E c = Ok c' /\
  getv c "ice_t_csv_out" = VStr "/a/b/ice_columns.csv" /\
  getv c' "ice_t_csv_out" = VStr "/a/b/00001/ice_columns.csv".
Proof.
  exists day1, [("seed", VInt 1); ("out_path", VStr "/a/00001/../b")]. eexists. eexists.
  split; [vm_compute; reflexivity|]. split; [vm_compute; reflexivity|]. split; reflexivity.
Qed.

(** The configuration file that a run saves, read later on the same machine, is the same
    configuration but for the clock and the slash at the end of out_path. *)
Theorem C68_saved_config : forall E E' kw c z P,
  fair_draw E -> Cfg E kw = Ok c -> text_paths kw -> later E E' ->
  getv c "seed" = VInt z -> getv c "out_path" = VStr P -> contains (format_05d z) P = true ->
  exists c', read_custom_cfg E' (Some c) None = Ok c' /\ map fst c' = options /\
    getv c' "out_path" = VStr (if exists_ E' (P ++ "/") then P ++ "/" else P) /\
    forall k, In k options -> ~ In k ["run_date"; "run_time"; "out_path"] -> getv c' k = getv c k.
Proof.
  intros E E' kw c z P D H T L S O C. destruct (C41_typed _ _ _ H) as (K & Ty).
  exists (of_fun (rebuilt E' c P)). split; [|split; [apply keys_of_fun|split]].
  - apply (rebuild_any E E' kw c c z P); auto.
  - rewrite getv_of_fun by inn. reflexivity.
  - intros k I N. rewrite getv_of_fun by exact I. unfold rebuilt.
    repeat match goal with |- context [k =? ?s] => destruct (String.eqb_spec k s); [exfalso; apply N; subst k; cbn; tauto|] end.
    reflexivity.
Qed.
Example C68_case : exists c', read_custom_cfg day2 (Some (built_from day1 plain_run)) None = Ok c' /\
  getv c' "crater_csv_in" = VStr "/lib/moonpies/data/craters.csv" /\ getv c' "comet_density" = VFloat 500.
Proof. eexists. split; [vm_compute; reflexivity|]. split; reflexivity. Qed.
(** A seed given on the command line does not move the outputs that the saved run left:
    their paths exist, so they are kept, and the second run overwrites the first. *)
Definition run1_files : list string :=
  ["/out/00001"; "/out/00001/ej_columns.csv"; "/out/00001/ice_columns.csv"].
(** A seed given on the command line with a saved configuration: the second run
    overwrites the outputs of the first. *)
Theorem C68_new_seed_overwrites_refuted : exists E E' c c',
  later E E' /\ Cfg E [("seed", VInt 1); ("out_path", VStr "/out")] = Ok c /\
  read_custom_cfg E' (Some c) (Some (VInt 2)) = Ok c' /\
  getv c "out_path" = VStr "/out/00001" /\ getv c' "out_path" = VStr "/out/00002" /\
  getv c "ice_t_csv_out" = VStr "/out/00001/ice_columns.csv" /\
  getv c' "ice_t_csv_out" = VStr "/out/00001/ice_columns.csv".
Proof.
  exists day1, (machine run1_files "240102"). eexists. eexists.
  split; [apply machine_later; easy|].
  split; [vm_compute; reflexivity|]. split; [vm_compute; reflexivity|]. repeat split; reflexivity.
Qed.

(** *** C69: where files are read and written *)

(** An output file goes to the output directory, under the name given, unless the path
    given exists; then it is that path. *)
Theorem C69_outputs : forall E kw c k v P, starts_slash (cwd E) = true ->
  Cfg E kw = Ok c -> text_paths kw -> In k options -> endswith "_out" k = true ->
  start kw k = VStr v -> getv c "out_path" = VStr P ->
  getv c k = VStr (if exists_ E v then v
                   else path_join (abspath (cwd E) (expanduser (home E) P)) (basename v)).
Proof.
  intros E kw c k v P C H T I K V O. apply Cfg_built in H as (s & m & p & op & B).
  rewrite (out_value _ _ _ _ _ _ _ B) in O. injection O as <-.
  assert (Pk : path_key k = true) by (unfold path_key; rewrite K, orb_true_r; reflexivity).
  assert (X : endswith "_path" k = false /\ endswith "_in" k = false).
  { pose proof (forall_names (fun k => negb (endswith "_out" k) || (negb (endswith "_path" k) && negb (endswith "_in" k)))
      ltac:(vm_compute; reflexivity) k I) as X. cbv beta in X. rewrite K in X. cbn [negb orb] in X.
    apply andb_prop in X as [X1 X2]. split; now apply negb_true_iff. }
  destruct X as (X1 & X2).
  destruct (start_paths kw "data_path" T ltac:(inn) eq_refl) as (t & ST & _).
  destruct (start_paths kw k T I Pk) as (v' & SV & N). rewrite V in SV. injection SV as <-. destruct N as [N|N]; [congruence|].
  destruct (b_mode _ _ _ _ _ _ _ B) as (r & M1 & M2). destruct (b_pole _ _ _ _ _ _ _ B) as (r' & P1 & P2).
  destruct (path_not_timed k Pk) as (Y1 & Y2 & Y3).
  destruct (path_value _ _ _ _ _ _ _ B t k v ST I Pk) as (dp & Q1 & Q2).
  { rewrite raw_row_free; [exact V| | |auto|auto|auto| | |]; try (intros ->; discriminate).
    - apply (path_no_row k r); auto.
    - apply (path_no_row k r'); auto. }
  rewrite Q2. f_equal. unfold settle at 1. destruct (exists_ E v); [reflexivity|].
  unfold target. rewrite X2, K. pose proof (names_plain v N) as Pl.
  rewrite resolve_join; [|exact C|exact (get_out_nonnil _ _ _ _ _ _ (b_out _ _ _ _ _ _ _ B))|exact Pl].
  fold (resolve (cwd E) (home E) (settle E op op)).
  assert (R : resolve (cwd E) (home E) (settle E op op) = resolve (cwd E) (home E) op).
  { unfold settle. destruct (exists_ E op); [reflexivity|]. now apply resolve_idem. }
  rewrite R. unfold addc. rewrite path_join_not; [reflexivity|apply noslash_starts, Pl|].
  intros Z. pose proof (resolve_starts (cwd E) (home E) op C) as Z'. rewrite Z in Z'. discriminate.
Qed.
(** An input file is read from the data directory, or from the path given if that exists. *)
Theorem C69_inputs : forall E kw c k v D, starts_slash (cwd E) = true ->
  Cfg E kw = Ok c -> text_paths kw -> In k options -> endswith "_in" k = true ->
  start kw k = VStr v -> getv c "data_path" = VStr D ->
  getv c k = VStr (if exists_ E v then v
                   else path_join (abspath (cwd E) (expanduser (home E) D)) (basename v)).
Proof.
  intros E kw c k v D C H T I K V O. apply Cfg_built in H as (s & m & p & op & B).
  assert (Pk : path_key k = true) by (unfold path_key; rewrite K; reflexivity).
  assert (X1 : endswith "_path" k = false).
  { pose proof (forall_names (fun k => negb (endswith "_in" k) || negb (endswith "_path" k))
      ltac:(vm_compute; reflexivity) k I) as X. cbv beta in X. rewrite K in X. cbn [negb orb] in X.
    now apply negb_true_iff. }
  destruct (start_paths kw "data_path" T ltac:(inn) eq_refl) as (t & ST & _).
  destruct (start_paths kw k T I Pk) as (v' & SV & N). rewrite V in SV. injection SV as <-. destruct N as [N|N]; [congruence|].
  destruct (b_mode _ _ _ _ _ _ _ B) as (r & M1 & M2). destruct (b_pole _ _ _ _ _ _ _ B) as (r' & P1 & P2).
  destruct (path_not_timed k Pk) as (Y1 & Y2 & Y3).
  destruct (path_value _ _ _ _ _ _ _ B t k v ST I Pk) as (dp & Q1 & Q2).
  { rewrite raw_row_free; [exact V| | |auto|auto|auto| | |]; try (intros ->; discriminate).
    - apply (path_no_row k r); auto.
    - apply (path_no_row k r'); auto. }
  destruct (data_nonnil E t) as (dp' & D1 & D2). rewrite D1 in Q1. injection Q1 as <-.
  destruct (path_value _ _ _ _ _ _ _ B t "data_path" dp' ST ltac:(inn) eq_refl) as (dq & R1 & R2).
  { unfold raw. cbn -[get_data_path start]. rewrite ST. exact D1. }
  change (target dq op "data_path" dp') with dp' in R2. rewrite R2 in O. injection O as <-.
  rewrite Q2. f_equal. unfold settle at 1. destruct (exists_ E v); [reflexivity|].
  unfold target. rewrite K. pose proof (names_plain v N) as Pl.
  rewrite resolve_join by auto.
  fold (resolve (cwd E) (home E) (settle E dp' dp')).
  assert (R : resolve (cwd E) (home E) (settle E dp' dp') = resolve (cwd E) (home E) dp').
  { unfold settle. destruct (exists_ E dp'); [reflexivity|]. now apply resolve_idem. }
  rewrite R. unfold addc. rewrite path_join_not; [reflexivity|apply noslash_starts, Pl|].
  intros Z. pose proof (resolve_starts (cwd E) (home E) dp' C) as Z'. rewrite Z in Z'. discriminate.
Qed.
Example C69_case :
  getv (built_from day1 plain_run) "ice_t_csv_out" = VStr "/work/out/240101/moonpies/00011/ice_columns.csv" /\
  getv (built_from (machine ["my/craters.csv"] "240101") plain_run) "crater_csv_in" = VStr "my/craters.csv".
Proof. split; vm_compute; reflexivity. Qed.
(** A file that happens to have the default name in the working directory captures the
    output of a default run: it is not written to the output directory. *)
Theorem C69_captured_refuted : exists E c, Cfg E [] = Ok c /\
  getv c "out_path" = VStr "/work/out/240101/moonpies/04242" /\ getv c "ice_t_csv_out" = VStr "ice_columns.csv".
Proof.
  exists (machine ["ice_columns.csv"] "240101"). eexists. split; [vm_compute; reflexivity|]. split; reflexivity.
Qed.

(** *** C67: the default configuration file *)

(** The file of make_default_cfg, written on one machine and read on another, gives the
    default configuration there. *)
Theorem C67_default_file : forall E E' d, starts_slash (cwd E) = true ->
  default_file E = Ok d -> read_custom_cfg E' (Some d) None = Cfg E' [].
Proof. exact default_file_back. Qed.
(** It is always written, the default configuration always exists, and the file fixes no
    directory and no seed. *)
Theorem C67_portable : forall E, starts_slash (cwd E) = true ->
  exists d c, default_file E = Ok d /\ Cfg E [] = Ok c /\
  lookup "seed" d = None /\
  forall k v, lookup k d = Some v -> path_key k = true -> exists s, v = VStr s /\ contains "/" s = false.
Proof.
  intros E C. rewrite default_file_eq by exact C. rewrite default_cfg. eexists. eexists.
  split; [reflexivity|]. split; [reflexivity|]. split.
  - apply lookup_none. unfold keys. rewrite map_map, map_id. intros Y. apply filter_In in Y as (_ & Y). discriminate.
  - intros k v L P. apply lookup_some_in in L. apply in_map_iff in L as (k' & Q & I).
    assert (Q1 : k' = k) by congruence. assert (Q2 : v = dfile k') by congruence. subst k' v. clear Q.
    apply filter_In in I as (I & _). unfold dfile. rewrite P, orb_true_r.
    pose proof (forall_names (fun k => negb (path_key k) || match default_of k with VStr t => negb (contains "/" t) | _ => false end)
      ltac:(vm_compute; reflexivity) k I) as X. cbv beta in X. rewrite P in X. cbn [negb orb] in X.
    destruct (default_of k); try discriminate. eexists. split; [reflexivity|]. now apply negb_true_iff.
Qed.
Example C67_case : exists d, default_file day1 = Ok d /\ lookup "pole" d = Some (VStr "s") /\
  lookup "crater_csv_in" d = Some (VStr "crater_list.csv") /\ lookup "coldtrap_area_CO2" d = Some (VFloat 104000000).
Proof. eexists. split; [vm_compute; reflexivity|]. repeat split; reflexivity. Qed.

Print Assumptions C38_seed.
Print Assumptions C38_seed_kept.
Print Assumptions C38_command_line_wins.
Print Assumptions C38_infinite_seed_refuted.
Print Assumptions C39_user_wins.
Print Assumptions C39_mode_fills.
Print Assumptions C39_pole_fills.
Print Assumptions C39_unknown_mode.
Print Assumptions C39_unknown_pole.
Print Assumptions C39_mode_speed_refuted.
Print Assumptions C40_named_after_seed.
Print Assumptions C40_seeds_separate.
Print Assumptions C40_under_given.
Print Assumptions C40_default.
Print Assumptions C40_shown_seed_kept.
Print Assumptions C40_two_seeds_refuted.
Print Assumptions C40_numeric_directory_refuted.
Print Assumptions C41_typed.
Print Assumptions C41_kept.
Print Assumptions C41_whole_floats.
Print Assumptions C41_idempotent.
Print Assumptions C41_false_text_refuted.
Print Assumptions C41_error_kind_refuted.
Print Assumptions C70_unknown_option.
Print Assumptions C70_not_settable.
Print Assumptions C42_comets.
Print Assumptions C42_seed_shown.
Print Assumptions C42_dotdot_refuted.
Print Assumptions C68_saved_config.
Print Assumptions C68_new_seed_overwrites_refuted.
Print Assumptions C69_outputs.
Print Assumptions C69_inputs.
Print Assumptions C69_captured_refuted.
Print Assumptions C67_default_file.
Print Assumptions C67_portable.
