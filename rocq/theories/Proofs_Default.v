(** The default configuration file gives the default configuration. *)
From Coq Require Import ZArith QArith Lia Bool Ascii String List.
From Verif Require Import Base Proofs_Base Model_Path Proofs_Path Model_Cfg Spec_Cfg Proofs_Cfg Proofs_Rebuild.
Import ListNotations.
Open Scope string_scope.

Definition m0 : list (string * val) := match lookup "moonpies" MODE_DEFAULTS with Some r => r | None => [] end.
Definition p0 : list (string * val) := match lookup "s" POLE_DEFAULTS with Some r => r | None => [] end.
Definition env0 : env := {|
  cwd := "/"; home := "/"; exists_ := fun _ => false; package_data := "/"; date_now := ""; time_now := "";
  draw := 1; str_of := fun _ => ""; parse_int := fun _ => None; parse_float := fun _ => None |}.
Definition dval (k : string) : val :=
  match enforce_field env0 (k, filled p0 k (filled m0 k (default_of k))) with Ok (_, w) => w | Err _ => VNone end.
Definition dropped (k : string) : bool :=
  existsb (String.eqb k) (["seed"; "run_time"; "run_date"] ++ map fst m0)%list.
(** What an option is in the default file. *)
Definition dfile (k : string) : val :=
  if dropped k || path_key k then default_of k else dval k.

Lemma plain_default : forall E k, In k field_names -> plain_key k = true ->
  enforce_field E (k, filled p0 k (filled m0 k (default_of k))) = Ok (k, dval k) /\
  enforce_field E (k, filled p0 k (filled m0 k (dfile k))) = Ok (k, dval k).
Proof.
  intros E.
  assert (F : Forall (fun k => plain_key k = true ->
    enforce_field E (k, filled p0 k (filled m0 k (default_of k))) = Ok (k, dval k) /\
    enforce_field E (k, filled p0 k (filled m0 k (dfile k))) = Ok (k, dval k)) field_names);
    [|rewrite Forall_forall in F; exact F].
  let l := eval vm_compute in field_names in change field_names with l.
  repeat (apply Forall_cons; [first [intros _; split; vm_compute; reflexivity | intros X; vm_compute in X; discriminate]|]).
  apply Forall_nil.
Qed.

Definition op0 (E : env) : string :=
  path_join (path_join (path_join (path_join (cwd E) "out") (date_now E)) "moonpies") (format_05d (draw E)) ++ "/".
Definition dfinal (E : env) (k : string) : val :=
  if plain_key k then dval k
  else match make_field_absolute E (get_data_path E (VStr "")) (VStr (op0 E)) (k, raw E [] (draw E) m0 p0 (op0 E) k) with
       | Ok (_, v) => v
       | Err _ => VNone
       end.

Lemma plain_split : forall k, plain_key k = false -> path_key k = true \/ k = "seed" \/ k = "run_date" \/ k = "run_time".
Proof.
  intros k H. unfold plain_key in H. apply negb_false_iff in H.
  apply orb_prop in H as [H|H]; [|apply String.eqb_eq in H; auto].
  apply orb_prop in H as [H|H]; [|apply String.eqb_eq in H; auto].
  apply orb_prop in H as [H|H]; [|apply String.eqb_eq in H; auto]. auto.
Qed.
Lemma plain_path : forall k, plain_key k = true -> path_key k = false /\ k <> "seed" /\ k <> "run_date" /\ k <> "run_time".
Proof.
  intros k H. unfold plain_key in H. apply negb_true_iff in H.
  apply orb_false_iff in H as [H H1]. apply orb_false_iff in H as [H H2]. apply orb_false_iff in H as [H H3].
  apply String.eqb_neq in H1, H2, H3. auto.
Qed.
Lemma raw_path_str : forall E k, In k field_names -> path_key k = true -> exists v, raw E [] (draw E) m0 p0 (op0 E) k = VStr v.
Proof.
  intros E k I P. destruct (in_split_path k I P) as [[-> |[-> | ->]]|(A & B & C & D)].
  - cbn -[get_data_path]. eexists. reflexivity.
  - eexists. reflexivity.
  - cbn -[get_figs_path]. eexists. reflexivity.
  - destruct (default_paths k I P) as (t & T & _). destruct (path_not_timed k P) as (X1 & X2 & X3).
    exists t. rewrite raw_row_free; auto.
    + apply (path_no_row k "moonpies"); auto.
    + apply (path_no_row k "s"); auto.
Qed.

(** Any arguments that agree with the defaults on the paths and give the same plain options. *)
Lemma same_default : forall E d,
  forallb (fun kv => is_field (fst kv)) d = true ->
  (forall k, In k field_names -> plain_key k = false -> start d k = default_of k) ->
  (forall k, In k field_names -> plain_key k = true -> enforce_field E (k, filled p0 k (filled m0 k (start d k))) = Ok (k, dval k)) ->
  start d "mode" = VStr "moonpies" -> start d "pole" = VStr "s" -> start d "run_name" = VStr "moonpies" ->
  Cfg E d = Ok (of_fun (dfinal E)).
Proof.
  intros E d F Pa Pl M P N. apply built_Cfg with (s := draw E) (m := m0) (p := p0) (op := op0 E). constructor.
  - exact F.
  - rewrite Pa by (try reflexivity; inn). reflexivity.
  - exists "moonpies". auto.
  - exists "s". auto.
  - rewrite Pa by (try reflexivity; inn). rewrite N. reflexivity.
  - apply keys_of_fun.
  - intros k I. rewrite getv_of_fun by exact I.
    rewrite (Pa "data_path") by (try reflexivity; inn). change (default_of "data_path") with (VStr "").
    destruct (plain_key k) eqn:K.
    + destruct (plain_path k K) as (K1 & K2 & K3 & K4).
      exists (filled p0 k (filled m0 k (start d k))). split.
      * rewrite make_nonpath by exact K1. f_equal. f_equal. unfold raw.
        apply String.eqb_neq in K2, K3, K4. rewrite K2, K3, K4.
        assert (X : (k =? "figs_path") = false /\ (k =? "out_path") = false /\ (k =? "data_path") = false)
          by (repeat split; apply String.eqb_neq; intros ->; discriminate).
        destruct X as (-> & -> & ->). reflexivity.
      * unfold dfinal. rewrite K. now apply Pl.
    + assert (R : raw E d (draw E) m0 p0 (op0 E) k = raw E [] (draw E) m0 p0 (op0 E) k).
      { unfold raw. rewrite Pa by auto. reflexivity. }
      rewrite R. unfold dfinal. rewrite K.
      destruct (plain_split k K) as [K'|[-> |[-> | ->]]].
      * destruct (raw_path_str E k I K') as (v & V). rewrite V.
        change (get_data_path E (VStr "")) with (VStr (package_data E ++ "/")). rewrite make_path by exact K'.
        eexists. split; [reflexivity|]. apply enforce_stored. unfold stored. rewrite (path_type k I K'). reflexivity.
      * eexists. split; reflexivity.
      * eexists. split; reflexivity.
      * eexists. split; reflexivity.
Qed.
Lemma default_cfg : forall E, Cfg E [] = Ok (of_fun (dfinal E)).
Proof.
  intros E. apply same_default; try reflexivity.
  intros k I K. apply (plain_default E k I K).
Qed.

Lemma default_file_eq : forall E, starts_slash (cwd E) = true ->
  default_file E = Ok (map (fun k => (k, dfile k)) (filter (fun k => negb (dropped k)) field_names)).
Proof.
  intros E C. unfold default_file. rewrite default_cfg. cbn [bind]. f_equal.
  change (match lookup "moonpies" MODE_DEFAULTS with Some r => map fst r | None => [] end) with (map fst m0).
  unfold of_fun.
  assert (FM : forall l, filter (fun e : string * val => negb (existsb (String.eqb (fst e)) (["seed"; "run_time"; "run_date"] ++ map fst m0)%list))
             (map (fun k => (k, dfinal E k)) l) = map (fun k => (k, dfinal E k)) (filter (fun k => negb (dropped k)) l)).
  { induction l as [|a l IH]; [reflexivity|]. cbn [map filter fst]. fold (dropped a). rewrite IH. now destruct (negb (dropped a)). }
  rewrite FM, map_map. apply map_ext_in. intros k I. apply filter_In in I as (I & D). cbn [fst snd]. f_equal.
  apply negb_true_iff in D. unfold dfile. rewrite D. cbn [orb].
  assert (CP : contains "path" k = endswith "_path" k).
  { apply eqb_prop. apply (forall_names (fun k => Bool.eqb (contains "path" k) (endswith "_path" k)) ltac:(vm_compute; reflexivity) k I). }
  rewrite CP. destruct (endswith "_path" k) eqn:EP.
  - destruct (path_names k I EP) as [-> |[-> | ->]]; reflexivity.
  - destruct (endswith "_in" k || endswith "_out" k) eqn:IO.
    + assert (PK : path_key k = true) by (unfold path_key; now rewrite IO).
      rewrite PK. unfold dfinal, plain_key. rewrite PK. cbn [orb negb].
      destruct (default_paths k I PK) as (t & T & Nm). destruct Nm as [Nm|Nm]; [congruence|].
      destruct (path_not_timed k PK) as (X1 & X2 & X3).
      assert (R : raw E [] (draw E) m0 p0 (op0 E) k = VStr t).
      { rewrite raw_row_free; auto; try (intros ->; discriminate).
        - apply (path_no_row k "moonpies"); auto.
        - apply (path_no_row k "s"); auto. }
      rewrite R. change (get_data_path E (VStr "")) with (VStr (package_data E ++ "/")). rewrite make_path by exact PK.
      assert (Bt : basename t = t).
      { pose proof (forall_names (fun k => negb (path_key k) || match default_of k with VStr t => basename t =? t | _ => false end)
          ltac:(vm_compute; reflexivity) k I) as X. cbv beta in X. rewrite PK, T in X. now apply String.eqb_eq in X. }
      rewrite T. f_equal. unfold settle. destruct (exists_ E t); [exact Bt|].
      unfold target. pose proof (names_plain t Nm) as Pl.
      destruct (endswith "_in" k); [|destruct (endswith "_out" k); [|discriminate]].
      * rewrite resolve_join; [|exact C|destruct (package_data E); discriminate|exact Pl].
        rewrite basename_addc by apply Pl. exact Bt.
      * rewrite resolve_join; [|exact C|unfold op0; destruct (path_join _ _); discriminate|exact Pl].
        rewrite basename_addc by apply Pl. exact Bt.
    + assert (PK : path_key k = false) by (unfold path_key; now rewrite IO, EP).
      rewrite PK. unfold dfinal. destruct (plain_key k) eqn:K; [reflexivity|].
      destruct (plain_split k K) as [K'|[-> |[-> | ->]]]; [congruence|discriminate..].
Qed.
Lemma default_file_back : forall E E' d, starts_slash (cwd E) = true -> default_file E = Ok d -> Cfg E' d = Cfg E' [].
Proof.
  intros E E' d C D. rewrite default_file_eq in D by exact C.
  assert (Q : forall x y : cfg, Ok x = Ok y -> y = x) by congruence. apply Q in D. rewrite D. clear Q D.
  rewrite default_cfg.
  assert (St : forall k, In k field_names -> start (map (fun k => (k, dfile k)) (filter (fun k => negb (dropped k)) field_names)) k = dfile k).
  { intros k I. unfold start. destruct (dropped k) eqn:Dk.
    - assert (X : lookup k (map (fun k => (k, dfile k)) (filter (fun k => negb (dropped k)) field_names)) = None).
      { apply lookup_none. unfold keys. rewrite map_map, map_id. intros Y. apply filter_In in Y as (_ & Y). rewrite Dk in Y. discriminate. }
      rewrite X. unfold dfile. now rewrite Dk.
    - assert (X : forall l, In k l -> lookup k (map (fun k => (k, dfile k)) l) = Some (dfile k)).
      { induction l as [|a l IH]; [easy|]. intros J. cbn [map]. rewrite lookup_cons.
        destruct (String.eqb_spec a k); [now subst|]. apply IH. now destruct J. }
      rewrite X; [reflexivity|]. apply filter_In. now rewrite Dk. }
  apply same_default.
  - apply forallb_forall. intros [k v] I. apply in_map_iff in I as (k' & Q & I). injection Q as -> _.
    apply filter_In in I as (I & _). cbn [fst]. unfold is_field. unfold field_names in I. apply in_map_iff in I as (f & <- & J).
    apply existsb_exists. exists f. now rewrite String.eqb_refl.
  - intros k I K. rewrite St by exact I. unfold dfile.
    destruct (plain_split k K) as [K'|[-> |[-> | ->]]]; [now rewrite K', orb_true_r|reflexivity..].
  - intros k I K. rewrite St by exact I. apply (plain_default E' k I K).
  - rewrite St by inn. reflexivity.
  - rewrite St by inn. reflexivity.
  - rewrite St by inn. reflexivity.
Qed.
