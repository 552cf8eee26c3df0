(** Proofs about all figures. *)
From Coq Require Import ZArith Bool Ascii String List Reals Lra Lia Permutation.
From Verif Require Import Base Model_Path Model_Strat Model_Figure Model_Save Model_Collect Model_Shown Model_Columns Model_All
  Spec_Figure Spec_Shown Spec_All Proofs_Base Proofs_Path Proofs_Cmap Proofs_Collect Proofs_Shown.
Import ListNotations.
Open Scope R_scope.
Open Scope list_scope.

(** ** Texts *)
Lemma str_length a b : String.length (a ++ b) = (String.length a + String.length b)%nat.
Proof. induction a; cbn; auto. Qed.
Lemma app_same_tail a b e f : String.length e = String.length f -> (a ++ e = b ++ f)%string -> a = b /\ e = f.
Proof.
  intros L. revert b. induction a as [|x a IH]; intros [|y b] E; cbn [append] in E.
  - auto.
  - subst e. cbn [String.length] in L. rewrite str_length in L. lia.
  - subst f. cbn [String.length] in L. rewrite str_length in L. lia.
  - injection E as -> E. apply IH in E as [-> ->]. auto.
Qed.
Lemma prefix_app a b : String.prefix a (a ++ b) = true.
Proof. induction a as [|x a IH]; [now destruct b|]. cbn. destruct (ascii_dec x x); [exact IH|congruence]. Qed.

(** ** File names *)
Definition names_ok (n : string) : bool :=
  negb (String.eqb n "") && negb (String.eqb n ".") && negb (String.eqb n "..") && noslash n.
Lemma names_plain n : names_ok n = true -> plainc n.
Proof.
  unfold names_ok. rewrite !andb_true_iff, !negb_true_iff. intros (((A & B) & C) & D).
  apply String.eqb_neq in A, B, C. split; auto.
Qed.

(** The names that a function may give to its file. *)
Definition base (f : figure) : string := if String.eqb (fg_csv f) "" then fg_fsave f else basename (fg_csv f).
Definition may_be (ver : string) (f : figure) (y : string) : Prop :=
  y = base f \/ (fg_version f = true /\ y = (fst (split_name (base f)) ++ "_v" ++ ver ++ snd (split_name (base f)))%string).

Lemma fig_asked figdir n : plainc n -> asked figdir n (starts_slash figdir) (path_parts figdir) n.
Proof.
  intros P. pose proof P as (N & _ & _ & S). right. split; [destruct n; [reflexivity|]; cbn [noslash starts_slash] in *; now destruct (Ascii.eqb a slash)|].
  split; [reflexivity|]. exists []. rewrite (parts_plain n P). split; [reflexivity|]. now rewrite app_nil_r.
Qed.

Lemma saved_name figdir n ver : plainc n ->
  exists y, figure_file figdir n ver = Ok (Some (mk_ppath (starts_slash figdir) (path_parts figdir ++ [y]))) /\
    ((y = n /\ occurs ver (as_posix (mk_ppath (starts_slash figdir) (path_parts figdir ++ [n])))) \/
     (y = (fst (split_name n) ++ "_" ++ ver ++ snd (split_name n))%string /\
      ~ occurs ver (as_posix (mk_ppath (starts_slash figdir) (path_parts figdir ++ [n]))))).
Proof.
  intros P. pose proof (fig_asked figdir n P) as A. unfold figure_file. pose proof (asked_name _ _ _ _ _ A) as N. apply String.eqb_neq in N. rewrite N.
  rewrite (asked_under _ _ _ _ _ A). cbn [parts rooted]. destruct (contains ver _) eqn:C.
  - exists n. apply contains_occurs in C. auto.
  - rewrite rev_app_distr. cbn [rev app]. destruct (split_name n) as [b e]. rewrite rev_involutive. cbn [fst snd].
    eexists. split; [reflexivity|]. right. split; [reflexivity|]. rewrite <- contains_occurs. congruence.
Qed.

Lemma occurs_nil t : occurs "" t.
Proof. exists ""%string, t. reflexivity. Qed.

Lemma writes_fig figdir ver f : fg_csv f = ""%string -> plainc (fg_fsave f) ->
  exists y, writes figdir ver f = Ok [mk_ppath (starts_slash figdir) (path_parts figdir ++ [y])] /\ may_be ver f y /\
    (fg_version f = false -> y = fg_fsave f) /\
    (occurs ("v" ++ ver) (as_posix (mk_ppath (starts_slash figdir) (path_parts figdir ++ [fg_fsave f]))) -> y = fg_fsave f).
Proof.
  intros C P. unfold writes. rewrite C. cbn [String.eqb app].
  destruct (saved_name figdir (fg_fsave f) (if fg_version f then ("v" ++ ver)%string else ""%string) P) as (y & E & H).
  rewrite E. cbn [bind]. exists y. split; [reflexivity|]. unfold may_be, base. rewrite C. cbn [String.eqb].
  destruct (fg_version f) eqn:V.
  - destruct H as [[-> O]|[-> O]]; [auto|]. split; [right; split; [reflexivity|reflexivity]|]. split; [discriminate|]. intros K. now elim O.
  - destruct H as [[-> O]|[-> O]]; [auto|]. elim O. apply occurs_nil.
Qed.

Lemma writes_csv figdir ver f : fg_csv f <> ""%string -> fg_fsave f = ""%string -> parts (to_path (fg_csv f)) = [basename (fg_csv f)] ->
  exists p, writes figdir ver f = Ok [p] /\ file_name p = base f.
Proof.
  intros C S P. unfold writes. rewrite S. apply String.eqb_neq in C. rewrite C. cbn -[to_path]. exists (to_path (fg_csv f)).
  split; [reflexivity|]. unfold file_name, base. rewrite P, C. reflexivity.
Qed.

Definition fig_ok (f : figure) : bool :=
  if String.eqb (fg_csv f) "" then names_ok (fg_fsave f)
  else String.eqb (fg_fsave f) "" && match parts (to_path (fg_csv f)) with [n] => String.eqb n (basename (fg_csv f)) | _ => false end.

Lemma writes_one figdir ver f : fig_ok f = true -> exists p, writes figdir ver f = Ok [p] /\ may_be ver f (file_name p).
Proof.
  unfold fig_ok. destruct (String.eqb_spec (fg_csv f) "") as [C|C]; intros H.
  - destruct (writes_fig figdir ver f C (names_plain _ H)) as (y & E & M & _). eexists. split; [exact E|].
    unfold file_name. cbn [parts]. rewrite last_last. exact M.
  - apply andb_prop in H as [S H]. apply String.eqb_eq in S.
    destruct (parts (to_path (fg_csv f))) as [|n [|? ?]] eqn:Q; try discriminate. apply String.eqb_eq in H. subst n.
    destruct (writes_csv figdir ver f C S Q) as (p & E & F). exists p. split; [exact E|]. left. exact F.
Qed.

Lemma all_ok : forallb fig_ok FIGURES = true.
Proof. vm_compute. reflexivity. Qed.

(** Endings have four characters, and no name is that of another with a version. *)
Definition apart (f g : figure) : bool :=
  Nat.eqb (String.length (snd (split_name (base f)))) (String.length (snd (split_name (base g)))) &&
  negb (String.prefix (fst (split_name (base g)) ++ "_v") (base f)).
Lemma all_apart : forallb (fun f => forallb (apart f) FIGURES) FIGURES = true.
Proof. vm_compute. reflexivity. Qed.
Lemma apart_ok f g : In f FIGURES -> In g FIGURES -> apart f g = true.
Proof.
  intros F G. pose proof all_apart as H. rewrite forallb_forall in H. specialize (H f F). cbv beta in H. rewrite forallb_forall in H. auto.
Qed.
Lemma bases_nodup : NoDup (map base FIGURES).
Proof.
  assert (H : nodup string_dec (map base FIGURES) = map base FIGURES) by (vm_compute; reflexivity).
  rewrite <- H. apply NoDup_nodup.
Qed.
Lemma fnames_nodup : NoDup (map fg_name FIGURES).
Proof.
  assert (H : nodup string_dec (map fg_name FIGURES) = map fg_name FIGURES) by (vm_compute; reflexivity).
  rewrite <- H. apply NoDup_nodup.
Qed.

Lemma base_split f : base f = (fst (split_name (base f)) ++ snd (split_name (base f)))%string.
Proof. apply split_name_app. Qed.

Lemma one_base ver f g y : In f FIGURES -> In g FIGURES -> may_be ver f y -> may_be ver g y -> base f = base g.
Proof.
  intros F G [->|[_ ->]] [E|[_ E]].
  - exact E.
  - pose proof (apart_ok f g F G) as A. apply andb_prop in A as [_ A]. rewrite E in A at 1.
    rewrite <- app_assoc_s in A. rewrite prefix_app in A. discriminate.
  - pose proof (apart_ok g f G F) as A. apply andb_prop in A as [_ A]. rewrite <- E in A at 1.
    rewrite <- app_assoc_s in A. rewrite prefix_app in A. discriminate.
  - pose proof (apart_ok f g F G) as A. apply andb_prop in A as [A _]. apply Nat.eqb_eq in A.
    rewrite <- !app_assoc_s in E. apply (app_same_tail _ _ _ _ A) in E as [E X].
    apply string_app_inj in E. apply string_app_inj in E. rewrite (base_split f), (base_split g). congruence.
Qed.

Lemma gen_ok figdir ver : forall F, (forall f, In f F -> In f FIGURES) -> NoDup (map base F) ->
  exists files, mapM (fun f => let* w := writes figdir ver f in Ok (fg_name f, w)) F = Ok files /\
    map fst files = map fg_name F /\ Forall (fun e => length (snd e) = 1%nat) files /\
    NoDup (map file_name (flat_map snd files)) /\
    (forall y, In y (map file_name (flat_map snd files)) -> exists f, In f F /\ may_be ver f y) /\
    (forall f w, In f F -> writes figdir ver f = Ok w -> In (fg_name f, w) files).
Proof.
  induction F as [|f F IH]; intros HI HN.
  - exists []. repeat split; try constructor; cbn; contradiction.
  - cbn [map] in HN. apply NoDup_cons_iff in HN as [HN1 HN2]. destruct IH as (files & E & E1 & E2 & E3 & E4 & E5); auto.
    { intros g Hg. apply HI. now right. }
    destruct (writes_one figdir ver f) as (p & W & M).
    { pose proof all_ok as H. rewrite forallb_forall in H. apply H, HI. now left. }
    exists ((fg_name f, [p]) :: files). cbn [mapM]. rewrite W, E. cbn [bind map fst flat_map snd app].
    split; [reflexivity|]. split; [congruence|]. split; [constructor; auto|]. split.
    + constructor; [|exact E3]. intros K. destruct (E4 _ K) as (g & Hg & Mg). apply HN1.
      rewrite (one_base ver f g (file_name p)); auto; [now apply in_map|apply HI; now left|apply HI; now right].
    + split.
      * intros y [<-|K]; [exists f; split; [now left|exact M]|]. destruct (E4 _ K) as (g & Hg & Mg). exists g. split; [now right|exact Mg].
      * intros g w [<-|K] Wg; [left; congruence|right; auto].
Qed.

(** ** The default directory *)
Lemma noslash_app a b : noslash (a ++ b) = noslash a && noslash b.
Proof. induction a as [|x a IH]; [reflexivity|]. cbn [append noslash]. now rewrite IH, andb_assoc. Qed.
Lemma not_occurs_slash n : ~ occurs "/" n -> noslash n = true.
Proof.
  induction n as [|c n IH]; [reflexivity|]. intros V. cbn [noslash]. destruct (Ascii.eqb_spec c slash) as [->|N].
  - elim V. exists EmptyString, n. reflexivity.
  - cbn [negb andb]. apply IH. intros (a & b & ->). apply V. exists (String c a), b. reflexivity.
Qed.
Lemma day_plainc date ver : noslash date = true -> noslash ver = true -> plainc (date ++ "_v" ++ ver).
Proof.
  intros D V. split; [now destruct date|]. split; [destruct date as [|? [|? ?]]; cbn; congruence|].
  split; [destruct date as [|? [|? [|? ?]]]; cbn; congruence|]. rewrite !noslash_app, D, V. reflexivity.
Qed.
Lemma figdir_path figs date ver : noslash date = true -> noslash ver = true ->
  starts_slash (FIGDIR figs date ver) = starts_slash figs /\ path_parts (FIGDIR figs date ver) = path_parts figs ++ [(date ++ "_v" ++ ver)%string].
Proof.
  intros D V. pose proof (day_plainc date ver D V) as P. pose proof P as (_ & _ & _ & NS). set (n := (date ++ "_v" ++ ver)%string) in *.
  assert (S : starts_slash n = false) by (destruct n as [|a n]; [reflexivity|]; cbn [noslash starts_slash] in *; now destruct (Ascii.eqb a slash)).
  unfold FIGDIR. fold n. split.
  - unfold path_join. rewrite S. destruct figs as [|c figs]; [exact S|]. destruct (ends_slash (String c figs)); reflexivity.
  - rewrite parts_join by exact S. now rewrite (parts_plain n P).
Qed.
Lemma occurs_app_l a b c : occurs a b -> occurs a (b ++ c).
Proof. intros (x & y & ->). exists x, (y ++ c)%string. now rewrite !app_assoc_s. Qed.
Lemma occurs_app_r a b c : occurs a b -> occurs a (c ++ b).
Proof. intros (x & y & ->). exists (c ++ x)%string, y. now rewrite !app_assoc_s. Qed.
Lemma occurs_dir root l n x : occurs n (as_posix (mk_ppath root (l ++ [n] ++ [x]))).
Proof.
  assert (J : occurs n (join_path ((l ++ [n]) ++ [x]))).
  { rewrite join_app. destruct (l ++ [n]) as [|z zs] eqn:Q; [now destruct l|]. rewrite <- Q. apply occurs_app_l, occurs_part. }
  rewrite app_assoc. unfold as_posix. cbn [rooted parts]. destruct root; [now apply occurs_app_r|].
  destruct ((l ++ [n]) ++ [x]) as [|z zs] eqn:Q; [now destruct (l ++ [n])|exact J].
Qed.

Lemma default_file figs date ver f : noslash date = true -> noslash ver = true -> In f FIGURES -> fg_fsave f <> ""%string ->
  writes (FIGDIR figs date ver) ver f
  = Ok [mk_ppath (starts_slash figs) (path_parts figs ++ [date ++ "_v" ++ ver; fg_fsave f]%string)].
Proof.
  intros D V F N. pose proof all_ok as H. rewrite forallb_forall in H. specialize (H f F). unfold fig_ok in H.
  destruct (String.eqb_spec (fg_csv f) "") as [C|C].
  - destruct (figdir_path figs date ver D V) as [P1 P2].
    destruct (writes_fig (FIGDIR figs date ver) ver f C (names_plain _ H)) as (y & E & _ & _ & Y).
    rewrite E, P1, P2, <- app_assoc. rewrite Y; [reflexivity|]. rewrite P1, P2, <- app_assoc.
    apply (occurs_trans _ (date ++ "_v" ++ ver)); [|apply occurs_dir].
    exists (date ++ "_")%string, ""%string. rewrite app_nil_s, app_assoc_s. reflexivity.
  - apply andb_prop in H as [S _]. apply String.eqb_eq in S. contradiction.
Qed.
