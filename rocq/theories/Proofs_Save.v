From Coq Require Import String List Bool Arith Lia.
From Verif Require Import Base Model_Save Spec_Save Proofs_Base.
Import ListNotations.

Lemma path_eqb_true p q : path_eqb p q = true <-> p = q.
Proof. unfold path_eqb. destruct (list_eq_dec string_dec p q); split; congruence. Qed.
Lemma path_eqb_refl p : path_eqb p p = true.
Proof. now apply path_eqb_true. Qed.
Lemma path_eqb_false p q : path_eqb p q = false <-> p <> q.
Proof. unfold path_eqb. destruct (list_eq_dec string_dec p q); split; congruence. Qed.

Lemma is_prefix_refl p : is_prefix p p = true.
Proof. induction p; cbn; auto. now rewrite String.eqb_refl. Qed.
Lemma is_prefix_trans p q r : is_prefix p q = true -> is_prefix q r = true -> is_prefix p r = true.
Proof.
  revert q r. induction p as [|a p IH]; intros [|b q] [|c r]; cbn; auto; try discriminate.
  rewrite !andb_true_iff. intros [A B] [C D]. apply String.eqb_eq in A. subst b. split; auto. eapply IH; eauto.
Qed.

Lemma dirname_npy p : dirname (npy_path p) = dirname p.
Proof. unfold npy_path. destruct (ends_with _ _); auto. unfold dirname at 1. now rewrite removelast_last. Qed.

Lemma exec_app a b s : exec (a ++ b) s = exec b (exec a s).
Proof. apply fold_left_app. Qed.

(** ** A list of files to write *)

(** Outputs reduced to directory, file and pieces. *)
Definition job := (path * list string)%type.
Fixpoint jobs_ops (s : fs) (js : list job) : list op :=
  match js with
  | [] => []
  | (p, pieces) :: r =>
    let mk := if exists_ s (dirname p) then [] else [Mkdir (dirname p)] in
    let ops := mk ++ Create p :: map (Append p) pieces in
    ops ++ jobs_ops (exec ops s) r
  end.

Lemma jobs_app a : forall b s, jobs_ops s (a ++ b) = jobs_ops s a ++ jobs_ops (exec (jobs_ops s a) s) b.
Proof.
  induction a as [|[p l] a IH]; intros b s; [reflexivity|]. cbn [app jobs_ops]. cbv zeta.
  rewrite IH. rewrite <- !app_assoc. do 3 f_equal. now rewrite !exec_app.
Qed.

Lemma save_ops_jobs outs : forall s, Forall (fun po => o_kind (snd po) <> OtherKind) outs ->
  save_ops s outs = jobs_ops s (map (fun po => (match target (fst po) (snd po) with Some q => q | None => [] end,
                                                o_pieces (snd po))) outs).
Proof.
  induction outs as [|[p o] outs IH]; intros s H; [reflexivity|]. inversion H; subst. cbn [fst snd] in *.
  cbn [save_ops map fst snd jobs_ops]. cbv zeta. rewrite IH by auto.
  assert (T : exists q, target p o = Some q /\ dirname q = dirname p).
  { unfold target. destruct (o_kind o); try congruence; eexists; split; eauto. apply dirname_npy. }
  destruct T as (q & T & D). unfold write_ops. rewrite T, D. reflexivity.
Qed.

Definition jobs_of (r : results) : list job :=
  (if f_write r then
     [(f_cfg_name r, f_cfg r)] ++
     map (fun ct => (f_out_path r ++ [("strat_" ++ fst ct ++ ".csv")%string], snd ct)) (f_strat r) ++
     [(f_ej_name r, f_ej r); (f_ice_name r, f_ice r)]
   else []) ++
  (if f_npy r then [(npy_path (f_age_name r), f_age r); (npy_path (f_mat_name r), f_mat r)] else []).

Definition text (j : job) : path * string := (fst j, String.concat "" (snd j)).
Lemma planned_jobs r : planned r = map text (jobs_of r).
Proof.
  unfold planned, jobs_of. rewrite map_app.
  assert (A : forall (b : bool) X Y, X = map text Y -> (if b then X else []) = map text (if b then Y else []))
    by (intros [] X Y ->; reflexivity).
  f_equal; apply A; [|reflexivity]. rewrite !map_app, map_map. reflexivity.
Qed.

Lemma combine_map_both {A B C} (f : A -> B) (g : A -> C) l : combine (map f l) (map g l) = map (fun x => (f x, g x)) l.
Proof. induction l; cbn; congruence. Qed.

Lemma format_save_jobs r s : format_save_ops r s = jobs_ops s (jobs_of r).
Proof.
  assert (K : forall (l : list (string * list string)), Forall (fun po : path * output => o_kind (snd po) <> OtherKind)
     (combine (map (fun ct => f_out_path r ++ [("strat_" ++ fst ct ++ ".csv")%string]) l) (map (fun ct => mk_output DataFrame (snd ct)) l))).
  { intros l. rewrite combine_map_both. apply Forall_forall. intros x Hx. apply in_map_iff in Hx as (y & <- & _). discriminate. }
  unfold format_save_ops, jobs_of, save_outputs.
  destruct (f_write r), (f_npy r); cbv zeta;
    rewrite ?save_ops_jobs by (first [apply K | repeat constructor; discriminate]);
    rewrite ?jobs_app, ?exec_app, ?combine_map_both, ?map_map; rewrite <- ?app_assoc; reflexivity.
Qed.

(** ** Steps of a list of jobs *)
Section Jobs.
  Variables (js0 : list job).
  Let names := map fst js0.

  Definition good_op (o : op) : Prop :=
    match o with
    | Mkdir d => exists p, In p names /\ d = dirname p
    | Create p | Append p _ => In p names
    end.

  Lemma jobs_good js : forall s, incl (map fst js) names -> Forall good_op (jobs_ops s js).
  Proof.
    induction js as [|[p l] js IH]; intros s H; [constructor|]. cbn [jobs_ops]. cbv zeta.
    assert (Hp : In p names) by (apply H; now left).
    assert (Hr : incl (map fst js) names) by (intros q Hq; apply H; now right).
    apply Forall_app. split; [|auto]. apply Forall_app. split.
    - destruct (exists_ s (dirname p)); repeat constructor. exists p. auto.
    - constructor; [exact Hp|]. apply Forall_forall. intros o Ho. apply in_map_iff in Ho as (t & <- & _). exact Hp.
  Qed.

  (** Jobs do not collide. *)
  Definition clear (s : fs) : Prop :=
    forall p, In p names -> files s (dirname p) = None /\ dirs s p = false /\
      forall p', In p' names -> is_prefix p (dirname p') = false.

  Lemma dirname_not_name p p' : (forall q, In q names -> forall q', In q' names -> is_prefix q (dirname q') = false) ->
    In p names -> In p' names -> p <> dirname p'.
  Proof. intros H Hp Hp' E. specialize (H p Hp p' Hp'). rewrite <- E, is_prefix_refl in H. discriminate. Qed.

  (** What any steps of a run preserve. *)
  Definition inv (s0 s : fs) : Prop :=
    tree s /\ clear s /\
    (forall q, dirs s0 q = true -> dirs s q = true) /\
    (forall q, dirs s q = true -> dirs s0 q = true \/ exists p, In p names /\ is_prefix q (dirname p) = true) /\
    (forall q, ~ In q names -> files s q = files s0 q).

  Lemma inv_refl s : tree s -> clear s -> inv s s.
  Proof. intros T C. repeat split; auto; apply C; auto. Qed.

  Lemma inv_step s0 s o : inv s0 s -> good_op o -> inv s0 (step s o).
  Proof.
    intros (T & C & A & B & F) G. destruct o as [d|p|p t]; cbn [good_op] in G.
    - destruct G as (p & Hp & ->). split; [|split; [|split; [|split]]]; cbn [step dirs files].
      + intros q q' Hq. cbn. rewrite !orb_true_iff. intros [H|H]; [left; eapply T; eauto|].
        right. eapply is_prefix_trans; eauto.
      + intros q Hq. destruct (C q Hq) as (C1 & C2 & C3). repeat split; auto. cbn.
        rewrite C2, (C3 p Hp). reflexivity.
      + intros q H. rewrite (A q H). reflexivity.
      + intros q H. apply orb_true_iff in H as [H|H]; [auto|right; eauto].
      + auto.
    - split; [|split; [|split; [|split]]]; cbn [step dirs files]; auto.
      + intros q Hq. destruct (C q Hq) as (C1 & C2 & C3). repeat split; auto. cbn.
        assert (N : p <> dirname q).
        { intros E. destruct (C p G) as (_ & _ & D). specialize (D q Hq). rewrite <- E, is_prefix_refl in D. discriminate. }
        apply path_eqb_false in N. now rewrite N.
      + intros q Hq. assert (N : p <> q) by congruence. apply path_eqb_false in N. rewrite N. auto.
    - split; [|split; [|split; [|split]]]; cbn [step dirs files]; auto.
      + intros q Hq. destruct (C q Hq) as (C1 & C2 & C3). repeat split; auto. cbn.
        assert (N : p <> dirname q).
        { intros E. destruct (C p G) as (_ & _ & D). specialize (D q Hq). rewrite <- E, is_prefix_refl in D. discriminate. }
        apply path_eqb_false in N. now rewrite N.
      + intros q Hq. assert (N : p <> q) by congruence. apply path_eqb_false in N. rewrite N. auto.
  Qed.

  Lemma inv_exec ops : forall s0 s, inv s0 s -> Forall good_op ops -> inv s0 (exec ops s).
  Proof.
    induction ops as [|o ops IH]; intros s0 s H G; [exact H|]. inversion G; subst. cbn [exec fold_left].
    apply (IH s0); auto. now apply inv_step.
  Qed.
End Jobs.

(** Writing one file. *)
Lemma append_pieces p l : forall s c, files s p = Some c ->
  files (exec (map (Append p) l) s) p = Some (c ++ String.concat "" l)%string /\
  (forall q, q <> p -> files (exec (map (Append p) l) s) q = files s q) /\
  dirs (exec (map (Append p) l) s) = dirs s.
Proof.
  assert (E0 : forall x, (x ++ "")%string = x) by (induction x; cbn; congruence).
  assert (CC : forall t l, String.concat "" (t :: l) = (t ++ String.concat "" l)%string).
  { intros t [|u l']; cbn; [now rewrite E0|reflexivity]. }
  assert (AA : forall x y z : string, ((x ++ y) ++ z)%string = (x ++ y ++ z)%string).
  { induction x; cbn; congruence. }
  induction l as [|t l IH]; intros s c H; cbn [map].
  - cbn. rewrite E0. auto.
  - change (exec (Append p t :: map (Append p) l) s) with (exec (map (Append p) l) (step s (Append p t))).
    destruct (IH (step s (Append p t)) (c ++ t)%string) as (A & B & C).
    { cbn. now rewrite path_eqb_refl, H. }
    rewrite A, CC, AA. split; auto. split.
    + intros q Hq. rewrite (B q Hq). cbn. assert (N : p <> q) by congruence. apply path_eqb_false in N. now rewrite N.
    + rewrite C. reflexivity.
Qed.

Lemma write_file p l s :
  files (exec (Create p :: map (Append p) l) s) p = Some (String.concat "" l) /\
  (forall q, q <> p -> files (exec (Create p :: map (Append p) l) s) q = files s q) /\
  dirs (exec (Create p :: map (Append p) l) s) = dirs s.
Proof.
  change (exec (Create p :: map (Append p) l) s) with (exec (map (Append p) l) (step s (Create p))).
  destruct (append_pieces p l (step s (Create p)) ""%string) as (A & B & C).
  { cbn. now rewrite path_eqb_refl. }
  split; [exact A|]. split.
  - intros q Hq. rewrite (B q Hq). cbn. assert (N : p <> q) by congruence. apply path_eqb_false in N. now rewrite N.
  - exact C.
Qed.

Lemma mkdir_files s p : files (exec (if exists_ s p then [] else [Mkdir p]) s) = files s.
Proof. destruct (exists_ s p); reflexivity. Qed.

(** The last text planned for a path, [d] if none. *)
Definition final_text (js : list job) (q : path) (d : option string) : option string :=
  fold_left (fun acc j => if path_eqb (fst j) q then Some (String.concat "" (snd j)) else acc) js d.

Lemma final_text_indep js q d d' : In q (map fst js) -> final_text js q d = final_text js q d'.
Proof.
  revert d d'. induction js as [|[p l] js IH]; intros d d' H; [destruct H|].
  unfold final_text in *. cbn [fold_left fst]. destruct (path_eqb p q) eqn:E; [reflexivity|].
  apply IH. apply path_eqb_false in E. destruct H; [contradiction|auto].
Qed.
Lemma final_text_none js q d : ~ In q (map fst js) -> final_text js q d = d.
Proof.
  revert d. induction js as [|[p l] js IH]; intros d H; [reflexivity|].
  unfold final_text in *. cbn [fold_left fst]. cbn [map fst In] in H.
  assert (N : p <> q) by intuition. apply path_eqb_false in N. rewrite N. apply IH. intuition.
Qed.
Lemma final_text_in js q l d : NoDup (map fst js) -> In (q, l) js -> final_text js q d = Some (String.concat "" l).
Proof.
  revert d. induction js as [|[p m] js IH]; intros d N H; [destruct H|].
  cbn [map fst] in N. inversion N; subst. unfold final_text in *. cbn [fold_left fst snd].
  destruct H as [H|H].
  - injection H as -> ->. rewrite path_eqb_refl. apply final_text_none. auto.
  - apply IH; auto.
Qed.

Lemma jobs_files js q : forall s, files (exec (jobs_ops s js) s) q = final_text js q (files s q).
Proof.
  induction js as [|[p l] js IH]; intros s; [reflexivity|]. cbn [jobs_ops]. cbv zeta.
  rewrite exec_app, IH. unfold final_text. cbn [fold_left fst snd]. f_equal.
  rewrite exec_app. destruct (write_file p l (exec (if exists_ s (dirname p) then [] else [Mkdir (dirname p)]) s)) as (A & B & _).
  destruct (path_eqb p q) eqn:E.
  - apply path_eqb_true in E. now subst q.
  - apply path_eqb_false in E. rewrite B by congruence. now rewrite mkdir_files.
Qed.

Lemma jobs_dirs js q js0 : incl (map fst js) (map fst js0) -> forall s, tree s -> clear js0 s ->
  dirs (exec (jobs_ops s js) s) q = dirs s q || existsb (fun j => is_prefix q (dirname (fst j))) js.
Proof.
  induction js as [|[p l] js IH]; intros H s T C; [cbn; now rewrite orb_false_r|]. cbn [jobs_ops]. cbv zeta.
  assert (Hp : In p (map fst js0)) by (apply H; now left).
  assert (Hr : incl (map fst js) (map fst js0)) by (intros r Hr; apply H; now right).
  set (ops := (if exists_ s (dirname p) then [] else [Mkdir (dirname p)]) ++ Create p :: map (Append p) l).
  assert (G : Forall (good_op js0) ops).
  { pose proof (jobs_good js0 [(p, l)] s) as G. cbn [jobs_ops] in G. cbv zeta in G. rewrite app_nil_r in G.
    apply G. intros r [<-|[]]. exact Hp. }
  destruct (inv_exec js0 ops s s (inv_refl js0 s T C) G) as (T' & C' & _).
  rewrite exec_app, (IH Hr _ T' C'). cbn [existsb fst]. rewrite orb_assoc. f_equal.
  unfold ops. rewrite exec_app.
  destruct (write_file p l (exec (if exists_ s (dirname p) then [] else [Mkdir (dirname p)]) s)) as (_ & _ & D).
  rewrite D. destruct (exists_ s (dirname p)) eqn:E; [|reflexivity]. cbn.
  unfold exists_ in E. destruct (C p Hp) as (C1 & _). rewrite C1, orb_false_r in E.
  destruct (is_prefix q (dirname p)) eqn:E'; [|now rewrite orb_false_r].
  rewrite (T _ _ E' E). reflexivity.
Qed.

Lemma Forall_firstn' {A} (P : A -> Prop) n l : Forall P l -> Forall P (firstn n l).
Proof. apply Forall_firstn. Qed.

(** ** Rerunning after a crash *)
Lemma rerun_same js s n : tree s -> clear js s ->
  let s1 := exec (firstn n (jobs_ops s js)) s in
  same_fs (exec (jobs_ops s1 js) s1) (exec (jobs_ops s js) s).
Proof.
  intros T C s1.
  destruct (inv_exec js (firstn n (jobs_ops s js)) s s (inv_refl js s T C)) as (T1 & C1 & A & B & F).
  { apply Forall_firstn, jobs_good, incl_refl. }
  fold s1 in T1, C1, A, B, F. split; intros q.
  - rewrite !(jobs_dirs js q js (incl_refl _)) by auto.
    destruct (existsb (fun j => is_prefix q (dirname (fst j))) js) eqn:E; [now rewrite !orb_true_r|].
    rewrite !orb_false_r. destruct (dirs s q) eqn:Ds; [auto|].
    destruct (dirs s1 q) eqn:D1; auto. destruct (B q D1) as [H|(p & Hp & H)]; [congruence|].
    apply in_map_iff in Hp as (j & <- & Hj).
    assert (X : existsb (fun j => is_prefix q (dirname (fst j))) js = true) by (apply existsb_exists; eauto).
    congruence.
  - rewrite !jobs_files. destruct (in_dec (list_eq_dec string_dec) q (map fst js)) as [Hq|Hq].
    + now apply final_text_indep.
    + now rewrite !final_text_none, F by auto.
Qed.

(** ** The states a crash can leave *)
Lemma firstn_app_cases {A} n (a b : list A) :
  (exists m, firstn n (a ++ b) = firstn m a /\ m <= length a)%nat \/
  (exists m, firstn n (a ++ b) = a ++ firstn m b).
Proof.
  rewrite firstn_app. destruct (Nat.le_gt_cases n (length a)) as [H|H].
  - left. exists n. replace (n - length a)%nat with 0%nat by lia. cbn. rewrite app_nil_r. auto.
  - right. exists (n - length a)%nat. now rewrite firstn_all2 by lia.
Qed.

Lemma text_prefix_concat l m : text_prefix (String.concat "" (firstn m l)) (String.concat "" l).
Proof.
  assert (E0 : forall x, (x ++ "")%string = x) by (induction x; cbn; congruence).
  assert (CC : forall t l, String.concat "" (t :: l) = (t ++ String.concat "" l)%string).
  { intros t [|u l']; cbn; [now rewrite E0|reflexivity]. }
  assert (AA : forall x y z : string, ((x ++ y) ++ z)%string = (x ++ y ++ z)%string).
  { induction x; cbn; congruence. }
  revert m. induction l as [|t l IH]; intros [|m]; cbn [firstn].
  - exists ""%string. reflexivity.
  - exists ""%string. reflexivity.
  - eexists. reflexivity.
  - destruct (IH m) as [c Hc]. exists c. rewrite !CC, Hc, AA. reflexivity.
Qed.

Lemma crash_states js : forall s n, NoDup (map fst js) ->
  let s1 := exec (firstn n (jobs_ops s js)) s in
  exists i,
    (forall k p l, (k < i)%nat -> nth_error js k = Some (p, l) -> files s1 p = Some (String.concat "" l)) /\
    (forall k p l, (i < k)%nat -> nth_error js k = Some (p, l) -> files s1 p = files s p) /\
    (forall p l, nth_error js i = Some (p, l) ->
       files s1 p = files s p \/ exists t, files s1 p = Some t /\ text_prefix t (String.concat "" l)) /\
    (forall p, ~ In p (map fst js) -> files s1 p = files s p).
Proof.
  induction js as [|[p l] js IH]; intros s n N s1.
  - exists 0%nat. subst s1. cbn [jobs_ops]. rewrite firstn_nil. repeat split; auto; intros [|k] ? ? ? E; discriminate.
  - cbn [map fst] in N. inversion N; subst. subst s1. cbn [jobs_ops]. cbv zeta.
    set (mk := if exists_ s (dirname p) then [] else [Mkdir (dirname p)]).
    assert (Fm : files (exec mk s) = files s) by apply mkdir_files.
    destruct (firstn_app_cases n (mk ++ Create p :: map (Append p) l) (jobs_ops (exec (mk ++ Create p :: map (Append p) l) s) js)) as [(m & -> & Hm)|(m & ->)].
    + (* inside the first file *)
      exists 0%nat.
      assert (W : exists o, (o = files s p \/ exists t, o = Some t /\ text_prefix t (String.concat "" l)) /\
                  files (exec (firstn m (mk ++ Create p :: map (Append p) l)) s) p = o /\
                  forall q, q <> p -> files (exec (firstn m (mk ++ Create p :: map (Append p) l)) s) q = files s q).
      { destruct (firstn_app_cases m mk (Create p :: map (Append p) l)) as [(m' & -> & _)|(m' & ->)].
        - exists (files s p). split; auto.
          assert (Q : files (exec (firstn m' mk) s) = files s).
          { unfold mk. destruct (exists_ s (dirname p)); [now rewrite firstn_nil|].
            destruct m' as [|m']; [reflexivity|]. cbn. now rewrite firstn_nil. }
          rewrite Q. auto.
        - destruct m' as [|m'].
          + exists (files s p). cbn [firstn]. rewrite app_nil_r, Fm. auto.
          + cbn [firstn]. rewrite firstn_map. rewrite exec_app.
            destruct (write_file p (firstn m' l) (exec mk s)) as (A & B & _).
            eexists. split; [right; eexists; split; [reflexivity|apply text_prefix_concat]|]. split; [exact A|].
            intros q Hq. rewrite (B q Hq), Fm. reflexivity. }
      destruct W as (o & Ho & W1 & W2). repeat split.
      * intros k q m0 Hk. lia.
      * intros [|k] q m0 Hk Hq; [lia|]. cbn [nth_error] in Hq. apply W2. intros ->.
        apply H1. apply nth_error_In in Hq. change p with (fst (p, m0)). now apply in_map.
      * intros q m0 Hq. cbn in Hq. injection Hq as <- <-. rewrite W1. destruct Ho as [->|Ho]; auto.
      * intros q Hq. apply W2. cbn in Hq. intuition.
    + (* after the first file *)
      rewrite exec_app. set (s' := exec (mk ++ Create p :: map (Append p) l) s).
      assert (S1 : files s' p = Some (String.concat "" l) /\ forall q, q <> p -> files s' q = files s q).
      { unfold s'. rewrite exec_app. destruct (write_file p l (exec mk s)) as (A & B & _). split; auto.
        intros q Hq. rewrite (B q Hq), Fm. reflexivity. }
      destruct S1 as [S1 S2]. destruct (IH s' m H2) as (i & I1 & I2 & I3 & I4). exists (S i). repeat split.
      * intros [|k] q m0 Hk Hq; cbn [nth_error] in Hq.
        -- injection Hq as <- <-. rewrite I4 by auto. exact S1.
        -- apply (I1 k); auto. lia.
      * intros [|k] q m0 Hk Hq; [lia|]. cbn [nth_error] in Hq. rewrite (I2 k q m0) by (auto; lia).
        apply S2. intros ->. apply H1. apply nth_error_In in Hq. change p with (fst (p, m0)). now apply in_map.
      * intros q m0 Hq. cbn [nth_error] in Hq. destruct (I3 q m0 Hq) as [E|E]; auto. left. rewrite E. apply S2.
        intros ->. apply H1. apply nth_error_In in Hq. change p with (fst (p, m0)). now apply in_map.
      * intros q Hq. cbn in Hq. rewrite I4 by intuition. apply S2. intuition.
Qed.

(** ** A crash before the end leaves the last file incomplete *)
Lemma concat_length_lt l m : Forall (fun t => t <> ""%string) l -> (m < length l)%nat ->
  (String.length (String.concat "" (firstn m l)) < String.length (String.concat "" l))%nat.
Proof.
  assert (E0 : forall x, (x ++ "")%string = x) by (induction x; cbn; congruence).
  assert (CC : forall t l, String.concat "" (t :: l) = (t ++ String.concat "" l)%string).
  { intros t [|u l']; cbn; [now rewrite E0|reflexivity]. }
  assert (LA : forall a b, String.length (a ++ b) = (String.length a + String.length b)%nat).
  { induction a; intros; cbn; auto. }
  intros F. revert m. induction F as [|t l Ht F IH]; intros m Hm; [cbn in Hm; lia|].
  destruct m as [|m]; cbn [firstn].
  - rewrite CC, LA. destruct t; [congruence|]. cbn. lia.
  - rewrite !CC, !LA. specialize (IH m). cbn in Hm. lia.
Qed.

Lemma last_incomplete js p l s n : NoDup (map fst (js ++ [(p, l)])) -> files s p = None ->
  l <> [] -> Forall (fun t => t <> ""%string) l ->
  (n < length (jobs_ops s (js ++ [(p, l)])))%nat ->
  files (exec (firstn n (jobs_ops s (js ++ [(p, l)]))) s) p <> Some (String.concat "" l).
Proof.
  intros N Hs Hl HF Hn. rewrite map_app in N. cbn [map fst] in N. apply NoDup_remove in N as [_ N].
  rewrite app_nil_r in N. rewrite jobs_app in *. rewrite app_length in Hn.
  assert (Pre : forall m, files (exec (firstn m (jobs_ops s js)) s) p = None).
  { intros m. 
    assert (G : forall ops s, Forall (good_op js) ops -> files s p = None -> files (exec ops s) p = None).
    { induction ops as [|o ops IH]; intros s2 G H; [exact H|]. inversion G as [|? ? G1 G2]; subst. cbn [exec fold_left].
      apply IH; auto. destruct o; cbn [step files]; auto; cbn [good_op] in G1;
        (destruct (path_eqb p0 p) eqn:E; [apply path_eqb_true in E; subst; contradiction|auto]). }
    apply G; auto. apply Forall_firstn, jobs_good, incl_refl. }
  destruct (firstn_app_cases n (jobs_ops s js) (jobs_ops (exec (jobs_ops s js) s) [(p, l)])) as [(m & E & _)|(m & E)].
  - rewrite E, Pre. discriminate.
  - assert (Hm : (m < length (jobs_ops (exec (jobs_ops s js) s) [(p, l)]))%nat).
    { destruct (Nat.le_gt_cases (length (jobs_ops (exec (jobs_ops s js) s) [(p, l)])) m) as [Q|Q]; auto.
      rewrite (firstn_all2 (jobs_ops (exec (jobs_ops s js) s) [(p, l)])) in E by auto.
      apply (f_equal (@length _)) in E. rewrite firstn_length, !app_length in E. lia. }
    rewrite E, exec_app. pose proof (Pre (length (jobs_ops s js))) as P0. rewrite firstn_all in P0.
    set (s' := exec (jobs_ops s js) s) in *. cbn [jobs_ops] in *. cbv zeta in *. rewrite app_nil_r in *.
    set (mk := if exists_ s' (dirname p) then [] else [Mkdir (dirname p)]) in *.
    assert (Fm : files (exec mk s') = files s') by apply mkdir_files.
    rewrite app_length in Hm. cbn [length] in Hm. rewrite map_length in Hm.
    destruct (firstn_app_cases m mk (Create p :: map (Append p) l)) as [(m' & -> & _)|(m' & E')].
    + assert (Q : files (exec (firstn m' mk) s') = files s').
      { unfold mk. destruct (exists_ s' (dirname p)); [now rewrite firstn_nil|].
        destruct m' as [|m']; [reflexivity|]. cbn. now rewrite firstn_nil. }
      rewrite Q, P0. discriminate.
    + destruct m' as [|m'].
      * rewrite E'. cbn [firstn]. rewrite app_nil_r, Fm, P0. discriminate.
      * rewrite E'. cbn [firstn]. rewrite firstn_map, exec_app.
        destruct (write_file p (firstn m' l) (exec mk s')) as (A & _). rewrite A. intros Q. injection Q as Q.
        assert (Lm : (m' < length l)%nat).
        { apply (f_equal (@length _)) in E'. cbn [firstn] in E'. rewrite firstn_length, !app_length in E'. cbn [length] in E'.
          rewrite firstn_map, !map_length, firstn_length in E'. lia. }
        pose proof (concat_length_lt l m' HF Lm). rewrite Q in H. lia.
Qed.
