(** C48: saving, crashes and --resume. *)
From Coq Require Import String List Bool Arith Lia.
From Verif Require Import Base Model_Save Spec_Save Proofs_Base Proofs_Save.
Import ListNotations.

Lemma clash_clear s r : no_clash s r -> clear (jobs_of r) s.
Proof.
  intros H p Hp.
  assert (A : exists t, In (p, t) (planned r)).
  { rewrite planned_jobs. apply in_map_iff in Hp as (j & <- & Hj). exists (String.concat "" (snd j)).
    apply (in_map text _ _ Hj). }
  destruct A as [t Ht]. destruct (H p t Ht) as (A & B & C). repeat split; auto. intros p' Hp'.
  apply in_map_iff in Hp' as (j & <- & Hj). eapply C. rewrite planned_jobs. apply (in_map text _ _ Hj).
Qed.
Lemma planned_names r : map fst (planned r) = map fst (jobs_of r).
Proof. rewrite planned_jobs, map_map. reflexivity. Qed.
Lemma planned_nth r k p t : nth_error (planned r) k = Some (p, t) ->
  exists l, nth_error (jobs_of r) k = Some (p, l) /\ t = String.concat "" l.
Proof.
  rewrite planned_jobs, nth_error_map. destruct (nth_error (jobs_of r) k) as [[q l]|]; [|discriminate].
  cbn. intros E. injection E as <- <-. eauto.
Qed.

(** A run that ends leaves every planned file with its complete text, every other file as
    it was, and as directories those there were and those the planned files need. *)
Theorem C48_complete : forall r s, tree s -> no_clash s r -> NoDup (map fst (planned r)) ->
  let s' := exec (cli_ops false r s) s in
  (forall p t, In (p, t) (planned r) -> files s' p = Some t) /\
  (forall p, ~ In p (map fst (planned r)) -> files s' p = files s p) /\
  (forall q, dirs s' q = true <-> dirs s q = true \/ exists p t, In (p, t) (planned r) /\ is_prefix q (dirname p) = true).
Proof.
  intros r s T C N s'. unfold s', cli_ops. cbn [andb]. rewrite format_save_jobs. rewrite planned_names in N. repeat split.
  - intros p t H. rewrite jobs_files. rewrite planned_jobs in H. apply in_map_iff in H as ([q l] & E & H).
    injection E as <- <-. now apply final_text_in.
  - intros p H. rewrite planned_names in H. rewrite jobs_files. now apply final_text_none.
  - rewrite (jobs_dirs (jobs_of r) q (jobs_of r) (incl_refl _)) by (auto using clash_clear).
    rewrite orb_true_iff. intros [H|H]; [auto|right]. apply existsb_exists in H as (j & Hj & H).
    exists (fst j), (String.concat "" (snd j)). split; auto. rewrite planned_jobs. apply (in_map text _ _ Hj).
  - rewrite (jobs_dirs (jobs_of r) q (jobs_of r) (incl_refl _)) by (auto using clash_clear).
    rewrite orb_true_iff. intros [H|(p & t & Hp & H)]; [auto|right]. apply existsb_exists.
    rewrite planned_jobs in Hp. apply in_map_iff in Hp as (j & E & Hj). exists j. split; auto. now injection E as -> _.
Qed.

(** At a crash there is a place in the order of the files: those before it are complete,
    those after it as they were before the run, and the one at it is as it was or holds a
    first part of its text. *)
Theorem C48_crash_states : forall r s n, NoDup (map fst (planned r)) ->
  let s1 := crash n (cli_ops false r s) s in
  exists i,
    (forall k p t, (k < i)%nat -> nth_error (planned r) k = Some (p, t) -> files s1 p = Some t) /\
    (forall k p t, (i < k)%nat -> nth_error (planned r) k = Some (p, t) -> files s1 p = files s p) /\
    (forall p t, nth_error (planned r) i = Some (p, t) ->
       files s1 p = files s p \/ exists t', files s1 p = Some t' /\ text_prefix t' t) /\
    (forall p, ~ In p (map fst (planned r)) -> files s1 p = files s p).
Proof.
  intros r s n N s1. rewrite planned_names in *. unfold s1, crash, cli_ops. cbn [andb]. rewrite format_save_jobs.
  destruct (crash_states (jobs_of r) s n N) as (i & A & B & C & D). exists i. repeat split; auto.
  - intros k p t Hk H. apply planned_nth in H as (l & H & ->). eauto.
  - intros k p t Hk H. apply planned_nth in H as (l & H & ->). eauto.
  - intros p t H. apply planned_nth in H as (l & H & ->). eauto.
Qed.

(** A crash that left a trace in any other file left the configuration complete. *)
Theorem C48_config_first : forall r s n p t, NoDup (map fst (planned r)) -> f_write r = true ->
  let s1 := crash n (cli_ops false r s) s in
  In (p, t) (planned r) -> files s1 p <> files s p -> p <> f_cfg_name r ->
  files s1 (f_cfg_name r) = Some (String.concat "" (f_cfg r)).
Proof.
  intros r s n p t N W s1 Hp Hc Hn. destruct (C48_crash_states r s n N) as (i & A & B & _ & _). fold s1 in A, B.
  assert (H0 : nth_error (planned r) 0 = Some (f_cfg_name r, String.concat "" (f_cfg r))).
  { unfold planned. rewrite W. reflexivity. }
  apply In_nth_error in Hp as [k Hk]. destruct k as [|k]; [congruence|].
  destruct (Nat.lt_ge_cases i (S k)) as [L|L]; [elim Hc; eapply B; eauto|]. apply (A 0%nat); auto. lia.
Qed.

(** A run after a crash at any step ends as a run without the crash. *)
Theorem C48_rerun : forall r s n, tree s -> no_clash s r ->
  let s1 := crash n (cli_ops false r s) s in
  same_fs (exec (cli_ops false r s1) s1) (exec (cli_ops false r s) s).
Proof.
  intros r s n T C s1. unfold s1, crash, cli_ops. cbn [andb]. rewrite !format_save_jobs.
  apply rerun_same; auto. now apply clash_clear.
Qed.

(** A second run over a complete one changes nothing. *)
Theorem C48_run_twice : forall r s, tree s -> no_clash s r ->
  let s1 := exec (cli_ops false r s) s in
  same_fs (exec (cli_ops false r s1) s1) s1.
Proof.
  intros r s T C s1. pose proof (C48_rerun r s (length (cli_ops false r s)) T C) as H. cbv zeta in H.
  unfold crash in H. rewrite firstn_all in H. exact H.
Qed.

(** --resume does nothing if there is something at the output path, and is a run like any
    other if not. *)
Theorem C48_resume : forall r s,
  (dirs s (f_out_path r) = true \/ files s (f_out_path r) <> None -> cli_ops true r s = []) /\
  (dirs s (f_out_path r) = false -> files s (f_out_path r) = None -> cli_ops true r s = cli_ops false r s).
Proof.
  intros r s. unfold cli_ops, exists_. cbn [andb]. split.
  - intros [->|H]; [reflexivity|]. destruct (files s (f_out_path r)); [|congruence]. now rewrite orb_true_r.
  - intros -> ->. reflexivity.
Qed.

(** Resuming completes a run that was broken off: false.  A run into a new output
    directory that is broken off after its first step and before its last is never
    completed: --resume does nothing, and the last file is missing or cut short. *)
Theorem C48_resume_completes_refuted : forall r s n,
  let p := if f_npy r then npy_path (f_mat_name r) else f_ice_name r in
  let pieces := if f_npy r then f_mat r else f_ice r in
  tree s -> no_clash s r -> NoDup (map fst (planned r)) ->
  f_write r = true -> dirname (f_cfg_name r) = f_out_path r ->
  exists_ s (f_out_path r) = false ->
  files s p = None -> pieces <> [] -> Forall (fun x => x <> ""%string) pieces ->
  (0 < n < length (cli_ops false r s))%nat ->
  let s1 := crash n (cli_ops false r s) s in
  cli_ops true r s1 = [] /\ files (exec (cli_ops true r s1) s1) p <> Some (String.concat "" pieces).
Proof.
  intros r s n p pieces T C N W D X Hp Hl1 Hl2 Hn s1.
  assert (E : cli_ops true r s1 = []).
  { apply C48_resume. left. unfold s1, crash, cli_ops. cbn [andb]. rewrite format_save_jobs.
    assert (J : exists js, jobs_of r = (f_cfg_name r, f_cfg r) :: js).
    { unfold jobs_of. rewrite W. eexists. reflexivity. }
    destruct J as [js J].
    assert (G : Forall (good_op (jobs_of r)) (jobs_ops s (jobs_of r))) by (apply jobs_good, incl_refl).
    assert (H1 : exists rest, jobs_ops s (jobs_of r) = Mkdir (f_out_path r) :: rest).
    { rewrite J. cbn [jobs_ops]. cbv zeta. rewrite D, X. eexists. reflexivity. }
    destruct H1 as [rest H1]. rewrite H1 in *. destruct n as [|n]; [lia|]. cbn [firstn exec fold_left].
    inversion G; subst.
    pose proof (clash_clear s r C) as CC.
    pose proof (inv_step (jobs_of r) s s _ (inv_refl _ s T CC) H2) as I0.
    assert (I0' : inv (jobs_of r) (step s (Mkdir (f_out_path r))) (step s (Mkdir (f_out_path r)))).
    { destruct I0 as (A & B & _). now apply inv_refl. }
    pose proof (inv_exec (jobs_of r) (firstn n rest) _ _ I0' (Forall_firstn _ _ _ H3)) as (_ & _ & A & _).
    apply A. cbn. rewrite is_prefix_refl. apply orb_true_r. }
  split; [exact E|]. rewrite E. cbn [exec fold_left].
  unfold s1, crash, cli_ops in *. cbn [andb] in *. rewrite format_save_jobs in *. rewrite planned_names in N.
  assert (J : exists js, jobs_of r = js ++ [(p, pieces)]).
  { unfold jobs_of, p, pieces. rewrite W. destruct (f_npy r).
    - change [(npy_path (f_age_name r), f_age r); (npy_path (f_mat_name r), f_mat r)]
        with ([(npy_path (f_age_name r), f_age r)] ++ [(npy_path (f_mat_name r), f_mat r)]).
      rewrite app_assoc. eexists. reflexivity.
    - change [(f_ej_name r, f_ej r); (f_ice_name r, f_ice r)] with ([(f_ej_name r, f_ej r)] ++ [(f_ice_name r, f_ice r)]).
      rewrite app_nil_r, !app_assoc. eexists. reflexivity. }
  destruct J as (js & J). rewrite J in *.
  apply last_incomplete; auto. lia.
Qed.

(** A run with two cold traps into a new directory of an existing one. *)
Local Open Scope string_scope.
Definition run0 : results :=
  mk_results true true ["data"; "00001"] ["data"; "00001"; "config.py"] ["seed"; "=1"]
    [("Haworth", ["a"; "b"]); ("Faustini", ["c"])]
    ["data"; "00001"; "ej.csv"] ["e"] ["data"; "00001"; "ice.csv"] ["i"]
    ["data"; "00001"; "age.npy"] ["g"] ["data"; "00001"; "mat"] ["m"; "n"].
Definition fs0 : fs :=
  mk_fs (fun p => is_prefix p ["data"]) (fun p => if path_eqb p ["data"; "old"] then Some "x" else None).

Lemma run0_ok : tree fs0 /\ no_clash fs0 run0 /\ NoDup (map fst (planned run0)).
Proof.
  split; [intros p q A B; cbn in *; eapply is_prefix_trans; eauto|]. split.
  - intros p t H. cbn in H.
    repeat (destruct H as [H|H]; [injection H as <- <-; split; [reflexivity|split; [reflexivity|]];
      intros p' t' H'; cbn in H'; repeat (destruct H' as [H'|H']; [injection H' as <- <-; reflexivity|]); destruct H'|]).
    destruct H.
  - cbn. repeat constructor; cbn; intuition discriminate.
Qed.
Example run0_names : map fst (planned run0) =
  map (fun f => ["data"; "00001"; f])
    ["config.py"; "strat_Haworth.csv"; "strat_Faustini.csv"; "ej.csv"; "ice.csv"; "age.npy"; "mat.npy"].
Proof. reflexivity. Qed.
Example run0_complete :
  files (exec (cli_ops false run0 fs0) fs0) ["data"; "00001"; "strat_Haworth.csv"] = Some "ab" /\
  files (exec (cli_ops false run0 fs0) fs0) ["data"; "old"] = Some "x" /\
  dirs (exec (cli_ops false run0 fs0) fs0) ["data"; "00001"] = true.
Proof. repeat split. Qed.
Example run0_crash : (* one piece of Haworth written, then run again *)
  let s1 := crash 6 (cli_ops false run0 fs0) fs0 in
  files s1 ["data"; "00001"; "strat_Haworth.csv"] = Some "a" /\
  files s1 ["data"; "00001"; "strat_Faustini.csv"] = None /\
  cli_ops true run0 s1 = [] /\
  files (exec (cli_ops false run0 s1) s1) ["data"; "00001"; "mat.npy"] = Some "mn".
Proof. repeat split. Qed.
Example run0_rerun : same_fs
  (exec (cli_ops false run0 (crash 6 (cli_ops false run0 fs0) fs0)) (crash 6 (cli_ops false run0 fs0) fs0))
  (exec (cli_ops false run0 fs0) fs0).
Proof. apply C48_rerun; apply run0_ok. Qed.
Example run0_resume : let s1 := crash 6 (cli_ops false run0 fs0) fs0 in
  files (exec (cli_ops true run0 s1) s1) ["data"; "00001"; "mat.npy"] <> Some "mn".
Proof.
  destruct run0_ok as (A & B & C).
  apply (C48_resume_completes_refuted run0 fs0 6 A B C); try reflexivity; try discriminate.
  - repeat constructor; discriminate.
  - cbn. lia.
Qed.

Print Assumptions C48_complete.
Print Assumptions C48_crash_states.
Print Assumptions C48_config_first.
Print Assumptions C48_rerun.
Print Assumptions C48_run_twice.
Print Assumptions C48_resume.
Print Assumptions C48_resume_completes_refuted.
