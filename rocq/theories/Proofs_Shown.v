(** Proofs about the figures of collected runs. *)
From Coq Require Import ZArith Bool Ascii String List Arith Permutation Sorted Reals Lra Lia.
From Verif Require Import Base Model_Time Model_Ice Model_Path Model_Strat Model_Plot Model_Figure Model_Save Model_Collect Model_Module Model_Shown
  Spec_Plot Spec_Files Spec_Collect Spec_Shown Proofs_Base Proofs_Time Proofs_Path Proofs_Cmap Proofs_Collect Proofs_Day Props_Collect.
Import ListNotations.
Open Scope R_scope.
Open Scope list_scope.

(** * Names of files *)

Lemma contains_occurs a b : contains a b = true <-> occurs a b.
Proof. apply contains_spec. Qed.
Lemma occurs_trans a b c : occurs a b -> occurs b c -> occurs a c.
Proof.
  intros (x & y & ->) (u & v & ->). exists (u ++ x)%string, (y ++ v)%string. now rewrite !app_assoc_s.
Qed.
Lemma occurs_part l x : occurs x (join_path (l ++ [x])).
Proof.
  rewrite join_app. destruct l as [|y l]; [exists EmptyString, EmptyString; now rewrite app_nil_s|].
  exists (join_path (y :: l) ++ "/")%string, EmptyString. now rewrite app_nil_s, !app_assoc_s.
Qed.
Lemma occurs_posix p l x : parts p = l ++ [x] -> occurs x (as_posix p).
Proof.
  intros E. unfold as_posix. rewrite E. destruct (rooted p).
  - apply (occurs_trans _ (join_path (l ++ [x]))); [apply occurs_part|]. exists "/"%string, EmptyString. now rewrite app_nil_s.
  - destruct (l ++ [x]) eqn:F; [now destruct l|]. rewrite <- F. apply occurs_part.
Qed.

Lemma last_dot_app x b e : last_dot x = Some (b, e) -> x = (b ++ e)%string.
Proof.
  revert b e. induction x as [|a x IH]; [discriminate|]. intros b e. cbn [last_dot]. destruct (last_dot x) as [[b' e']|].
  - intros E. injection E as <- <-. cbn [append]. now rewrite (IH b' e' eq_refl).
  - destruct (Ascii.eqb_spec a ".") as [->|]; [|discriminate]. intros E. now injection E as <- <-.
Qed.
Lemma split_name_app x : x = (fst (split_name x) ++ snd (split_name x))%string.
Proof.
  unfold split_name. destruct (last_dot x) as [[b e]|] eqn:E.
  - destruct (_ || _); cbn [fst snd]; [symmetry; apply app_nil_s|now apply last_dot_app].
  - cbn [fst snd]. symmetry; apply app_nil_s.
Qed.
Lemma dot_in r : occurs "." r <-> last_dot r <> None.
Proof.
  induction r as [|a r IH].
  - split; [|intros H; now elim H]. intros (x & y & E). destruct x; discriminate.
  - cbn [last_dot]. destruct (last_dot r) as [[b e]|].
    + split; [discriminate|intros _]. destruct IH as [_ IH]. destruct IH as (x & y & ->); [discriminate|]. exists (String a x), y. reflexivity.
    + destruct (Ascii.eqb_spec a ".") as [->|N].
      * split; [discriminate|]. intros _. exists EmptyString, r. reflexivity.
      * split; [|intros H; now elim H]. intros ([|c x] & y & E); [cbn in E; congruence|]. injection E as _ E. apply IH. exists x, y. exact E.
Qed.
Lemma last_dot_uniq b r : ~ occurs "." r -> last_dot (b ++ "." ++ r) = Some (b, ("." ++ r)%string).
Proof.
  intros N. induction b as [|a b IH].
  - cbn [append last_dot]. destruct (last_dot r) eqn:E; [|reflexivity]. elim N. apply dot_in. congruence.
  - cbn [append last_dot]. cbn [append] in IH. now rewrite IH.
Qed.
Lemma last_dot_form x b e : last_dot x = Some (b, e) -> exists r, e = ("." ++ r)%string /\ ~ occurs "." r.
Proof.
  revert b e. induction x as [|a x IH]; [discriminate|]. intros b e. cbn [last_dot]. destruct (last_dot x) as [[b' e']|] eqn:D.
  - intros E. injection E as <- <-. eapply IH. reflexivity.
  - destruct (Ascii.eqb_spec a ".") as [->|]; [|discriminate]. intros E. injection E as <- <-. exists x. split; [reflexivity|]. rewrite dot_in. congruence.
Qed.
Lemma split_name_ending x : ends_in x (fst (split_name x)) (snd (split_name x)).
Proof.
  split; [apply split_name_app|]. unfold split_name. destruct (last_dot x) as [[b e]|] eqn:E.
  - pose proof (last_dot_form _ _ _ E) as (r & -> & N). destruct (String.eqb_spec b "") as [->|Nb]; [|destruct (String.eqb_spec ("." ++ r) ".") as [Er|Nr]]; cbn [orb fst snd].
    + right. split; [reflexivity|]. intros b' r' Ex. destruct (contains "." r') eqn:C; [apply contains_occurs in C; auto|].
      assert (~ occurs "." r') as N' by (rewrite <- contains_occurs; congruence). subst x. rewrite (last_dot_uniq b' r' N') in E. injection E as ->. now left.
    + right. split; [reflexivity|]. intros b' r' Ex. destruct (contains "." r') eqn:C; [apply contains_occurs in C; auto|].
      assert (~ occurs "." r') as N' by (rewrite <- contains_occurs; congruence). subst x. rewrite (last_dot_uniq b' r' N') in E. injection E as -> ->. injection Er as ->. auto.
    + left. split; [exact Nb|]. exists r. split; [reflexivity|]. split; [|exact N]. intros ->. now elim Nr.
  - right. cbn [snd]. split; [reflexivity|]. intros b' r' ->. destruct (contains "." r') eqn:C; [apply contains_occurs in C; auto|].
    assert (~ occurs "." r') as N' by (rewrite <- contains_occurs; congruence). rewrite (last_dot_uniq b' r' N') in E. discriminate.
Qed.

Lemma asked_under figdir fsave root dir x : asked figdir fsave root dir x -> under (to_path figdir) (to_path fsave) = mk_ppath root (dir ++ [x]).
Proof.
  intros [(A & -> & P)|(A & -> & sub & P & ->)]; unfold under, to_path; cbn [rooted parts]; rewrite A.
  - now rewrite P.
  - now rewrite P, app_assoc.
Qed.
Lemma asked_name figdir fsave root dir x : asked figdir fsave root dir x -> fsave <> ""%string.
Proof. intros [(A & _)|(_ & _ & sub & P & _)] ->; [discriminate|]. destruct sub; discriminate. Qed.
Lemma figure_saved figdir fsave version root dir x : asked figdir fsave root dir x ->
  exists y, figure_file figdir fsave version = Ok (Some (mk_ppath root (dir ++ [y]))) /\
    occurs version (as_posix (mk_ppath root (dir ++ [y]))) /\
    ((occurs version (as_posix (mk_ppath root (dir ++ [x]))) /\ y = x) \/
     (~ occurs version (as_posix (mk_ppath root (dir ++ [x]))) /\
      exists b e, ends_in x b e /\ y = (b ++ "_" ++ version ++ e)%string)).
Proof.
  intros A. unfold figure_file. pose proof (asked_name _ _ _ _ _ A) as N. apply String.eqb_neq in N. rewrite N.
  rewrite (asked_under _ _ _ _ _ A). cbn [parts rooted]. destruct (contains version _) eqn:C.
  - apply contains_occurs in C. exists x. auto.
  - rewrite rev_app_distr. cbn [rev app]. pose proof (split_name_ending x) as S. destruct (split_name x) as [b e]. cbn [fst snd] in S.
    rewrite rev_involutive. eexists. split; [reflexivity|]. split.
    + apply (occurs_trans _ (b ++ "_" ++ version ++ e)); [|now apply (occurs_posix _ dir)]. exists (b ++ "_")%string, e. now rewrite !app_assoc_s.
    + right. split; [rewrite <- contains_occurs; congruence|]. eauto.
Qed.

Definition good_part (x : string) : Prop := x <> ""%string /\ x <> "."%string /\ noslash x = true.
Lemma split_noslash t : Forall (fun x => noslash x = true) (split_path t).
Proof.
  induction t as [|a t IH]; [repeat constructor|]. cbn [split_path]. destruct (Ascii.eqb_spec a slash) as [->|N]; [constructor; [reflexivity|exact IH]|].
  destruct (split_path t) as [|h r]; [constructor; [|constructor]|]; cbn [noslash].
  - apply Ascii.eqb_neq in N. now rewrite N.
  - inversion IH as [|? ? H1 H2]; subst. constructor; [|exact H2]. cbn [noslash]. apply Ascii.eqb_neq in N. now rewrite N, H1.
Qed.
Lemma parts_good t : Forall good_part (path_parts t).
Proof.
  unfold path_parts. apply Forall_forall. intros x I. apply filter_In in I as [I F]. pose proof (split_noslash t) as S. rewrite Forall_forall in S.
  apply negb_true_iff, orb_false_iff in F as [F1 F2]. apply String.eqb_neq in F1, F2. repeat split; auto.
Qed.
Lemma good_parts_join l : Forall good_part l -> path_parts (join_path l) = l.
Proof.
  intros F. destruct l as [|x l]; [reflexivity|]. unfold path_parts. rewrite split_join; [|discriminate|eapply Forall_impl; [|exact F]; cbn beta; intros a (_ & _ & H); exact H].
  induction F as [|y m (A & B & _) F IH]; [reflexivity|]. cbn [filter]. apply String.eqb_neq in A, B. rewrite A, B. cbn [orb negb]. now rewrite IH.
Qed.
Lemma posix_back p : rooted p = true -> Forall good_part (parts p) -> to_path (as_posix p) = p.
Proof.
  destruct p as [r l]. cbn [rooted parts]. intros -> F. unfold as_posix, to_path. cbn [rooted parts].
  change ("/" ++ join_path l)%string with ("" ++ String slash (join_path l))%string. rewrite parts_slash, good_parts_join by exact F. reflexivity.
Qed.
Lemma noslash_app a b : noslash (a ++ b) = noslash a && noslash b.
Proof. induction a as [|c a IH]; [reflexivity|]. cbn [append noslash]. rewrite IH. now rewrite andb_assoc. Qed.
Lemma figure_again figdir fsave version p : starts_slash figdir = true -> noslash version = true ->
  figure_file figdir fsave version = Ok (Some p) -> figure_file figdir (as_posix p) version = Ok (Some p).
Proof.
  intros S V E. unfold figure_file in E. destruct (String.eqb fsave ""); [discriminate|].
  set (q := under (to_path figdir) (to_path fsave)) in *.
  assert (Rq : rooted q = true) by (unfold q, under, to_path; cbn [rooted]; now destruct (starts_slash fsave)).
  assert (Gq : Forall good_part (parts q)).
  { unfold q, under, to_path; cbn [rooted parts]. destruct (starts_slash fsave); cbn [parts]; [apply parts_good|]. apply Forall_app. split; apply parts_good. }
  assert (K : forall p, rooted p = true -> Forall good_part (parts p) -> contains version (as_posix p) = true -> figure_file figdir (as_posix p) version = Ok (Some p)).
  { intros p' Rp Gp C. unfold figure_file. rewrite posix_back by assumption. unfold under. rewrite Rp, C.
    destruct (String.eqb_spec (as_posix p') "") as [Z|_]; [|reflexivity]. unfold as_posix in Z. rewrite Rp in Z. discriminate. }
  destruct (contains version (as_posix q)) eqn:C.
  - assert (p = q) by congruence. subst p. now apply K.
  - destruct (rev (parts q)) as [|x r] eqn:Er; [discriminate|]. assert (Ep : parts q = rev r ++ [x]) by (rewrite <- (rev_involutive (parts q)), Er; reflexivity).
    pose proof (split_name_app x) as Sx. destruct (split_name x) as [b e]. cbn [fst snd] in Sx.
    assert (Pq : p = mk_ppath (rooted q) (rev r ++ [(b ++ "_" ++ version ++ e)%string])) by congruence. clear E.
    rewrite Ep in Gq. apply Forall_app in Gq as [G1 G2]. inversion G2 as [|? ? (_ & _ & Gx) _]; subst x0 l. rewrite Sx, noslash_app in Gx. apply andb_prop in Gx as [Gb Ge].
    subst p. apply K.
    + exact Rq.
    + cbn [parts]. apply Forall_app. split; [exact G1|]. constructor; [|constructor]. split; [destruct b; discriminate|]. split; [destruct b as [|c [|]]; discriminate|].
      rewrite !noslash_app, Gb, V, Ge. reflexivity.
    + apply contains_occurs. apply (occurs_trans _ (b ++ "_" ++ version ++ e)); [|now apply (occurs_posix _ (rev r))]. exists (b ++ "_")%string, e. now rewrite !app_assoc_s.
Qed.
Lemma app_inj_l a b c : (a ++ b = a ++ c)%string -> b = c.
Proof. induction a as [|x a IH]; [auto|]. cbn [append]. intros E. injection E as E. auto. Qed.

(** * New names *)

Definition rstep (r : flat) (nn : string * string) : flat := if String.eqb (fl_run r) (fst nn) then mk_flat (fl_trap r) (snd nn) (fl_stats r) else r.
Lemma rename_map (P : list (string * string)) df :
  fold_left (fun df nn => map (fun r => if String.eqb (fl_run r) (fst nn) then mk_flat (fl_trap r) (snd nn) (fl_stats r) else r) df) P df =
  map (fun r => fold_left rstep P r) df.
Proof.
  revert df. induction P as [|nn P IH]; intros df; cbn [fold_left]; [now rewrite map_id|]. rewrite IH, map_map. reflexivity.
Qed.
Lemma rsteps_none P r : ~ In (fl_run r) (map fst P) -> fold_left rstep P r = r.
Proof.
  induction P as [|[x n] P IH]; [reflexivity|]. cbn [map In fold_left fst]. intros N. unfold rstep at 2. cbn [fst].
  destruct (String.eqb_spec (fl_run r) x) as [E|_]; [elim N; now left|]. apply IH. tauto.
Qed.
Lemma rsteps_some P r n : NoDup (map fst P) -> (forall x n, In (x, n) P -> n = x \/ ~ In n (map fst P)) ->
  In (fl_run r, n) P -> fold_left rstep P r = mk_flat (fl_trap r) n (fl_stats r).
Proof.
  induction P as [|[x m] P IH]; [intros _ _ []|]. cbn [map fst]. intros N K I. inversion N as [|? ? N1 N2]; subst. cbn [fold_left]. unfold rstep at 2. cbn [fst snd].
  destruct (String.eqb_spec (fl_run r) x) as [E|E].
  - assert (m = n).
    { destruct I as [I|I]; [congruence|]. elim N1. apply in_map_iff. exists (fl_run r, n). auto. }
    subst m. rewrite rsteps_none; [reflexivity|]. cbn [fl_run]. intros J. destruct (K x n) as [->|M]; [now left|now apply N1|]. apply M. now right.
  - destruct I as [I|I]; [congruence|]. apply IH; auto. intros y k J. destruct (K y k) as [->|M]; [now right|auto|]. right. intros Jk. apply M. now right.
Qed.
Lemma combine_nodup_r {A B} (l : list A) (m : list B) a b c : NoDup m -> In (a, c) (combine l m) -> In (b, c) (combine l m) -> a = b.
Proof.
  intros N. revert l. induction N as [|y m N1 N IH]; intros [|x l]; cbn [combine]; try easy.
  intros [E|I] [F|J].
  - congruence.
  - injection E as -> ->. elim N1. eapply in_combine_r. exact J.
  - injection F as -> ->. elim N1. eapply in_combine_r. exact I.
  - eauto.
Qed.
Lemma map_fst_combine {A B} (l : list A) (m : list B) : length l = length m -> map fst (combine l m) = l.
Proof. revert m. induction l as [|x l IH]; intros [|y m]; try discriminate; [reflexivity|]. cbn. intros E. now rewrite IH by lia. Qed.
Lemma existsb_str x l : existsb (String.eqb x) l = true <-> In x l.
Proof.
  rewrite existsb_exists. split; [intros (y & I & E); apply String.eqb_eq in E; now subst|]. intros I. exists x. split; [exact I|apply String.eqb_refl].
Qed.
Definition pick (r : flat) (P : list (string * string)) : list flat :=
  flat_map (fun xn => if String.eqb (fl_run r) (fst xn) then [mk_flat (fl_trap r) (snd xn) (fl_stats r)] else []) P.
Lemma pick_none r P : ~ In (fl_run r) (map fst P) -> pick r P = [].
Proof.
  induction P as [|[y k] P IH]; [reflexivity|]. cbn [map In]. intros M. unfold pick. cbn [flat_map fst snd].
  destruct (String.eqb_spec (fl_run r) y) as [Ey|_]; [elim M; left; now symmetry|]. cbn [app]. apply IH. tauto.
Qed.
Lemma pick_one r P n : NoDup (map fst P) -> In (fl_run r, n) P -> pick r P = [mk_flat (fl_trap r) n (fl_stats r)].
Proof.
  induction P as [|[y k] P IH]; [intros _ []|]. cbn [map fst In]. intros N I. inversion N as [|? ? M1 M2]; subst. unfold pick. cbn [flat_map fst snd].
  fold (pick r P). destruct (String.eqb_spec (fl_run r) y) as [Ey|Ey].
  - rewrite pick_none by now rewrite Ey. destruct I as [I|I]; [injection I as _ ->; reflexivity|]. elim M1. apply in_map_iff. exists (fl_run r, n). auto.
  - destruct I as [I|I]; [congruence|]. cbn [app]. now apply IH.
Qed.
Lemma rename_is df rn nn : renames rn nn -> rename_runs df rn nn = flat_map (fun r => pick r (combine rn nn)) df.
Proof.
  intros (Ln & N1 & N2 & K). unfold rename_runs. rewrite rename_map. induction df as [|r df IH]; [reflexivity|].
  cbn [filter flat_map]. pose proof (map_fst_combine rn nn Ln) as Fc.
  destruct (existsb (String.eqb (fl_run r)) rn) eqn:E.
  - cbn [map]. rewrite IH. apply existsb_str in E. rewrite <- Fc in E. apply in_map_iff in E as ([x n] & Ex & I). cbn [fst] in Ex. subst x.
    rewrite (rsteps_some _ _ n) by (rewrite ?Fc; auto). rewrite (pick_one r _ n) by (rewrite ?Fc; auto). reflexivity.
  - rewrite IH, pick_none; [reflexivity|]. rewrite Fc, <- existsb_str. congruence.
Qed.
(** The rows under a new name are those of the old name. *)
Lemma group_renamed value df rn nn c x n : (forall t a b st, value (mk_flat t a st) = value (mk_flat t b st)) ->
  renames rn nn -> In (x, n) (combine rn nn) -> group value (rename_runs df rn nn) c n = group value df c x.
Proof.
  intros V Rn I. rewrite rename_is by exact Rn. destruct Rn as (Ln & N1 & N2 & K). unfold group. f_equal.
  pose proof (map_fst_combine rn nn Ln) as Fc.
  induction df as [|r df IH]; [reflexivity|]. cbn [flat_map]. rewrite filter_app, map_app, IH. change (r :: df) with ([r] ++ df). rewrite filter_app, map_app. f_equal.
  destruct (in_dec string_dec (fl_run r) rn) as [J|J].
  - rewrite <- Fc in J. apply in_map_iff in J as ([y m] & Ey & J). cbn [fst] in Ey. subst y. rewrite (pick_one r _ m) by (rewrite ?Fc; auto).
    cbn [filter fl_trap fl_run]. assert (Q : String.eqb m n = String.eqb (fl_run r) x).
    { apply eq_true_iff_eq. rewrite !String.eqb_eq. split.
      - intros ->. eapply combine_nodup_r; eauto.
      - intros Ex. rewrite Ex in J. clear -J I N1 Ln. revert nn Ln I J. induction N1 as [|z rn M1 N1 IH]; intros [|k nn] Ln; cbn [combine]; try easy.
        intros [A|A] [B|B].
        + congruence.
        + injection A as -> ->. elim M1. eapply in_combine_l. exact B.
        + injection B as -> ->. elim M1. eapply in_combine_l. exact A.
        + eapply (IH nn); [now injection Ln|exact A|exact B]. }
    rewrite Q. destruct (_ && _); [|reflexivity]. cbn [map]. destruct r as [t a st]. cbn [fl_trap fl_stats]. now rewrite (V t m a).
  - rewrite pick_none by now rewrite Fc. cbn [filter]. destruct (String.eqb_spec (fl_run r) x) as [Ex|_]; [|now rewrite andb_false_r].
    elim J. rewrite Ex. eapply in_combine_l. exact I.
Qed.

(** * Collected rows *)

Lemma collected_read parse back cts day tmp s s' found : collected parse back cts day tmp s s' found ->
  exists lay tot n, read_agg_dfs parse s' day = Ok (lay, tot, n) /\
    Permutation tot (map (fun '(c, x, _, table) => total_row back c x (totals_of table)) found) /\
    Permutation lay (flat_map (fun '(c, x, _, table) => map (layer_row back c x) table) found) /\
    Forall (fun e => formed (snd e)) found /\
    (forall c x l, In c cts -> NoDup l -> (forall p, In p l -> table_at s day tmp c x p) -> (length l <= n)%nat) /\
    (n = 0%nat \/ exists c x l, In c cts /\ NoDup l /\ (forall p, In p l -> table_at s day tmp c x p) /\ length l = n).
Proof.
  intros (show & dump & load & L & L1 & U & B & A & HL & HL1 & Q & T).
  destruct (C86_collected parse show back dump load L L1 cts day tmp s U B A HL HL1) as (s2 & lay & tot & n & f & Q2 & Rd & T2 & P1 & P2 & N1 & N2 & _).
  assert (s2 = s') by congruence. subst s2. assert (Pf : Permutation f found) by (apply (are_tables_perm _ _ _ _ _ _ _ _ _ _ T2 T); intros; reflexivity).
  exists lay, tot, n. split; [exact Rd|]. split; [etransitivity; [exact P1|]; now apply Permutation_map|].
  split; [etransitivity; [exact P2|]; now apply Permutation_flat_map|]. split; [|auto].
  apply Forall_forall. intros [[[c x] p] t] I. destruct T as (T1 & T3 & T4). rewrite Forall_forall in T4. specialize (T4 _ I).
  assert (J : In (c, x, p) (map fst found)) by (apply in_map_iff; exists (c, x, p, t); auto). apply T3 in J as [Jc Jt].
  destruct A as (_ & _ & _ & _ & A & _). destruct (A c x p Jc Jt) as (t' & Rt & F). cbn [fst snd] in *. assert (t' = t) by congruence. now subst.
Qed.

Lemma group_flat v df c x : group v df c x =
  flat_map (fun r => if String.eqb (fl_trap r) c && String.eqb (fl_run r) x then match v r with Some y => [y] | None => [] end else []) df.
Proof.
  unfold group, numbers. induction df as [|r df IH]; [reflexivity|]. cbn [filter flat_map]. destruct (_ && _); [|exact IH]. cbn [map flat_map]. now rewrite IH.
Qed.
Lemma group_perm v df df' c x : Permutation df df' -> Permutation (group v df c x) (group v df' c x).
Proof. intros P. rewrite !group_flat. now apply Permutation_flat_map. Qed.
Lemma flat_map_filter {A B} (p : A -> bool) (h : A -> B) l : flat_map (fun a => if p a then [h a] else []) l = map h (filter p l).
Proof. induction l as [|a l IH]; [reflexivity|]. cbn [flat_map filter]. destruct (p a); cbn [app map]; now rewrite IH. Qed.
Definition trow (back : R -> R) (e : (string * string * path) * list layer) : flat := let '(c, x, _, table) := e in total_row back c x (totals_of table).
Lemma trow_is back e : formed (snd e) -> exists a1 a2 a3 a4 a5 m, snd (totals_of (snd e)) = [a1; a2; a3; a4; a5] /\
  trow back e = mk_flat (fst (fst (fst e))) (snd (fst (fst e)))
    [("total ice 1m", Some (back a1)); ("total ice 3m", Some (back a2)); ("total ice 6m", Some (back a3)); ("total ice 10m", Some (back a4)); ("total ice 100m", Some (back a5));
     ("total ice", Some (ice_in back e)); ("maxdepth", Some (back m))]%string.
Proof.
  destruct e as [[[c x] p] t]. cbn [fst snd]. intros F. destruct (C86_totals t F) as (tot & m & am & Q & Qt & _ & _ & Len & _).
  unfold trow. rewrite Q. cbn [snd]. destruct am as [|a1 [|a2 [|a3 [|a4 [|a5 [|]]]]]]; try discriminate. exists a1, a2, a3, a4, a5, m. split; [reflexivity|].
  unfold total_row, ice_in. cbn [snd]. rewrite <- Qt. reflexivity.
Qed.
Lemma violin_group back found c x tot : Forall (fun e => formed (snd e)) found -> Permutation tot (map (trow back) found) ->
  Permutation (group log_ice tot c x) (map (fun e => log10 (ice_in back e)) (filter (fun e => of_run c x e && Rleb 1 (ice_in back e)) found)).
Proof.
  intros F P. etransitivity; [apply group_perm; exact P|]. rewrite group_flat, flat_map_maps. apply perm_eq. rewrite <- flat_map_filter.
  apply flat_map_ext_in. intros e I. rewrite Forall_forall in F. destruct (trow_is back e (F e I)) as (a1 & a2 & a3 & a4 & a5 & m & _ & ->).
  cbn [fl_trap fl_run]. unfold of_run. destruct (_ && _); [|reflexivity]. cbn [andb]. unfold log_ice, stat. cbn [fl_stats find fst].
  repeat match goal with |- context [String.eqb ?a ?b] => let v := eval vm_compute in (String.eqb a b) in change (String.eqb a b) with v; cbn iota end.
  rcase (ice_in back e) 1 E; destruct (Rleb 1 (ice_in back e)) eqn:D; try reflexivity.
  - apply Rleb_true in D. lra.
  - apply Rleb_false in D. lra.
Qed.
Lemma log10_nonneg x : 1 <= x -> 0 <= log10 x.
Proof.
  intros H. unfold log10. assert (0 < ln 10) by (rewrite <- ln_1; apply ln_increasing; lra). apply Rmult_le_pos; [|left; now apply Rinv_0_lt_compat].
  rewrite <- ln_1. destruct (Req_dec x 1) as [->|N]; [lra|]. left. apply ln_increasing; lra.
Qed.

(** * Layers *)

Lemma round1_tenths x : tenths x (round1 x).
Proof.
  unfold tenths, round1. split; [eauto|]. pose proof (rint_err (x * 10)) as H.
  replace (IZR (rint (x * 10)) / 10 - x) with ((IZR (rint (x * 10)) - x * 10) * / 10) by field.
  rewrite Rabs_mult, (Rabs_right (/ 10)) by lra. lra.
Qed.
Lemma round1_pos x : Rltb (round1 x) (1 / 10) = negb (Rltb (1 / 20) x).
Proof.
  unfold round1. pose proof (rint_err (x * 10)) as H.
  assert (H' : -(1 / 2) <= IZR (rint (x * 10)) - x * 10 <= 1 / 2) by (unfold Rabs in H; destruct (Rcase_abs _); lra). clear H.
  destruct (Rltb (1 / 20) x) eqn:D; cbn [negb].
  - apply Rltb_true in D. apply Rltb_false. assert (0 < rint (x * 10))%Z by (apply lt_IZR; lra). assert (1 <= IZR (rint (x * 10))) by (apply IZR_le; lia). lra.
  - apply Rltb_false in D. apply Rltb_true. assert (rint (x * 10) <= rint (1 / 2))%Z as M by (apply rint_mono; lra).
    assert (rint (1 / 2) = 0%Z) as Z0.
    { unfold rint. rewrite (Int_part_unique (1 / 2) 0) by lra. rcase (1 / 2 - 0) (1 / 2) A; [lra|]. rcase (1 / 2) (1 / 2 - 0) B; [lra|]. reflexivity. }
    rewrite Z0 in M. apply IZR_le in M. lra.
Qed.
Definition kde_of (back : R -> R) (c : string) (nl : string * layer) : kde_row :=
  let i := round1 (back (l_ice (snd nl))) in let d := round1 (back (l_depth (snd nl))) in mk_kde c (fst nl) i d (Rmax (d - i) (1 / 10)).
Lemma clean_row back c n l : clean_layer (mk_flat c n [("ice", Some (back (l_ice l))); ("depth", Some (back (l_depth l))); ("time", Some (back (l_time l)))]%string) =
  if thick_enough back l then [kde_of back c (n, l)] else [].
Proof.
  unfold clean_layer, stat. cbn [fl_stats find fst].
  repeat match goal with |- context [String.eqb ?a ?b] => let v := eval vm_compute in (String.eqb a b) in change (String.eqb a b) with v; cbn iota end.
  rewrite !round1_pos. unfold thick_enough. destruct (Rltb (1 / 20) (back (l_ice l))), (Rltb (1 / 20) (back (l_depth l))); reflexivity.
Qed.
Lemma kde_shows back c nl : thick_enough back (snd nl) = true -> shows back c (fst nl) (snd nl) (kde_of back c nl).
Proof.
  intros T. apply andb_prop in T as [T1 T2]. unfold shows, kde_of. cbn [kd_trap kd_run kd_ice kd_depth kd_top].
  split; [reflexivity|]. split; [reflexivity|]. split; [apply round1_tenths|]. split; [apply round1_tenths|].
  pose proof (round1_pos (back (l_ice (snd nl)))) as A. rewrite T1 in A. apply Rltb_false in A.
  pose proof (round1_pos (back (l_depth (snd nl)))) as B. rewrite T2 in B. apply Rltb_false in B.
  split; [lra|]. split; [lra|]. apply Rmax_comm.
Qed.
Lemma layers_thick back found c rn nn nl : In nl (layers_of back found c rn nn) -> thick_enough back (snd nl) = true.
Proof.
  unfold layers_of. intros I. apply in_flat_map in I as (e & _ & I). apply in_flat_map in I as ([x n] & _ & I). destruct (of_run c x e); [|destruct I].
  apply in_map_iff in I as (l & <- & I). apply filter_In in I. apply I.
Qed.
Lemma kde_rows back found c rn nn lay : renames rn nn ->
  Permutation lay (flat_map (fun '(c, x, _, table) => map (layer_row back c x) table) found) ->
  Permutation (filter (fun r => String.eqb (kd_trap r) c) (flat_map clean_layer (rename_runs lay rn nn))) (map (kde_of back c) (layers_of back found c rn nn)).
Proof.
  intros Rn P. rewrite rename_is by exact Rn. rewrite flat_map_flat.
  set (G := fun r => filter (fun r => String.eqb (kd_trap r) c) (flat_map clean_layer (pick r (combine rn nn)))).
  assert (E : forall lay, filter (fun r => String.eqb (kd_trap r) c) (flat_map (fun a => flat_map clean_layer (pick a (combine rn nn))) lay) = flat_map G lay).
  { intros l. induction l as [|r l IH]; [reflexivity|]. cbn [flat_map]. rewrite filter_app, IH. reflexivity. }
  rewrite E. etransitivity; [apply Permutation_flat_map; exact P|]. rewrite flat_map_flat. unfold layers_of. clear E P lay.
  induction found as [|e found IH]; [constructor|]. cbn [flat_map]. rewrite map_app. apply Permutation_app; [|exact IH]. clear IH.
  destruct e as [[[c' x'] p] t]. cbn [snd]. rewrite flat_map_maps.
  assert (E : forall l, G (layer_row back c' x' l) = flat_map (fun xn => if of_run c (fst xn) (c', x', p, t) then (if thick_enough back l then [kde_of back c (snd xn, l)] else []) else []) (combine rn nn)).
  { intros l. unfold G. unfold pick, layer_row. cbn [fl_run fl_trap fl_stats]. rewrite flat_map_flat. induction (combine rn nn) as [|[x n] Q IH]; [reflexivity|].
    cbn [flat_map]. rewrite filter_app, IH. apply f_equal2; [|reflexivity]. unfold of_run. cbn [fst snd]. destruct (String.eqb_spec x' x) as [->|Nx].
    - cbn [flat_map]. rewrite clean_row, app_nil_r. rewrite andb_true_r. destruct (String.eqb_spec c' c) as [->|Nc].
      + destruct (thick_enough back l); [|reflexivity]. cbn [filter kde_of kd_trap]. now rewrite String.eqb_refl.
      + destruct (thick_enough back l); [|reflexivity]. cbn [filter kde_of kd_trap]. apply String.eqb_neq in Nc. now rewrite Nc.
    - rewrite andb_false_r. reflexivity. }
  erewrite flat_map_ext by exact E. etransitivity; [apply flat_map_swap|]. apply perm_eq.
  rewrite flat_map_concat_map, (flat_map_concat_map _ (combine rn nn)), concat_map, map_map. f_equal. apply map_ext. intros [x n]. cbn [fst snd].
  destruct (of_run c x (c', x', p, t)); [|rewrite flat_map_nil; reflexivity]. rewrite flat_map_filter, map_map. reflexivity.
Qed.
Lemma every_nth {A} (k j : nat) (l : list A) i : (0 < k)%nat -> nth_error (every k j l) i = nth_error l (j + k * i).
Proof.
  intros K. revert j i. induction l as [|x l IH]; intros j i; cbn [every]; [destruct i; destruct (j + k * _)%nat; reflexivity|].
  destruct j as [|j].
  - destruct i as [|i]; [rewrite Nat.mul_0_r; reflexivity|]. cbn [nth_error]. rewrite IH. replace (0 + k * S i)%nat with (S (k - 1 + k * i))%nat by nia. reflexivity.
  - rewrite IH. reflexivity.
Qed.

(** * Quantiles *)

Lemma insert_num_perm x l : Permutation (x :: l) (insert_num x l).
Proof. induction l as [|y l IH]; [reflexivity|]. cbn [insert_num]. destruct (Rleb x y); [reflexivity|]. etransitivity; [apply perm_swap|]. now constructor. Qed.
Lemma sort_num_perm l : Permutation l (sort_num l).
Proof. induction l as [|x l IH]; [reflexivity|]. cbn [sort_num fold_right]. etransitivity; [apply perm_skip; exact IH|]. apply insert_num_perm. Qed.
Lemma insert_num_sorted x l : StronglySorted Rle l -> StronglySorted Rle (insert_num x l).
Proof.
  induction 1 as [|y l S IH F]; [repeat constructor|]. cbn [insert_num]. destruct (Rleb x y) eqn:D.
  - apply Rleb_true in D. constructor; [now constructor|]. constructor; [exact D|]. eapply Forall_impl; [|exact F]. cbn beta. intros; lra.
  - apply Rleb_false in D. constructor; [exact IH|]. eapply Permutation_Forall; [apply insert_num_perm|]. constructor; [lra|exact F].
Qed.
Lemma sort_num_sorted l : StronglySorted Rle (sort_num l).
Proof. induction l as [|x l IH]; [constructor|]. now apply insert_num_sorted. Qed.
Lemma filter_all {A} (p : A -> bool) l : Forall (fun x => p x = true) l -> filter p l = l.
Proof. induction 1 as [|x l H F IH]; [reflexivity|]. cbn [filter]. now rewrite H, IH. Qed.
Lemma sorted_split l k a : StronglySorted Rle l -> nth_error l k = Some a ->
  exists l1 l2, l = l1 ++ a :: l2 /\ length l1 = k /\ Forall (fun x => x <= a) l1 /\ Forall (fun x => a <= x) l2.
Proof.
  intros S N. apply nth_error_split in N as (l1 & l2 & -> & Len). exists l1, l2. split; [reflexivity|]. split; [exact Len|]. clear Len.
  induction l1 as [|y l1 IH]; cbn [app] in S; apply StronglySorted_inv in S as [S F].
  - split; [constructor|exact F].
  - destruct (IH S) as [I J]. split; [|exact J]. constructor; [|exact I]. rewrite Forall_forall in F. apply F. apply in_or_app. right. now left.
Qed.
Lemma filter_len_perm {A} (p : A -> bool) l l' : Permutation l l' -> length (filter p l) = length (filter p l').
Proof. induction 1; cbn [filter]; try destruct (p x); try destruct (p y); cbn [length]; congruence. Qed.
Lemma count_le l k a v : StronglySorted Rle l -> nth_error l k = Some a -> a <= v -> (S k <= length (filter (fun x => Rleb x v) l))%nat.
Proof.
  intros S N V. destruct (sorted_split l k a S N) as (l1 & l2 & -> & <- & F1 & F2). rewrite filter_app, app_length. cbn [filter].
  rewrite (filter_all _ l1) by (eapply Forall_impl; [|exact F1]; cbn beta; intros x X; apply Rleb_true; lra).
  assert (H : Rleb a v = true) by (apply Rleb_true; lra). rewrite H. cbn [length]. lia.
Qed.
Lemma count_ge l k a v : StronglySorted Rle l -> nth_error l k = Some a -> v <= a -> (length l - k <= length (filter (fun x => Rleb v x) l))%nat.
Proof.
  intros S N V. destruct (sorted_split l k a S N) as (l1 & l2 & -> & <- & F1 & F2). rewrite filter_app, !app_length. cbn [filter].
  rewrite (filter_all _ l2) by (eapply Forall_impl; [|exact F2]; cbn beta; intros x X; apply Rleb_true; lra).
  assert (H : Rleb v a = true) by (apply Rleb_true; lra). rewrite H. cbn [length]. lia.
Qed.
Lemma quantile_ok q l : 0 <= q <= 1 -> l <> [] ->
  exists v, quantile q l = Some v /\ (exists a b, In a l /\ In b l /\ a <= v <= b) /\
    q * (INR (length l) - 1) < at_most v l /\ (1 - q) * (INR (length l) - 1) <= at_least v l.
Proof.
  intros Q N. unfold quantile. pose proof (sort_num_perm l) as P. pose proof (sort_num_sorted l) as Hs. destruct (sort_num l) as [|x r] eqn:E.
  { apply Permutation_sym, Permutation_nil in P. contradiction. }
  set (s := x :: r) in *. assert (Len : length l = S (length r)) by (rewrite (Permutation_length P); reflexivity).
  set (h := INR (length r) * q). set (k := Int_part h). pose proof (Int_part_bounds h) as B. fold k in B.
  pose proof (pos_INR (length r)) as Pr. assert (H0 : 0 <= h) by (unfold h; nra). assert (H1 : h <= INR (length r)) by (unfold h; nra).
  assert (K0 : (0 <= k)%Z). { assert (-1 < k)%Z by (apply lt_IZR; lra). lia. }
  assert (Kn : IZR k = INR (Z.to_nat k)) by (rewrite INR_IZR_INZ, Z2Nat.id by exact K0; reflexivity).
  assert (K1 : (Z.to_nat k <= length r)%nat) by (apply INR_le; lra).
  assert (Na : nth_error s (Z.to_nat k) = Some (nth (Z.to_nat k) s x)) by (apply nth_error_nth'; cbn [length s]; unfold s; cbn [length]; lia).
  set (a := nth (Z.to_nat k) s x) in *. set (b := nth (S (Z.to_nat k)) s a).
  assert (Ia : In a l) by (eapply Permutation_in; [symmetry; exact P|]; eapply nth_error_In; exact Na).
  assert (Hb : a <= b /\ In b l /\ (b = a \/ nth_error s (S (Z.to_nat k)) = Some b)).
  { unfold b. destruct (nth_error s (S (Z.to_nat k))) as [y|] eqn:Nb.
    - assert (nth (S (Z.to_nat k)) s a = y) as -> by (now apply nth_error_nth). split; [|split; [|now right]].
      + destruct (sorted_split s _ _ Hs Na) as (l1 & l2 & Es & L1 & _ & F2). rewrite Es in Nb. rewrite nth_error_app2 in Nb by lia.
        replace (S (Z.to_nat k) - length l1)%nat with 1%nat in Nb by lia. cbn [nth_error] in Nb. destruct l2 as [|z l2]; [discriminate|].
        inversion F2; subst. cbn in Nb. injection Nb as <-. assumption.
      + eapply Permutation_in; [symmetry; exact P|]; eapply nth_error_In; exact Nb.
    - apply nth_error_None in Nb. rewrite (nth_overflow s a Nb). split; [lra|]. split; [exact Ia|now left]. }
  destruct Hb as (Hab & Ib & Hb). set (v := a + (b - a) * (h - IZR k)). assert (Va : a <= v) by (unfold v; nra). assert (Vb : v <= b) by (unfold v; nra).
  exists v. split; [reflexivity|]. split; [exists a, b; auto|]. rewrite Len, S_INR. unfold at_most, at_least.
  rewrite (filter_len_perm _ _ _ P), (filter_len_perm (fun y => Rleb v y) _ _ P). split.
  - pose proof (count_le s _ _ v Hs Na Va) as C. apply le_INR in C. rewrite S_INR in C. unfold h in *. lra.
  - assert (Es : length s = S (length r)) by reflexivity. destruct Hb as [Hb|Hb].
    + pose proof (count_ge s _ _ v Hs Na) as C. rewrite Es in C. assert (V2 : v <= a) by lra. apply C, le_INR in V2. rewrite minus_INR in V2 by lia. rewrite S_INR in V2. unfold h in *. lra.
    + assert (Kb : (S (Z.to_nat k) < length s)%nat) by (apply nth_error_Some; congruence). rewrite Es in Kb.
      pose proof (count_ge s _ _ v Hs Hb Vb) as C. rewrite Es in C. apply le_INR in C. rewrite minus_INR in C by lia. rewrite !S_INR in C. unfold h in *. lra.
Qed.

(** * Boxes *)

Definition key_at (k : nat) : string := ("total ice " ++ digits 1 (depth_at k) ++ "m")%string.
Lemma stat_key back e k : formed (snd e) -> (k < 5)%nat -> stat (trow back e) (key_at k) = Some (back (ice_above k (snd e))).
Proof.
  intros F K. destruct (trow_is back e F) as (a1 & a2 & a3 & a4 & a5 & m & A & ->). unfold ice_above. rewrite A.
  unfold stat. cbn [fl_stats find fst].
  destruct k as [|[|[|[|[|]]]]]; try lia; cbn [nth];
  repeat match goal with |- context [String.eqb ?a ?b] => let v := eval vm_compute in (String.eqb a b) in change (String.eqb a b) with v; cbn iota end; reflexivity.
Qed.
Lemma trow_names back e : fl_trap (trow back e) = fst (fst (fst e)) /\ fl_run (trow back e) = snd (fst (fst e)).
Proof. destruct e as [[[c x] p] t]. unfold trow, total_row. destruct (totals_of t) as [[? ?] ?]. auto. Qed.
Lemma filter_filter {A} (p q : A -> bool) l : filter p (filter q l) = filter (fun x => p x && q x) l.
Proof. induction l as [|x l IH]; [reflexivity|]. cbn [filter]. destruct (q x); cbn [filter]; destruct (p x); cbn [andb]; congruence. Qed.
Lemma box_values back found tot k c : Forall (fun e => formed (snd e)) found -> Permutation tot (map (trow back) found) -> (k < 5)%nat ->
  Permutation (group (fun r => stat r (key_at k)) tot c "moonpies") (map (fun e => back (ice_above k (snd e))) (filter (of_run c "moonpies") found)).
Proof.
  intros F P K. etransitivity; [apply group_perm; exact P|]. rewrite group_flat, flat_map_maps. apply perm_eq. rewrite <- flat_map_filter.
  apply flat_map_ext_in. intros e I. rewrite Forall_forall in F. rewrite stat_key by auto. destruct (trow_names back e) as [-> ->]. reflexivity.
Qed.
Lemma box_rows back found tot c : Permutation tot (map (trow back) found) ->
  length (filter (fun r => String.eqb (fl_trap r) c && String.eqb (fl_run r) "moonpies") tot) = length (filter (of_run c "moonpies") found).
Proof.
  intros P. rewrite (filter_len_perm _ _ _ P). clear P. induction found as [|e found IH]; [reflexivity|]. cbn [map filter].
  destruct (trow_names back e) as [-> ->]. unfold of_run at 1. destruct (_ && _); cbn [length]; now rewrite IH.
Qed.
Lemma unique_in x l : In x (unique l) <-> In x l.
Proof.
  induction l as [|y l IH]; [reflexivity|]. cbn [unique In]. rewrite filter_In, IH, negb_true_iff. split; [tauto|].
  intros [->|I]; [now left|]. destruct (String.eqb_spec x y) as [->|N]; auto.
Qed.
Lemma unique_nodup l : NoDup (unique l).
Proof.
  induction l as [|y l IH]; [constructor|]. cbn [unique]. constructor.
  - rewrite filter_In, String.eqb_refl. intros [_ X]. discriminate.
  - apply NoDup_filter. exact IH.
Qed.
Lemma filter_length_le' {A} (p : A -> bool) l : (length (filter p l) <= length l)%nat.
Proof. induction l as [|x l IH]; [auto|]. cbn [filter]. destruct (p x); cbn [length]; lia. Qed.
Lemma key_exists back found tot k : Forall (fun e => formed (snd e)) found -> Permutation tot (map (trow back) found) -> found <> [] -> (k < 5)%nat ->
  existsb (fun r => existsb (fun e => String.eqb (fst e) (key_at k)) (fl_stats r)) tot = true.
Proof.
  intros F P N K. destruct found as [|e found]; [now elim N|]. apply existsb_exists. exists (trow back e). split.
  - eapply Permutation_in; [symmetry; exact P|]. now left.
  - inversion F as [|? ? Fe _]; subst. pose proof (stat_key back e k Fe K) as S. unfold stat in S. destruct (find _ _) as [kv|] eqn:D; [|discriminate].
    apply find_some in D as [I D]. apply existsb_exists. exists kv. auto.
Qed.

Definition vals_of (tot : list flat) (sdepth : N) (c : string) : list R := group (fun r => stat r ("total ice " ++ digits 1 sdepth ++ "m")%string) tot c "moonpies".
Definition panel_of (tot : list flat) (corder : list string) (sdepth : N) : panel :=
  mk_panel (map (fun c => (c, vals_of tot sdepth c)) corder)
    (if (sdepth =? 6)%N then [("p75"%string, quantile (75 / 100) (vals_of tot sdepth "Faustini")); ("p99"%string, quantile (95 / 100) (vals_of tot sdepth "Faustini"))] else [])
    (map (fun c => (c, INR (length (filter (fun x => Rltb (if (sdepth =? 6)%N then 3 / 10 else 5) x) (vals_of tot sdepth c))) /
                       INR (length (filter (fun r => String.eqb (fl_trap r) c && String.eqb (fl_run r) "moonpies") tot))))
         (unique (map fl_trap (filter (fun r => String.eqb (fl_run r) "moonpies") tot)))).
Lemma surface_form parse L s cwd dp dd corder sdepths lay tot n :
  load_aggregated parse L s cwd dp (Text dd) = Ok (lay, tot, n) -> sdepths <> [] ->
  (forall d, In d sdepths -> existsb (fun r => existsb (fun e => String.eqb (fst e) ("total ice " ++ digits 1 d ++ "m")%string) (fl_stats r)) tot = true) ->
  surface_boxplot parse L s cwd dp dd corder sdepths = Ok (map (panel_of tot corder) sdepths, n).
Proof.
  intros Ld Nd K. unfold surface_boxplot. rewrite Ld. cbn [bind]. destruct sdepths as [|d0 ds] eqn:E; [now elim Nd|]. rewrite <- E in *. clear E d0 ds Nd.
  match goal with |- bind (mapM ?f _) _ = _ => set (body := f) end.
  assert (M : mapM body sdepths = Ok (map (panel_of tot corder) sdepths)).
  { induction sdepths as [|d ds IH]; [reflexivity|]. cbn [mapM map]. rewrite IH by (intros; apply K; now right). unfold body at 1. rewrite (K d (or_introl eq_refl)). cbn [bind].
    apply f_equal. apply f_equal2; [|reflexivity]. unfold panel_of, vals_of, group.
    assert (X : forall c, filter (fun r => String.eqb (fl_trap r) c && String.eqb (fl_run r) "moonpies") tot = filter (fun r => String.eqb (fl_trap r) c) (filter (fun r => String.eqb (fl_run r) "moonpies") tot)) by (intros; symmetry; apply filter_filter).
    f_equal.
    - apply map_ext. intros c. now rewrite X.
    - now rewrite X.
    - apply map_ext. intros c. now rewrite !X. }
  rewrite M. reflexivity.
Qed.

Lemma pick_trap {A} (p : A -> bool) (g : string -> list A) c cs : NoDup cs -> In c cs -> (forall x, In x (g c) -> p x = true) ->
  (forall d x, d <> c -> In x (g d) -> p x = false) -> filter p (flat_map g cs) = g c.
Proof.
  intros N I T F. assert (Z : forall l, ~ In c l -> filter p (flat_map g l) = []).
  { induction l as [|d l IH]; intros M; [reflexivity|]. cbn [flat_map]. rewrite filter_app, IH by (intros J; apply M; now right). rewrite app_nil_r.
    assert (D : d <> c) by (intros ->; apply M; now left). specialize (F d). induction (g d) as [|x t IHt]; [reflexivity|]. cbn [filter]. rewrite (F x D (or_introl eq_refl)). apply IHt. intros y D' J. apply F; [exact D|now right]. }
  induction N as [|d cs M N IH]; [destruct I|]. cbn [flat_map]. rewrite filter_app. destruct I as [->|I].
  - rewrite (Z cs M), app_nil_r. clear -T. induction (g c) as [|x t IHt]; [reflexivity|]. cbn [filter]. rewrite (T x (or_introl eq_refl)). f_equal. apply IHt. intros y J. apply T. now right.
  - rewrite (IH I). assert (D : d <> c) by (intros ->; contradiction). change (g c) with ([] ++ g c) at 2. f_equal. specialize (F d). clear -F D. induction (g d) as [|x t IHt]; [reflexivity|].
    cbn [filter]. rewrite (F x D (or_introl eq_refl)). apply IHt. intros y D' J. apply F; [exact D|now right].
Qed.
