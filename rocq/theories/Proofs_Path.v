(** Facts about path text. *)
From Coq Require Import Decimal DecimalString DecimalN ZArith Lia Bool Ascii String List.
From Verif Require Import Base Model_Path.
Import ListNotations.
Open Scope string_scope.

Fixpoint noslash (s : string) : bool :=
  match s with EmptyString => true | String a r => negb (Ascii.eqb a slash) && noslash r end.
Fixpoint has_name (s : string) : bool :=
  match s with EmptyString => false | String a r => negb (Ascii.eqb a slash) || has_name r end.

Lemma app_nil_s : forall s, s ++ "" = s.
Proof. induction s; cbn [append]; congruence. Qed.
Lemma app_assoc_s : forall a b c, (a ++ b) ++ c = a ++ (b ++ c).
Proof. induction a; intros; cbn [append]; [reflexivity|now rewrite IHa]. Qed.
Lemma app_inj_l : forall a b c, a ++ b = a ++ c -> b = c.
Proof. induction a; cbn [append]; intros b c H; [exact H|injection H; auto]. Qed.
Lemma app_inj_r : forall a b c, b ++ a = c ++ a -> b = c.
Proof.
  assert (L : forall x y, String.length (x ++ y) = (String.length x + String.length y)%nat)
    by (induction x; cbn; auto).
  intros a b; induction b; intros c H; destruct c; cbn [append] in H.
  - reflexivity.
  - exfalso. apply (f_equal String.length) in H. cbn in H. rewrite L in H. lia.
  - exfalso. apply (f_equal String.length) in H. cbn in H. rewrite L in H. lia.
  - injection H as -> H. f_equal. eauto.
Qed.

Lemma split_nonnil : forall s, split_path s <> [].
Proof. destruct s; cbn; [easy|]. destruct (Ascii.eqb a slash); [easy|]. now destruct (split_path s). Qed.
Lemma split_app : forall a b, split_path (a ++ String slash b) = (split_path a ++ split_path b)%list.
Proof.
  induction a; intros b; cbn [append split_path].
  - now rewrite Ascii.eqb_refl.
  - destruct (Ascii.eqb a slash); [cbn; now rewrite IHa|].
    rewrite IHa. pose proof (split_nonnil a0). now destruct (split_path a0).
Qed.
Lemma split_noslash_id : forall s, noslash s = true -> split_path s = [s].
Proof.
  induction s; cbn; [easy|]. destruct (Ascii.eqb a slash); cbn; [easy|]. intros H. now rewrite IHs.
Qed.
Lemma split_parts : forall s, Forall (fun x => noslash x = true) (split_path s).
Proof.
  induction s; cbn; [now repeat constructor|].
  destruct (Ascii.eqb a slash) eqn:E; [now constructor|].
  destruct (split_path s); [constructor; [cbn; now rewrite E|constructor]|].
  inversion IHs; subst. constructor; [cbn; now rewrite E|auto].
Qed.
Lemma split_join : forall l, l <> [] -> Forall (fun x => noslash x = true) l -> split_path (join_path l) = l.
Proof.
  induction l as [|x l IH]; [easy|]. intros _ H. inversion H; subst.
  destruct l as [|y l]; [now apply split_noslash_id|].
  change (join_path (x :: y :: l)) with (x ++ String slash (join_path (y :: l))).
  rewrite split_app, split_noslash_id, IH by (auto; discriminate). reflexivity.
Qed.

Lemma noslash_starts : forall s, noslash s = true -> starts_slash s = false.
Proof. destruct s; cbn; [easy|]. now destruct (Ascii.eqb a slash). Qed.
Lemma noslash_ends : forall s, noslash s = true -> ends_slash s = false.
Proof.
  induction s; cbn; [easy|]. intros H. apply andb_prop in H as [H1 H2].
  destruct s; [now destruct (Ascii.eqb a slash)|auto].
Qed.
Lemma ends_app : forall a b, b <> "" -> ends_slash (a ++ b) = ends_slash b.
Proof.
  induction a; intros b H; cbn [append]; [easy|].
  cbn [ends_slash]. destruct (a0 ++ b) eqn:E.
  - destruct a0; cbn in E; [now subst|easy].
  - rewrite <- E. auto.
Qed.
Lemma starts_app : forall a b, a <> "" -> starts_slash (a ++ b) = starts_slash a.
Proof. now destruct a. Qed.
Lemma app_not_nil : forall a b, a <> "" -> a ++ b <> "".
Proof. destruct a; [easy|discriminate]. Qed.
Lemma ends_last : forall s, ends_slash s = true -> exists t, s = t ++ "/".
Proof.
  induction s; cbn; [easy|]. destruct s.
  - intros H. exists "". cbn. f_equal. now apply Ascii.eqb_eq.
  - intros H. destruct (IHs H) as (t & ->). now exists (String a t).
Qed.
Lemma rstrip_ends : forall s, ends_slash (rstrip_slash s) = false.
Proof.
  induction s; cbn; [easy|]. destruct (rstrip_slash s) eqn:E.
  - destruct (Ascii.eqb a slash) eqn:A; [easy|cbn; exact A].
  - cbn in *. exact IHs.
Qed.
Lemma rstrip_id : forall s, ends_slash s = false -> rstrip_slash s = s.
Proof.
  induction s; cbn; [easy|]. destruct s.
  - cbn. now intros ->.
  - intros H. rewrite IHs by auto. reflexivity.
Qed.
Lemma rstrip_slash_app : forall s, rstrip_slash (s ++ "/") = rstrip_slash s.
Proof. induction s; cbn [append rstrip_slash]; [reflexivity|now rewrite IHs]. Qed.

Lemma has_name_app_l : forall a b, has_name a = true -> has_name (a ++ b) = true.
Proof.
  induction a; cbn; [easy|]. intros b H. apply orb_prop in H as [->|H]; [easy|].
  rewrite IHa by auto. apply orb_true_r.
Qed.
Lemma has_name_app_r : forall a b, has_name b = true -> has_name (a ++ b) = true.
Proof. induction a; cbn; [easy|]. intros b H. rewrite IHa by auto. apply orb_true_r. Qed.

(** *** Components *)
Definition plainc (c : string) : Prop := c <> "" /\ c <> "." /\ c <> ".." /\ noslash c = true.
Definition comps (b : bool) (s : string) := fold_left (norm_step b) (split_path s) [].

Lemma norm_plain : forall b acc c, plainc c -> norm_step b acc c = c :: acc.
Proof.
  intros b acc c (H1 & H2 & H3 & _). unfold norm_step.
  apply String.eqb_neq in H1, H2, H3. now rewrite H1, H2, H3.
Qed.
Lemma norm_keeps : forall acc c, Forall plainc acc -> noslash c = true -> Forall plainc (norm_step true acc c).
Proof.
  intros acc c F N. unfold norm_step.
  destruct (c =? "") eqn:A; [exact F|]. destruct (c =? ".") eqn:B; [exact F|]. cbn [orb].
  destruct (c =? "..") eqn:C; cbn [negb].
  - destruct acc as [|d acc]; [constructor|]. inversion F; subst.
    destruct (d =? "..") eqn:D; [|auto].
    apply String.eqb_eq in D. now destruct H1 as (_ & _ & H & _).
  - apply String.eqb_neq in A, B, C. constructor; [repeat split; auto|auto].
Qed.
Lemma fold_keeps : forall l acc, Forall plainc acc -> Forall (fun x => noslash x = true) l ->
  Forall plainc (fold_left (norm_step true) l acc).
Proof.
  induction l; intros acc F H; [exact F|]. inversion H; subst. cbn. apply IHl; [now apply norm_keeps|auto].
Qed.
Lemma comps_plain : forall s, Forall plainc (comps true s).
Proof. intros s. apply fold_keeps; [constructor|apply split_parts]. Qed.
Lemma fold_plain : forall b l acc, Forall plainc l -> fold_left (norm_step b) l acc = (rev l ++ acc)%list.
Proof.
  induction l; intros acc H; [reflexivity|]. inversion H; subst. cbn.
  rewrite norm_plain by auto. rewrite IHl by auto. now rewrite <- app_assoc.
Qed.
Lemma plain_noslash : forall l, Forall plainc l -> Forall (fun x => noslash x = true) l.
Proof. intros l H. eapply Forall_impl; [|exact H]. intros a (_ & _ & _ & N). exact N. Qed.

Lemma initial_abs : forall p, starts_slash p = true -> initial_slashes p = "/" \/ initial_slashes p = "//".
Proof.
  destruct p; cbn; [easy|]. intros ->. destruct p; [auto|].
  destruct (Ascii.eqb a0 slash && negb (starts_slash p)); auto.
Qed.
Lemma normpath_abs : forall p, starts_slash p = true ->
  normpath p = initial_slashes p ++ join_path (rev (comps true p)).
Proof.
  intros p H. unfold normpath. rewrite H. fold (comps true p).
  destruct (initial_abs p H) as [-> | ->]; reflexivity.
Qed.
Lemma join_plain_starts : forall l, Forall plainc l -> starts_slash (join_path l) = false.
Proof.
  intros l H. destruct H as [|x l (N & _ & _ & S)]; [reflexivity|].
  destruct l; cbn [join_path String.concat].
  - now apply noslash_starts.
  - unfold join_path. cbn [String.concat]. rewrite starts_app by auto. now apply noslash_starts.
Qed.
Lemma join_app : forall l b, join_path (l ++ [b]) = match l with [] => b | _ => join_path l ++ "/" ++ b end.
Proof.
  induction l as [|x l IH]; intros b; [reflexivity|].
  destruct l as [|y l]; [reflexivity|].
  change ((x :: y :: l) ++ [b])%list with (x :: (y :: l) ++ [b])%list.
  change (join_path (x :: (y :: l) ++ [b])) with (x ++ "/" ++ join_path ((y :: l) ++ [b])).
  rewrite IH. change (join_path (x :: y :: l)) with (x ++ "/" ++ join_path (y :: l)).
  now rewrite !app_assoc_s.
Qed.
Lemma join_plain_ends : forall l, Forall plainc l -> ends_slash (join_path l) = false.
Proof.
  intros l H. destruct l as [|x l0] using rev_ind; [reflexivity|].
  apply Forall_app in H as [_ H]. inversion H as [|? ? (N & _ & _ & S) _]; subst.
  rewrite join_app. destruct l0; [now apply noslash_ends|].
  rewrite ends_app by discriminate. cbn [append]. cbn [ends_slash]. destruct x; [easy|]. now apply noslash_ends.
Qed.

Lemma normpath_starts : forall p, starts_slash p = true -> starts_slash (normpath p) = true.
Proof. intros p H. rewrite normpath_abs by auto. now destruct (initial_abs p H) as [-> | ->]. Qed.
Lemma normpath_comps : forall p, starts_slash p = true -> comps true (normpath p) = comps true p.
Proof.
  intros p H. rewrite normpath_abs by auto.
  pose proof (Forall_rev (comps_plain p)) as F. set (l := rev (comps true p)) in *.
  assert (K : forall acc, fold_left (norm_step true) (split_path (join_path l)) acc = (rev l ++ acc)%list).
  { intros acc. destruct l as [|x l'] eqn:E.
    - reflexivity.
    - rewrite split_join; [now apply fold_plain|discriminate|now apply plain_noslash]. }
  unfold comps at 1.
  destruct (initial_abs p H) as [-> | ->]; cbn; rewrite K, app_nil_r; apply rev_involutive.
Qed.
Lemma normpath_initial : forall p, starts_slash p = true -> initial_slashes (normpath p) = initial_slashes p.
Proof.
  intros p H. rewrite normpath_abs by auto.
  pose proof (join_plain_starts _ (Forall_rev (comps_plain p))) as S.
  set (q := join_path _) in *.
  destruct (initial_abs p H) as [-> | ->]; cbn.
  - destruct q; [reflexivity|]. cbn in S. now rewrite S.
  - now rewrite S.
Qed.
Lemma normpath_idem : forall p, starts_slash p = true -> normpath (normpath p) = normpath p.
Proof.
  intros p H. rewrite (normpath_abs (normpath p)) by now apply normpath_starts.
  rewrite normpath_comps, normpath_initial by auto. symmetry. now apply normpath_abs.
Qed.

(** Appending a plain component. *)
Definition addc (r b : string) : string := (if ends_slash r then r else r ++ "/") ++ b.

Lemma initial_more : forall a b, noslash b = true -> b <> "" ->
  initial_slashes (a ++ String slash b) = initial_slashes (a ++ "/").
Proof.
  intros a b N B. pose proof (noslash_starts b N) as S.
  destruct a as [|c [|d [|e a]]]; cbn [append initial_slashes].
  - rewrite Ascii.eqb_refl. destruct b; [easy|]. cbn in S. now rewrite S.
  - destruct (Ascii.eqb c slash); [|reflexivity]. rewrite Ascii.eqb_refl. cbn. now rewrite S.
  - destruct (Ascii.eqb c slash); [|reflexivity].
    destruct (Ascii.eqb d slash); cbn; now rewrite ?Ascii.eqb_refl.
  - reflexivity.
Qed.
Lemma initial_slash_end : forall a, has_name a = true -> initial_slashes (a ++ "/") = initial_slashes a.
Proof.
  intros a H. destruct a as [|c [|d [|e a]]]; cbn [append initial_slashes]; [easy| | |reflexivity];
    destruct (Ascii.eqb c slash) eqn:C; cbn in H; rewrite C in H; try reflexivity; [easy|].
  destruct (Ascii.eqb d slash) eqn:D; cbn in *; [easy|reflexivity].
Qed.
Lemma ends_false_name : forall a, a <> "" -> ends_slash a = false -> has_name a = true.
Proof.
  induction a; [easy|]. intros _ H. cbn [has_name]. destruct (Ascii.eqb a slash) eqn:E; [|reflexivity].
  cbn. destruct a0; cbn in *; [congruence|]. apply IHa; [discriminate|auto].
Qed.
Lemma comps_slash_end : forall b a, comps b (a ++ "/") = comps b a.
Proof.
  intros b a. unfold comps. change "/" with (String slash ""). rewrite (split_app a ""). rewrite fold_left_app. reflexivity.
Qed.
Lemma comps_add : forall a b, plainc b -> comps true (a ++ String slash b) = b :: comps true a.
Proof.
  intros a b P. unfold comps. rewrite split_app, fold_left_app.
  rewrite (split_noslash_id b) by apply P. cbn. now apply norm_plain.
Qed.
Lemma normpath_join : forall a b, starts_slash a = true -> plainc b ->
  normpath (path_join a b) = addc (normpath a) b.
Proof.
  intros a b H P. destruct P as (B0 & B1 & B2 & N) eqn:EP.
  assert (A0 : a <> "") by (intros ->; discriminate).
  assert (J : exists a', path_join a b = a' ++ String slash b /\ initial_slashes (a' ++ "/") = initial_slashes a
              /\ comps true a' = comps true a).
  { unfold path_join. rewrite (noslash_starts b N).
    destruct (ends_slash a) eqn:E.
    - destruct (ends_last a E) as (t & ->). exists t. split; [|split; [reflexivity|]].
      + destruct (t ++ "/") eqn:E'; [now destruct t|]. rewrite <- E'. now rewrite app_assoc_s.
      + symmetry. apply comps_slash_end.
    - exists a. split; [now destruct a|split; [|reflexivity]].
      apply initial_slash_end. now apply ends_false_name. }
  destruct J as (a' & J & I & C). rewrite J.
  assert (S : starts_slash (a' ++ String slash b) = true).
  { rewrite <- J. unfold path_join. rewrite (noslash_starts b N).
    destruct a; [easy|]. now destruct (ends_slash _). }
  rewrite normpath_abs by exact S. rewrite initial_more by auto. rewrite I.
  rewrite comps_add by exact P. rewrite C. rewrite (normpath_abs a H).
  pose proof (Forall_rev (comps_plain a)) as F.
  cbn [rev]. rewrite join_app. set (l := rev (comps true a)) in *.
  unfold addc. destruct l as [|x l'] eqn:L.
  - cbn [join_path String.concat]. rewrite app_nil_s.
    now destruct (initial_abs a H) as [-> | ->].
  - rewrite ends_app.
    + rewrite join_plain_ends by exact F. now rewrite !app_assoc_s.
    + intros X. inversion F as [|? ? (N0 & _) _]; subst.
      destruct l'; cbn in X; [easy|]. destruct x; [easy|discriminate].
Qed.
Lemma normpath_slash_end : forall a, starts_slash a = true -> has_name a = true -> normpath (a ++ "/") = normpath a.
Proof.
  intros a S H. rewrite !normpath_abs; [|exact S|rewrite starts_app; [exact S|intros ->; easy]].
  now rewrite initial_slash_end, comps_slash_end.
Qed.

(** *** Absolute paths *)
Definition resolve (cwd home p : string) : string := abspath cwd (expanduser home p).
Definition absol (cwd p : string) : string := if starts_slash p then p else path_join cwd p.
Lemma abspath_absol : forall cwd p, abspath cwd p = normpath (absol cwd p).
Proof. reflexivity. Qed.

Lemma path_join_not : forall a b, starts_slash b = false -> a <> "" ->
  path_join a b = (if ends_slash a then a else a ++ "/") ++ b.
Proof.
  intros a b S A. unfold path_join. rewrite S. destruct a; [easy|]. destruct (ends_slash _); [easy|].
  now rewrite app_assoc_s.
Qed.
Lemma path_join_starts : forall a b, starts_slash a = true -> starts_slash b = false -> starts_slash (path_join a b) = true.
Proof.
  intros a b A B. rewrite path_join_not; [|auto|intros ->; easy].
  destruct a; [easy|]. now destruct (ends_slash _).
Qed.
Lemma absol_starts : forall cwd p, starts_slash cwd = true -> starts_slash (absol cwd p) = true.
Proof.
  intros c p H. unfold absol. destruct (starts_slash p) eqn:E; [exact E|now apply path_join_starts].
Qed.
Lemma join_nonnil : forall a b, a <> "" -> b <> "" -> path_join a b <> "".
Proof.
  intros a b A B. unfold path_join. destruct (starts_slash b); [auto|]. destruct a; [easy|].
  now destruct (ends_slash _).
Qed.
Lemma absol_join : forall cwd d b, starts_slash cwd = true -> d <> "" -> b <> "" -> starts_slash b = false ->
  absol cwd (path_join d b) = path_join (absol cwd d) b.
Proof.
  intros c d b C D B S.
  assert (SJ : starts_slash (path_join d b) = starts_slash d).
  { rewrite path_join_not by auto. destruct d; [easy|]. now destruct (ends_slash _). }
  unfold absol. rewrite SJ. destruct (starts_slash d) eqn:SD; [reflexivity|].
  assert (C0 : c <> "") by (intros ->; easy).
  assert (CD : path_join c d <> "") by (apply join_nonnil; auto).
  rewrite (path_join_not c (path_join d b)) by congruence.
  rewrite (path_join_not (path_join c d) b) by auto.
  rewrite (path_join_not c d) by auto. rewrite (path_join_not d b) by auto.
  rewrite ends_app by auto. destruct (ends_slash d); now rewrite !app_assoc_s.
Qed.
Lemma absol_slash_end : forall cwd p, cwd <> "" -> p <> "" -> absol cwd (p ++ "/") = absol cwd p ++ "/".
Proof.
  intros c p C P. unfold absol. rewrite starts_app by auto. destruct (starts_slash p) eqn:S; [reflexivity|].
  rewrite !path_join_not; auto; [|now rewrite starts_app]. now rewrite app_assoc_s.
Qed.

Lemma expanduser_join : forall h d b, d <> "" -> b <> "" -> starts_slash b = false ->
  expanduser h (path_join d b) = path_join (expanduser h d) b.
Proof.
  intros h d b D B S. rewrite (path_join_not d b) by auto. destruct d as [|x d]; [easy|].
  destruct (Ascii.eqb x "~") eqn:T.
  2: { replace (expanduser h (String x d)) with (String x d) by (cbn; now rewrite T).
       rewrite path_join_not by (auto; discriminate).
       destruct (ends_slash (String x d)); cbn; now rewrite T. }
  destruct d as [|y d].
  - cbn [ends_slash append]. apply Ascii.eqb_eq in T. subst x.
    change (Ascii.eqb "~" slash) with false. cbn [append].
    unfold expanduser. cbn -[rstrip_slash append path_join]. rewrite app_nil_s.
    rewrite orb_true_r || idtac. pose proof (rstrip_ends h) as R.
    destruct (rstrip_slash h) eqn:E.
    + cbn [append]. rewrite path_join_not by (auto; discriminate). reflexivity.
    + rewrite path_join_not by (auto; discriminate). rewrite R. now rewrite app_assoc_s.
  - cbn [ends_slash]. fold (ends_slash (String y d)).
    assert (X : forall t, (if ends_slash (String y d) then String x (String y d) else String x (String y d) ++ "/") ++ t
                 = String x (String y ((if ends_slash (String y d) then d else d ++ "/") ++ t))).
    { intros t. now destruct (ends_slash (String y d)). }
    rewrite X. unfold expanduser. rewrite T.
    change (String y d =? "") with false.
    change (String y ((if ends_slash (String y d) then d else d ++ "/") ++ b) =? "") with false.
    cbn [andb orb starts_slash].
    destruct (Ascii.eqb y slash) eqn:Y.
    + destruct (rstrip_slash h ++ String y d) eqn:E1'; [now destruct (rstrip_slash h)|]. rewrite <- E1'. clear E1'.
      rewrite path_join_not by (auto; destruct (rstrip_slash h); discriminate).
      rewrite ends_app by discriminate.
      match goal with |- match ?q with _ => _ end = _ => destruct q eqn:E2'; [now destruct (rstrip_slash h)|] end.
      rewrite <- E2'. destruct (ends_slash (String y d)); now rewrite !app_assoc_s.
    + rewrite path_join_not by (auto; discriminate).
      change (ends_slash (String x (String y d))) with (ends_slash (String y d)). now rewrite X.
Qed.
Lemma expanduser_slash : forall h p, starts_slash p = true -> expanduser h p = p.
Proof.
  intros h [|a p]; cbn; [easy|]. intros H. apply Ascii.eqb_eq in H. subst. reflexivity.
Qed.
Lemma expanduser_nonnil : forall h p, p <> "" -> expanduser h p <> "".
Proof.
  intros h [|a p] H; [easy|]. unfold expanduser. destruct (_ && _); [|easy].
  now destruct (rstrip_slash h ++ p).
Qed.
Lemma expanduser_end : forall h p, p <> "" -> p <> "~" -> expanduser h (p ++ "/") = expanduser h p ++ "/".
Proof.
  intros h [|a [|b p]] P T; [easy| |].
  - cbn. destruct (Ascii.eqb a "~") eqn:E; [|reflexivity]. apply Ascii.eqb_eq in E. congruence.
  - unfold expanduser. cbn [append].
    change (String b (p ++ "/") =? "") with false. change (String b p =? "") with false. cbn [orb starts_slash].
    destruct (_ && _); [|reflexivity].
    destruct (rstrip_slash h ++ String b p) eqn:E; [now destruct (rstrip_slash h)|]. rewrite <- E.
    change (String b (p ++ "/")) with (String b p ++ "/"). rewrite <- app_assoc_s. rewrite E. reflexivity.
Qed.
Fixpoint has_digit (s : string) : bool :=
  match s with EmptyString => false | String a r => is_digit a || has_digit r end.
Lemma has_digit_app_r : forall a b, has_digit b = true -> has_digit (a ++ b) = true.
Proof. induction a; cbn; [easy|]. intros b H. rewrite IHa by auto. apply orb_true_r. Qed.
Lemma has_digit_app_l : forall a b, has_digit a = true -> has_digit (a ++ b) = true.
Proof.
  induction a; cbn; [easy|]. intros b H. apply orb_prop in H as [->|H]; [easy|].
  rewrite IHa by auto. apply orb_true_r.
Qed.
Lemma digit_not_slash : forall a, is_digit a = true -> Ascii.eqb a slash = false.
Proof. intros a H. destruct (Ascii.eqb_spec a slash); [subst; discriminate|reflexivity]. Qed.
Lemma has_digit_name : forall s, has_digit s = true -> has_name s = true.
Proof.
  induction s; cbn; [easy|]. intros H. apply orb_prop in H as [H|H].
  - now rewrite (digit_not_slash a H).
  - rewrite IHs by auto. apply orb_true_r.
Qed.
Lemma expanduser_digit : forall h p, has_digit p = true -> has_digit (expanduser h p) = true.
Proof.
  intros h [|a p] H; [easy|]. unfold expanduser.
  destruct (Ascii.eqb a "~") eqn:E; cbn [andb]; [|exact H].
  apply Ascii.eqb_eq in E. subst a.
  destruct ((p =? "") || starts_slash p); [|exact H].
  destruct (rstrip_slash h ++ p) eqn:Q; [|rewrite <- Q; apply has_digit_app_r; exact H].
  destruct (rstrip_slash h); cbn in Q; [subst; easy|easy].
Qed.

Lemma resolve_join : forall cwd home d b, starts_slash cwd = true -> d <> "" -> plainc b ->
  resolve cwd home (path_join d b) = addc (resolve cwd home d) b.
Proof.
  intros c h d b C D P. pose proof P as (B0 & _ & _ & N). pose proof (noslash_starts b N) as S.
  unfold resolve. rewrite expanduser_join by auto. rewrite !abspath_absol.
  rewrite absol_join by (auto; now apply expanduser_nonnil).
  apply normpath_join; [now apply absol_starts|auto].
Qed.
Lemma resolve_starts : forall cwd home p, starts_slash cwd = true -> starts_slash (resolve cwd home p) = true.
Proof. intros. unfold resolve. rewrite abspath_absol. now apply normpath_starts, absol_starts. Qed.
Lemma resolve_normal : forall cwd home p, starts_slash cwd = true -> starts_slash p = true -> resolve cwd home p = normpath p.
Proof. intros c h p C S. unfold resolve, abspath. rewrite expanduser_slash, S by auto. reflexivity. Qed.
Lemma resolve_idem : forall cwd home p, starts_slash cwd = true ->
  resolve cwd home (resolve cwd home p) = resolve cwd home p.
Proof.
  intros c h p C. rewrite (resolve_normal c h (resolve c h p)) by (auto using resolve_starts).
  unfold resolve. rewrite abspath_absol. apply normpath_idem. now apply absol_starts.
Qed.
Lemma has_name_absol : forall c p, has_name p = true -> has_name (absol c p) = true.
Proof.
  intros c p H. unfold absol. destruct (starts_slash p) eqn:S; [auto|]. unfold path_join. rewrite S.
  destruct c; [auto|]. destruct (ends_slash _); repeat apply has_name_app_r; auto.
Qed.

Lemma resolve_slash_end : forall cwd home p, starts_slash cwd = true -> has_digit p = true ->
  resolve cwd home (p ++ "/") = resolve cwd home p.
Proof.
  intros c h p C H. unfold resolve.
  assert (P : p <> "") by (intros ->; easy).
  rewrite expanduser_end by (auto; intros ->; easy).
  rewrite !abspath_absol, absol_slash_end; [|intros ->; easy|now apply expanduser_nonnil].
  apply normpath_slash_end; [now apply absol_starts|].
  now apply has_name_absol, has_digit_name, expanduser_digit.
Qed.

(** *** Names in paths *)
Lemma basename_app : forall a b, noslash b = true -> basename (a ++ String slash b) = b.
Proof.
  intros a b N. unfold basename. rewrite split_app, (split_noslash_id b) by auto. apply last_last.
Qed.
Lemma basename_noslash : forall s, noslash (basename s) = true.
Proof.
  intros s. unfold basename. pose proof (split_parts s) as F.
  assert (K : forall l, Forall (fun x => noslash x = true) l -> noslash (last l "") = true).
  { induction l; [easy|]. intros H. inversion H; subst. destruct l; auto. }
  now apply K.
Qed.
Lemma addc_form : forall r b, exists a, addc r b = a ++ String slash b.
Proof.
  intros r b. unfold addc. destruct (ends_slash r) eqn:E.
  - destruct (ends_last r E) as (t & ->). exists t. now rewrite app_assoc_s.
  - exists r. now rewrite app_assoc_s.
Qed.
Lemma basename_addc : forall r b, noslash b = true -> basename (addc r b) = b.
Proof. intros r b N. destruct (addc_form r b) as (a & ->). now apply basename_app. Qed.

(** *** Seed text *)
Lemma string_of_uint_digits : forall d, all_digits (NilZero.string_of_uint d) = true.
Proof.
  assert (K : forall d, all_digits (NilEmpty.string_of_uint d) = true) by (induction d; cbn; auto).
  intros [| | | | | | | | | |]; try reflexivity; apply (K (_ _)).
Qed.
Lemma string_of_uint_nonnil : forall d, NilZero.string_of_uint d <> "".
Proof. intros [| | | | | | | | | |]; discriminate. Qed.
Lemma digits_shape : forall w n, all_digits (digits w n) = true /\ digits w n <> "".
Proof. intros. split; [apply string_of_uint_digits|apply string_of_uint_nonnil]. Qed.
Lemma all_digits_noslash : forall s, all_digits s = true -> noslash s = true.
Proof.
  induction s; cbn; [easy|]. intros H. apply andb_prop in H as [H1 H2].
  now rewrite (digit_not_slash a H1), IHs.
Qed.
Lemma all_digits_has : forall s, all_digits s = true -> s <> "" -> has_digit s = true.
Proof. destruct s; cbn; [easy|]. intros H _. apply andb_prop in H as [-> _]. reflexivity. Qed.
Lemma seed_noslash : forall z, noslash (format_05d z) = true.
Proof.
  intros z. unfold format_05d. destruct (z <? 0)%Z; cbn; apply all_digits_noslash, digits_shape.
Qed.
Lemma seed_digit : forall z, has_digit (format_05d z) = true.
Proof.
  intros z. unfold format_05d.
  destruct (z <? 0)%Z; [apply has_digit_app_r|]; apply all_digits_has; apply digits_shape.
Qed.
Lemma digit_plain : forall s, has_digit s = true -> noslash s = true -> plainc s.
Proof. intros s H N. repeat split; auto; intros ->; discriminate. Qed.
Lemma seed_plain : forall z, plainc (format_05d z).
Proof. intros z. apply digit_plain; [apply seed_digit|apply seed_noslash]. Qed.
Lemma pad_value : forall n d, N.of_uint (pad n d) = N.of_uint d.
Proof. induction n; intros; [reflexivity|]. cbn [pad]. rewrite <- (IHn d). reflexivity. Qed.
Lemma digits_inj : forall w n m, digits w n = digits w m -> n = m.
Proof.
  intros w n m H. unfold digits in H.
  assert (K : forall d, N.of_uint (match NilZero.uint_of_string (NilZero.string_of_uint d) with Some x => x | None => Nil end) = N.of_uint d).
  { intros d. destruct d; try (rewrite NilZero.usu by discriminate; reflexivity). reflexivity. }
  pose proof (K (pad (w - nb_digits (N.to_uint n)) (N.to_uint n))) as A.
  rewrite H, K, !pad_value in A. rewrite !DecimalN.Unsigned.of_to in A. congruence.
Qed.
Lemma format_inj : forall a b, format_05d a = format_05d b -> a = b.
Proof.
  intros a b H. unfold format_05d in H.
  destruct (Z.ltb_spec a 0), (Z.ltb_spec b 0).
  - cbn in H. injection H as H. apply digits_inj in H. lia.
  - exfalso. destruct (digits_shape 5 (Z.to_N b)) as [D _]. rewrite <- H in D. discriminate.
  - exfalso. destruct (digits_shape 5 (Z.to_N a)) as [D _]. rewrite H in D. discriminate.
  - apply digits_inj in H. lia.
Qed.

Lemma prefix_app : forall w s, String.prefix w s = true -> exists r, s = w ++ r.
Proof.
  induction w; intros s H; [now exists s|]. destruct s; cbn in H; [easy|].
  destruct (ascii_dec a a0); [|easy]. subst. destruct (IHw s H) as (r & ->). now exists r.
Qed.
Lemma app_prefix : forall w r, String.prefix w (w ++ r) = true.
Proof. induction w; intros r; cbn; [now destruct r|]. destruct (ascii_dec a a); [auto|easy]. Qed.
Lemma contains_spec : forall w s, contains w s = true <-> exists a b, s = a ++ w ++ b.
Proof.
  intros w s. split.
  - induction s as [|a s IHs]; cbn [contains]; intros H; apply orb_prop in H as [H|H]; try easy.
    + apply prefix_app in H as (r & E). now exists "", r.
    + apply prefix_app in H as (r & E). now exists "", r.
    + destruct (IHs H) as (x & y & ->). now exists (String a x), y.
  - intros (a & b & ->). induction a.
    + cbn [append]. destruct (w ++ b) eqn:E; cbn [contains]; rewrite <- E, app_prefix; reflexivity.
    + cbn [append contains]. rewrite IHa. apply orb_true_r.
Qed.
Lemma contains_digit : forall z p, contains (format_05d z) p = true -> has_digit p = true.
Proof.
  intros z p H. apply contains_spec in H as (a & b & ->).
  apply has_digit_app_r, has_digit_app_l, seed_digit.
Qed.
