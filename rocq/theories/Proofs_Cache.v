(** Facts about the cache. *)
From Coq Require Import String Bool Arith Lia List.
From Verif Require Import Base Model_Cfg Model_Cache Spec_Cache.
Import ListNotations.

Section P.
Context {A C V W : Type} (ceqb : C -> C -> bool) (key : A -> C).
Hypothesis ceqb_spec : forall x y, ceqb x y = true <-> x = y.
Variable cap : nat.
Variable f : W -> A -> result V.
Hypothesis respects : forall w a a', key a = key a' -> f w a = f w a'.

Notation cache := (list (C * V)).
Definition good (w : W) (c : cache) : Prop := forall a v, In (key a, v) c -> f w a = Ok v.
Definition keysof (c : cache) := map fst c.

Lemma ceqb_refl : forall x, ceqb x x = true.
Proof. intros. now apply ceqb_spec. Qed.
Lemma ceqb_neq : forall x y, ceqb x y = false <-> x <> y.
Proof.
  intros x y. destruct (ceqb x y) eqn:E; split; try easy.
  - apply ceqb_spec in E. easy.
  - intros _ X. apply ceqb_spec in X. congruence.
Qed.
Lemma find_entry_some : forall k (c : cache) e, find_entry ceqb k c = Some e -> In e c /\ fst e = k.
Proof. intros k c e H. apply find_some in H as [H1 H2]. split; [auto|now apply ceqb_spec]. Qed.
Lemma find_entry_none : forall k (c : cache), find_entry ceqb k c = None -> ~ In k (keysof c).
Proof.
  intros k c H I. apply in_map_iff in I as (e & <- & I). pose proof (find_none _ _ H e I) as X. cbv beta in X.
  rewrite ceqb_refl in X. discriminate.
Qed.
Lemma firstn_In : forall {X} n (l : list X) x, In x (firstn n l) -> In x l.
Proof. intros X n l x H. rewrite <- (firstn_skipn n l). apply in_or_app; auto. Qed.

Lemma call_good : forall w c a, good w c -> fst (call ceqb key cap f w c a) = f w a /\ good w (snd (call ceqb key cap f w c a)).
Proof.
  intros w c a G. unfold call. destruct (find_entry ceqb (key a) c) as [[k v]|] eqn:E.
  - apply find_entry_some in E as (I & K). cbn [fst snd] in *. subst k. split; [symmetry; auto|].
    intros b v' [J|J]; [|apply filter_In in J as (J & _); auto].
    injection J as J <-. rewrite <- (respects w a b) by auto. auto.
  - destruct (f w a) as [v|x] eqn:F; cbn [fst snd]; [|auto]. split; [auto|].
    intros b v' J. apply firstn_In in J. destruct J as [J|J]; [|auto].
    injection J as J <-. rewrite <- (respects w a b) by auto. exact F.
Qed.
Lemma run_direct : forall h w c dirty, (dirty = false -> good w c) -> clears_after_edits dirty h ->
  fst (run ceqb key cap f w c h) = direct f w h.
Proof.
  induction h as [|[a| |w'] h IH]; intros w c dirty G H; cbn [run direct].
  - reflexivity.
  - destruct H as (D & H). subst dirty. destruct (call_good w c a (G eq_refl)) as (X & Y).
    destruct (call ceqb key cap f w c a) as [r c']. cbn [fst snd] in *. subst r.
    specialize (IH w c' false (fun _ => Y) H). destruct (run ceqb key cap f w c' h). cbn [fst] in *. congruence.
  - apply (IH w [] false); [intros _ b v []|exact H].
  - apply (IH w' c true); [discriminate|exact H].
Qed.

(** Keys. *)
Lemma keysof_drop : forall k (c : cache), keysof (drop_entry ceqb k c) = filter (fun x => negb (ceqb x k)) (keysof c).
Proof.
  intros k c. unfold keysof, drop_entry. induction c as [|e c IH]; [reflexivity|]. cbn [filter map].
  destruct (negb (ceqb (fst e) k)); cbn [map]; now rewrite IH.
Qed.
Lemma filter_notin : forall k l, ~ In k l -> filter (fun x => negb (ceqb x k)) l = l.
Proof.
  intros k l. induction l as [|x l IH]; intros H; [reflexivity|]. cbn [filter].
  assert (X : ceqb x k = false) by (apply ceqb_neq; intros ->; apply H; now left).
  rewrite X. cbn [negb]. f_equal. apply IH. intros I. apply H. now right.
Qed.
Lemma latest_nodup : forall l, NoDup (latest ceqb l).
Proof.
  induction l as [|k l IH]; cbn [latest]; constructor.
  - intros I. apply filter_In in I as (_ & I). rewrite ceqb_refl in I. discriminate.
  - now apply NoDup_filter.
Qed.
Lemma firstn_nodup : forall n (l : list C), NoDup l -> NoDup (firstn n l).
Proof.
  intros n l. revert n. induction l as [|x l IH]; intros [|n] H; try constructor.
  - inversion H; subst. intros I. apply firstn_In in I. easy.
  - inversion H; subst. auto.
Qed.
Lemma filter_hit : forall n k l, NoDup l -> In k (firstn (S n) l) ->
  firstn n (filter (fun x => negb (ceqb x k)) l) = filter (fun x => negb (ceqb x k)) (firstn (S n) l).
Proof.
  intros n k l. revert n. induction l as [|x l IH]; intros n N I; [destruct n; easy|].
  inversion N as [|? ? N1 N2]; subst. cbn [firstn] in I. cbn [firstn filter].
  destruct (ceqb x k) eqn:E; cbn [negb].
  - apply ceqb_spec in E. subst x. rewrite !filter_notin; auto. intros J. apply firstn_In in J. easy.
  - destruct I as [I|I]; [subst; rewrite ceqb_refl in E; discriminate|].
    destruct n as [|n]; [cbn in I; easy|]. cbn [firstn]. f_equal. apply (IH n N2 I).
Qed.
Lemma filter_miss : forall n k l, ~ In k (firstn n l) ->
  firstn (n - 1) (filter (fun x => negb (ceqb x k)) l) = firstn (n - 1) l.
Proof.
  intros n k l. revert n. induction l as [|x l IH]; intros n N; [reflexivity|].
  destruct n as [|n]; [reflexivity|]. cbn [firstn] in N. replace (S n - 1) with n by lia.
  cbn [filter]. assert (X : ceqb x k = false) by (apply ceqb_neq; intros ->; apply N; now left).
  rewrite X. cbn [negb]. destruct n as [|n]; [reflexivity|]. cbn [firstn]. f_equal.
  specialize (IH (S n)). replace (S n - 1) with n in IH by lia. apply IH. intros I. apply N. now right.
Qed.

Lemma call_keys_ok : forall w c a l v, f w a = Ok v -> keysof c = firstn cap (latest ceqb l) ->
  keysof (snd (call ceqb key cap f w c a)) = firstn cap (latest ceqb (key a :: l)).
Proof.
  intros w c a l v Ev K. unfold call. cbn [latest].
  pose proof (latest_nodup l) as N. set (L := latest ceqb l) in *.
  destruct (find_entry ceqb (key a) c) as [e|] eqn:E.
  - apply find_entry_some in E as (I & X). cbn [snd].
    change (fst e :: keysof (drop_entry ceqb (key a) c) = firstn cap (key a :: filter (fun x => negb (ceqb x (key a))) L)).
    rewrite keysof_drop, K, X.
    assert (J : In (key a) (firstn cap L)) by (rewrite <- K, <- X; now apply in_map).
    destruct cap as [|n]; [easy|]. cbn [firstn]. f_equal. symmetry. now apply filter_hit.
  - rewrite Ev. cbn [snd].
    apply find_entry_none in E. rewrite K in E.
    unfold keysof. rewrite <- firstn_map. cbn [map fst]. fold (keysof c). rewrite K.
    pose proof (filter_miss cap (key a) L E) as F. destruct cap as [|n]; [reflexivity|].
    cbn [firstn] in F |- *. replace (S n - 1) with n in F by lia. f_equal.
    change (match L with [] => [] | a0 :: l0 => a0 :: firstn n l0 end) with (firstn (S n) L).
    rewrite firstn_firstn. replace (Nat.min n (S n)) with n by lia. now rewrite F.
Qed.
Lemma run_successes : forall h w c l dirty, (dirty = false -> good w c) -> clears_after_edits dirty h ->
  keysof c = firstn cap (latest ceqb l) ->
  keysof (snd (run ceqb key cap f w c h)) = firstn cap (latest ceqb (successes key f w h l)).
Proof.
  induction h as [|[a| |w'] h IH]; intros w c l dirty G H K; cbn [run successes].
  - exact K.
  - destruct H as (D & H). subst dirty. destruct (call_good w c a (G eq_refl)) as (_ & Y).
    assert (X : keysof (snd (call ceqb key cap f w c a)) =
                firstn cap (latest ceqb (match f w a with Ok _ => key a :: l | Err _ => l end))).
    { destruct (f w a) as [v|e] eqn:F; [now apply call_keys_ok with (v := v)|].
      unfold call. destruct (find_entry ceqb (key a) c) as [[k v]|] eqn:E; [|now rewrite F].
      apply find_entry_some in E as (I & Q). cbn [fst] in Q. subst k. specialize (G eq_refl a v I). congruence. }
    destruct (call ceqb key cap f w c a) as [r c']. cbn [fst snd] in *.
    specialize (IH w c' _ false (fun _ => Y) H X). destruct (run ceqb key cap f w c' h). exact IH.
  - apply (IH w [] [] false); [intros _ b v []|exact H|now destruct cap].
  - now apply (IH w' c l true).
Qed.

Hypothesis total : forall w a, exists v, f w a = Ok v.
Lemma call_keys : forall w c a l, keysof c = firstn cap (latest ceqb l) ->
  keysof (snd (call ceqb key cap f w c a)) = firstn cap (latest ceqb (key a :: l)).
Proof. intros w c a l. destruct (total w a) as (v & Ev). now apply call_keys_ok with (v := v). Qed.
Lemma run_keys : forall h w c l, keysof c = firstn cap (latest ceqb l) ->
  keysof (snd (run ceqb key cap f w c h)) =
  firstn cap (latest ceqb (fold_left (fun l e => match e with Call a => key a :: l | Clear => [] | Edit _ => l end) h l)).
Proof.
  induction h as [|[a| |w'] h IH]; intros w c l K; cbn [run fold_left].
  - exact K.
  - pose proof (call_keys w c a l K) as X. destruct (call ceqb key cap f w c a) as [r c']. cbn [snd] in X.
    specialize (IH w c' _ X). destruct (run ceqb key cap f w c' h). exact IH.
  - apply IH. now destruct cap.
  - now apply IH.
Qed.
End P.

Section Bound.
Context {A C V W : Type} (ceqb : C -> C -> bool) (key : A -> C).
Hypothesis ceqb_spec : forall x y, ceqb x y = true <-> x = y.
Variable cap : nat.
Variable f : W -> A -> result V.
Definition tidy (c : list (C * V)) : Prop := length c <= cap /\ NoDup (map fst c).

Lemma drop_length : forall k (c : list (C * V)), In k (map fst c) -> S (length (drop_entry ceqb k c)) <= length c.
Proof.
  intros k c. unfold drop_entry. induction c as [|e c IH]; [easy|]. intros [I|I]; cbn [filter length].
  - rewrite I, (ceqb_refl ceqb ceqb_spec). cbn [negb].
    assert (X : forall l : list (C * V), length (filter (fun e => negb (ceqb (fst e) k)) l) <= length l).
    { induction l as [|y l IHl]; [cbn; lia|]. cbn [filter]. destruct (negb _); cbn [length]; lia. }
    specialize (X c). lia.
  - specialize (IH I). destruct (negb (ceqb (fst e) k)); cbn [length]; lia.
Qed.
Lemma call_tidy : forall w c a, tidy c -> tidy (snd (call ceqb key cap f w c a)).
Proof.
  intros w c a (L & N). unfold call. destruct (find_entry ceqb (key a) c) as [e|] eqn:E.
  - apply (find_entry_some ceqb ceqb_spec) in E as (I & X). cbn [snd]. split.
    + cbn [length]. rewrite <- X. pose proof (drop_length (fst e) c (in_map fst _ _ I)). lia.
    + cbn [map]. pose proof (keysof_drop ceqb (key a) c) as K. unfold keysof in K. constructor.
      * rewrite X, K. intros J. apply filter_In in J as (_ & J). rewrite (ceqb_refl ceqb ceqb_spec) in J. discriminate.
      * rewrite K. now apply NoDup_filter.
  - destruct (f w a); cbn [snd]; [|now split]. split; [rewrite firstn_length; lia|].
    rewrite <- firstn_map. apply firstn_nodup. cbn [map fst]. constructor; [|exact N].
    exact (find_entry_none ceqb ceqb_spec _ _ E).
Qed.
Lemma run_tidy : forall h w c, tidy c -> tidy (snd (run ceqb key cap f w c h)).
Proof.
  induction h as [|[a| |w'] h IH]; intros w c T; cbn [run].
  - exact T.
  - pose proof (call_tidy w c a T) as X. destruct (call ceqb key cap f w c a) as [r c']. cbn [snd] in X.
    specialize (IH w c' X). destruct (run ceqb key cap f w c' h). exact IH.
  - apply IH. split; [cbn; lia|constructor].
  - now apply IH.
Qed.
End Bound.
