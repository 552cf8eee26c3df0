From Coq Require Import List ZArith Reals Lia Lra Bool Permutation.
From Verif Require Import Base Proofs_Base Proofs_Time Model_Ice Proofs_Ice Model_Thermal Spec_Thermal.
Import ListNotations.
Open Scope R_scope.

(** ** The coefficient *)

Lemma bern_nonneg T i j : 15 <= T <= 720 -> 0 <= (T - 15) ^ i * (720 - T) ^ j.
Proof. intros H. apply Rmult_le_pos; apply pow_le; lra. Qed.

Lemma sphc_pos T : 15 <= T <= 720 -> 1 <= sphc T.
Proof.
  intros H.
  assert (E : sphc T - 1 = 197462205511 / 1317513870000000000000 * ((T - 15) ^ 0 * (720 - T) ^ 4) + 14764878409 / 1715512851562500000 * ((T - 15) ^ 1 * (720 - T) ^ 3) + 12257008237 / 428878212890625000 * ((T - 15) ^ 2 * (720 - T) ^ 2) + 39094633379 / 2573269277343750000 * ((T - 15) ^ 3 * (720 - T) ^ 1) + 1137806797 / 285918808593750000 * ((T - 15) ^ 4 * (720 - T) ^ 0)) by (unfold sphc; field).
  pose proof (bern_nonneg T 0 4 H). pose proof (bern_nonneg T 1 3 H). pose proof (bern_nonneg T 2 2 H).
  pose proof (bern_nonneg T 3 1 H). pose proof (bern_nonneg T 4 0 H). lra.
Qed.

Lemma coef_poly T : 15 <= T <= 720 -> thermal_conductivity T * 100000 / 9 + 1 / 5 <= sphc T.
Proof.
  intros H.
  assert (E : sphc T - (thermal_conductivity T * 100000 / 9) - 1 / 5 = 1894509237371 / 12201495950070000000000000 * ((T - 15) ^ 0 * (720 - T) ^ 4) + 381450393712247 / 47662093554960937500000 * ((T - 15) ^ 1 * (720 - T) ^ 3) + 2225185056793 / 81057982236328125000 * ((T - 15) ^ 2 * (720 - T) ^ 2) + 256772407722919 / 23831046777480468750000 * ((T - 15) ^ 3 * (720 - T) ^ 1) + 5607442723153 / 23831046777480468750000 * ((T - 15) ^ 4 * (720 - T) ^ 0))
    by (unfold sphc, thermal_conductivity; field).
  pose proof (bern_nonneg T 0 4 H). pose proof (bern_nonneg T 1 3 H). pose proof (bern_nonneg T 2 2 H).
  pose proof (bern_nonneg T 3 1 H). pose proof (bern_nonneg T 4 0 H). lra.
Qed.

Lemma conductivity_pos T : 0 <= T -> 0 < thermal_conductivity T.
Proof.
  intros H. unfold thermal_conductivity.
  assert (0 <= (T / 350) ^ 3) by (apply pow_le; lra). lra.
Qed.

Lemma coef_bounds T : 15 <= T <= 720 -> 0 < coef T < 1 / 2.
Proof.
  intros H. pose proof (sphc_pos T H) as H1. pose proof (coef_poly T H) as H2.
  pose proof (conductivity_pos T ltac:(lra)) as H3.
  unfold coef, thermal_diffusivity.
  replace (thermal_conductivity T / (1800 * sphc T) * (1 / 1000) / (1 / 100000) ^ 2)
    with (thermal_conductivity T * 50000 / 9 / sphc T) by (field; lra).
  split.
  - apply Rdiv_lt_0_compat; lra.
  - apply Rmult_lt_reg_r with (sphc T); [lra|]. unfold Rdiv at 1. rewrite Rmult_assoc, Rinv_l by lra. lra.
Qed.

(** ** The step, element by element *)

Lemma nth_error_firstn_ {A} k (l : list A) i :
  nth_error (firstn k l) i = if Nat.ltb i k then nth_error l i else None.
Proof.
  revert l i. induction k as [|k IH]; intros l i; [destruct i; reflexivity|].
  destruct l as [|x l]; [destruct i as [|i]; [reflexivity|]; cbn [firstn nth_error]; now destruct (Nat.ltb (S i) (S k))|].
  destruct i; [reflexivity|]. cbn [firstn nth_error]. rewrite IH. reflexivity.
Qed.
Lemma nth_error_skipn_ {A} k (l : list A) i : nth_error (skipn k l) i = nth_error l (k + i).
Proof.
  revert l. induction k as [|k IH]; intros l; [reflexivity|].
  destruct l as [|x l]; [destruct i; reflexivity|]. apply IH.
Qed.
Lemma slice_nth {A} (l : list A) lo hi i :
  nth_error (slice l lo hi) i = if Nat.ltb i (hi - lo) then nth_error l (lo + i) else None.
Proof. unfold slice. now rewrite nth_error_firstn_, nth_error_skipn_. Qed.
Lemma slice_length {A} (l : list A) lo hi : (hi <= length l)%nat -> length (slice l lo hi) = (hi - lo)%nat.
Proof. intros H. unfold slice. rewrite firstn_length, skipn_length. lia. Qed.

Lemma nth_error_combine {A B} (l : list A) (l' : list B) i :
  nth_error (combine l l') i =
  match nth_error l i, nth_error l' i with Some a, Some b => Some (a, b) | _, _ => None end.
Proof.
  revert l' i. induction l as [|a l IH]; intros l' i; [now destruct i|].
  destruct l' as [|b l']; [destruct i; [reflexivity|cbn; now destruct (nth_error l i)]|].
  destruct i; [reflexivity|]. exact (IH l' i).
Qed.

Lemma nth_error_nth_ {A} (l : list A) i d : (i < length l)%nat -> nth_error l i = Some (nth i l d).
Proof. revert i. induction l; intros [|i] H; cbn in *; try lia; auto. apply IHl. lia. Qed.

Definition new_value (T : list R) (i : nat) : R :=
  let n := length T in let c := coef (nth i T 0) in
  c * nth (before n i) T 0 + (1 - 2 * c) * nth i T 0 + c * nth (after n i) T 0.

Lemma heat_spec T : (2 <= length T)%nat ->
  exists T', heat1d_finite_diff T = Ok T' /\ length T' = length T /\
    forall i, (i < length T)%nat -> nth_error T' i = Some (new_value T i).
Proof.
  intros H. unfold heat1d_finite_diff. set (n := length T).
  destruct (Nat.ltb_spec n 2) as [L|_]; [unfold n in L; lia|].
  cbv zeta. match goal with |- context [_ :: ?m ++ [_]] => set (inner := m) end.
  eexists. split; [reflexivity|].
  assert (Li : length inner = (n - 2)%nat).
  { unfold inner. rewrite map_length, !combine_length, !slice_length by (rewrite ?map_length; unfold n; lia). lia. }
  assert (Nc : forall i, (i < n)%nat -> nth i (map coef T) 0 = coef (nth i T 0)).
  { intros i Hi. rewrite nth_indep with (d' := coef 0) by (rewrite map_length; exact Hi). apply map_nth. }
  split; [cbn [length]; rewrite app_length, Li; cbn [length]; unfold n in *; lia|].
  intros i Hi. fold n in Hi. unfold new_value. fold n. cbv zeta.
  destruct i as [|i].
  - cbn [nth_error]. rewrite Nc by (unfold n; lia). unfold before, after. change (Nat.eqb 0 0) with true. cbv iota.
    destruct (Nat.eqb_spec 1 n) as [E|_]; [unfold n in *; lia|]. reflexivity.
  - cbn [nth_error]. unfold before, after. change (Nat.eqb (S i) 0) with false. cbv iota. destruct (Nat.eqb_spec (S (S i)) n) as [E|NE].
    + rewrite nth_error_app2 by lia. rewrite Li. replace (i - (n - 2))%nat with O by lia. cbn [nth_error].
      rewrite Nc by lia. replace (n - 1)%nat with (S i) by lia. replace (n - 2)%nat with i by lia.
      replace (S i - 1)%nat with i by lia. reflexivity.
    + rewrite nth_error_app1 by lia. unfold inner. rewrite nth_error_map, !nth_error_combine, !slice_nth.
      destruct (Nat.ltb_spec i (n - 1 - 1)) as [_|L]; [|lia].
      destruct (Nat.ltb_spec i (n - 2 - 0)) as [_|L]; [|lia].
      destruct (Nat.ltb_spec i (n - 2)) as [_|L]; [|lia].
      cbn [plus]. replace (2 + i)%nat with (S (S i)) by lia.
      rewrite (nth_error_nth_ (map coef T) (S i) 0) by (rewrite map_length; exact Hi).
      rewrite (nth_error_nth_ T i 0), (nth_error_nth_ T (S i) 0), (nth_error_nth_ T (S (S i)) 0) by (fold n; lia).
      cbn [option_map]. rewrite Nc by lia. replace (S i - 1)%nat with i by lia. reflexivity.
Qed.

Lemma heat_Ok T T' : heat1d_finite_diff T = Ok T' ->
  (2 <= length T)%nat /\ length T' = length T /\
  forall i, (i < length T)%nat -> nth_error T' i = Some (new_value T i).
Proof.
  intros H. destruct (Nat.le_gt_cases 2 (length T)) as [L|L].
  - destruct (heat_spec T L) as (T2 & E & Q). rewrite E in H. injection H as <-. auto.
  - unfold heat1d_finite_diff in H. destruct (Nat.ltb_spec (length T) 2); [discriminate|lia].
Qed.

Lemma Forall_nth_iff {A} (P : A -> Prop) l : Forall P l <-> forall i x, nth_error l i = Some x -> P x.
Proof.
  split.
  - intros F i x H. rewrite Forall_forall in F. eapply F, nth_error_In, H.
  - intros H. apply Forall_forall. intros x I. apply In_nth_error in I as [i E]. eauto.
Qed.

Lemma before_lt n i : (i < n)%nat -> (before n i < n)%nat.
Proof. unfold before. destruct (Nat.eqb_spec i 0); lia. Qed.
Lemma after_lt n i : (i < n)%nat -> (after n i < n)%nat.
Proof. unfold after. destruct (Nat.eqb_spec (S i) n); lia. Qed.

Lemma within_nth lo hi T i : within lo hi T -> (i < length T)%nat -> lo <= nth i T 0 <= hi.
Proof. intros W H. unfold within in W. rewrite Forall_forall in W. apply W, nth_In, H. Qed.

Lemma new_value_bounds lo hi T i : 15 <= lo -> hi <= 720 -> within lo hi T -> (i < length T)%nat ->
  lo <= new_value T i <= hi.
Proof.
  intros Hlo Hhi W H. unfold new_value. cbv zeta.
  pose proof (within_nth _ _ _ _ W H) as B1.
  pose proof (within_nth _ _ _ _ W (before_lt _ _ H)) as B2.
  pose proof (within_nth _ _ _ _ W (after_lt _ _ H)) as B3.
  pose proof (coef_bounds (nth i T 0) ltac:(lra)) as C.
  set (c := coef _) in *. clearbody c. split; nra.
Qed.

Lemma heat_within lo hi T T' : 15 <= lo -> hi <= 720 -> within lo hi T ->
  heat1d_finite_diff T = Ok T' -> within lo hi T'.
Proof.
  intros Hlo Hhi W H. apply heat_Ok in H as (L & L' & N).
  apply Forall_nth_iff. intros i x E.
  assert (I : (i < length T)%nat) by (rewrite <- L'; apply nth_error_Some; congruence).
  rewrite (N i I) in E. injection E as <-. now apply new_value_bounds.
Qed.

Lemma steps_within lo hi : 15 <= lo -> hi <= 720 -> forall k T, (2 <= length T)%nat -> within lo hi T ->
  exists T', steps k T = Ok T' /\ length T' = length T /\ within lo hi T'.
Proof.
  intros Hlo Hhi. induction k as [|k IH]; intros T L W; [exists T; auto|].
  cbn [steps]. destruct (heat_spec T L) as (T1 & E & L1 & _). rewrite E. cbn [bind].
  destruct (IH T1) as (T2 & E2 & L2 & W2); [lia| |exists T2; repeat split; auto; lia].
  eapply heat_within; eauto.
Qed.

Lemma heat_uniform t n : (2 <= n)%nat -> heat1d_finite_diff (repeat t n) = Ok (repeat t n).
Proof.
  intros H. destruct (heat_spec (repeat t n)) as (T' & E & L & N); [now rewrite repeat_length|].
  rewrite E. f_equal. rewrite repeat_length in *. apply nth_ext with (d := 0) (d' := 0); [now rewrite L, repeat_length|].
  intros i Hi. rewrite L in Hi. specialize (N i Hi).
  rewrite (nth_error_nth_ T' i 0) in N by lia. injection N as ->.
  assert (R : forall j, (j < n)%nat -> nth j (repeat t n) 0 = t).
  { intros j Hj. apply (repeat_spec n t). apply nth_In. now rewrite repeat_length. }
  unfold new_value. rewrite repeat_length, !R by (auto using before_lt, after_lt). ring.
Qed.

(** ** The column at the start *)

Lemma list_eq_nth {A} (l l' : list A) : (forall i, nth_error l i = nth_error l' i) -> l = l'.
Proof.
  revert l'. induction l as [|x l IH]; intros [|y l'] H; try reflexivity; try (specialize (H O); discriminate).
  f_equal; [specialize (H O); cbn in H; congruence|]. apply IH. intros i. exact (H (S i)).
Qed.

Lemma set_all_spec {A} (x : A) inds : forall a, Forall (fun i => (i < length a)%nat) inds ->
  exists a', set_all a inds x = Ok a' /\ length a' = length a /\
    forall i, nth_error a' i =
      if existsb (Nat.eqb i) inds then (if Nat.ltb i (length a) then Some x else None) else nth_error a i.
Proof.
  induction inds as [|j inds IH]; intros a F; [exists a; auto|].
  inversion F as [|? ? Hj F']; subst. cbn [set_all].
  assert (E : set a j x = Ok (upd a j x)) by (apply set_Ok; auto). rewrite E. cbn [bind].
  destruct (IH (upd a j x)) as (a' & E2 & L & N).
  { eapply Forall_impl; [|exact F']. intros; now rewrite upd_length. }
  exists a'. split; [exact E2|]. rewrite upd_length in *. split; [exact L|].
  intros i. rewrite N. cbn [existsb]. destruct (Nat.eqb_spec i j) as [->|D]; cbn [orb].
  - destruct (existsb _ inds); [reflexivity|]. rewrite upd_nth_same by exact Hj.
    destruct (Nat.ltb_spec j (length a)); [reflexivity|lia].
  - now rewrite upd_nth_other by lia.
Qed.

Lemma nth_error_seq0 n i : nth_error (seq 0 n) i = if Nat.ltb i n then Some i else None.
Proof.
  destruct (Nat.ltb_spec i n).
  - rewrite (nth_error_nth_ _ _ O) by (now rewrite seq_length). now rewrite seq_nth.
  - apply nth_error_None. now rewrite seq_length.
Qed.

Lemma set_all_repeat {A} (x y : A) n inds : Forall (fun i => (i < n)%nat) inds ->
  set_all (repeat x n) inds y = Ok (map (fun i => if existsb (Nat.eqb i) inds then y else x) (seq 0 n)).
Proof.
  intros F. destruct (set_all_spec y inds (repeat x n)) as (a & E & L & N).
  { now rewrite repeat_length. }
  rewrite E. f_equal. rewrite repeat_length in *.
  apply list_eq_nth. intros i. rewrite N, nth_error_map, nth_error_seq0.
  destruct (Nat.ltb_spec i n) as [H|H].
  - cbn [option_map]. destruct (existsb _ inds); [reflexivity|].
    rewrite (nth_error_nth_ _ _ x) by (now rewrite repeat_length). f_equal. apply (repeat_spec n x), nth_In. now rewrite repeat_length.
  - cbn [option_map]. destruct (existsb _ inds); [reflexivity|]. apply nth_error_None. now rewrite repeat_length.
Qed.

Lemma existsb_In i l : existsb (Nat.eqb i) l = true <-> In i l.
Proof.
  rewrite existsb_exists. split.
  - intros (x & I & E). apply Nat.eqb_eq in E. now subst.
  - intros I. exists i. split; [exact I|apply Nat.eqb_refl].
Qed.

(** ** The loop *)

Definition hstep (T : list R) : list R := match heat1d_finite_diff T with Ok T' => T' | Err _ => T end.
Fixpoint states (T0 : list R) (k : nat) : list R :=
  match k with O => T0 | S k' => hstep (states T0 k') end.

Lemma hstep_length T : length (hstep T) = length T.
Proof.
  unfold hstep. destruct (heat1d_finite_diff T) eqn:E; [|reflexivity]. now apply heat_Ok in E.
Qed.
Lemma states_length T0 k : length (states T0 k) = length T0.
Proof. induction k; [reflexivity|]. cbn [states]. now rewrite hstep_length. Qed.

Section Loop.
Variables (melt_t eq_thresh : R) (n : nat) (ej : list nat) (T0 : list R).
Hypothesis LT : length T0 = n.
Let T := states T0.

Definition flags (k : nat) : list bool :=
  map (fun i => existsb (Nat.eqb i) ej || has_melted melt_t T k i) (seq 0 n).

Lemma has_melted_S k i : has_melted melt_t T (S k) i =
  has_melted melt_t T k i || match nth_error (T (S k)) i with Some t => Rleb melt_t t | None => false end.
Proof.
  unfold has_melted. replace (seq 1 (S k)) with (seq 1 k ++ [S k]).
  - rewrite existsb_app. cbn [existsb]. now rewrite orb_false_r.
  - rewrite seq_S. reflexivity.
Qed.

Lemma flags_step k :
  map (fun '(t, b) => if Rleb melt_t t then true else b) (combine (T (S k)) (flags k)) = flags (S k).
Proof.
  apply list_eq_nth. intros i. unfold flags. rewrite !nth_error_map, nth_error_combine, nth_error_map, nth_error_seq0.
  destruct (Nat.ltb_spec i n) as [H|H].
  - cbn [option_map]. rewrite has_melted_S.
    assert (L : (i < length (T (S k)))%nat) by (unfold T; now rewrite states_length, LT).
    rewrite (nth_error_nth_ _ _ 0 L). cbn [option_map]. f_equal.
    destruct (Rleb melt_t _); [now rewrite !orb_true_r|now rewrite orb_false_r].
  - cbn [option_map]. destruct (nth_error _ i); reflexivity.
Qed.

Lemma flat_spec l : flat eq_thresh l = true <->
  forall i a b, nth_error l i = Some a -> nth_error l (S i) = Some b -> Rabs (b - a) < eq_thresh.
Proof.
  induction l as [|x l IH]; [split; [intros _ [|i] a b; discriminate|reflexivity]|].
  destruct l as [|y l].
  - split; [|reflexivity]. intros _ i a b _ H. destruct i; cbn in H; [discriminate|]. now destruct i.
  - cbn [flat] in *. rewrite andb_true_iff, Rltb_true, IH. split.
    + intros [H1 H2] [|i] a b Ea Eb.
      * cbn in Ea, Eb. congruence.
      * eapply H2; [exact Ea|exact Eb].
    + intros H. split; [apply (H O); reflexivity|]. intros i a b Ea Eb. apply (H (S i)); assumption.
Qed.

Lemma stop_spec k :
  forallb (fun b => b) (flags k) || forallb (fun t => Rltb t melt_t) (T k) || flat eq_thresh (T k) = true
  <-> stopped melt_t eq_thresh n ej T k.
Proof.
  unfold stopped. rewrite !orb_true_iff, flat_spec.
  assert (A : forallb (fun b => b) (flags k) = true <->
              (forall i, (i < n)%nat -> In i ej \/ has_melted melt_t T k i = true)).
  { unfold flags. rewrite forallb_forall. split.
    - intros H i Hi. rewrite <- existsb_In. apply orb_true_iff. apply H. apply in_map_iff. exists i.
      split; [reflexivity|]. apply in_seq. lia.
    - intros H b Hb. apply in_map_iff in Hb as (i & <- & Hi). apply in_seq in Hi. apply orb_true_iff.
      rewrite existsb_In. apply H. lia. }
  assert (B : forallb (fun t => Rltb t melt_t) (T k) = true <-> Forall (fun t => t < melt_t) (T k)).
  { rewrite forallb_forall, Forall_forall. split; intros H t Ht; apply Rltb_true; auto. }
  tauto.
Qed.

Lemma loop_spec : forall fuel k, exists s, (s <= fuel)%nat /\
  melt_loop melt_t eq_thresh fuel (T k) (flags k) = Ok (T (k + s)%nat, flags (k + s)) /\
  (s = fuel \/ stopped melt_t eq_thresh n ej T (k + s)) /\
  (forall j, (j < s)%nat -> ~ stopped melt_t eq_thresh n ej T (k + j) /\
     heat1d_finite_diff (T (k + j)%nat) = Ok (T (S (k + j)))).
Proof.
  induction fuel as [|fuel IH]; intros k.
  - exists O. rewrite Nat.add_0_r. cbn [melt_loop]. repeat split; auto; lia.
  - cbn [melt_loop]. pose proof (stop_spec k) as SP.
    destruct (forallb _ (flags k) || _ || _) eqn:E.
    + exists O. rewrite Nat.add_0_r. repeat split; auto; try lia. right. now apply SP.
    + assert (L : (2 <= length (T k))%nat).
      { apply orb_false_iff in E as [_ F]. destruct (T k) as [|a [|b l]]; [discriminate|discriminate|cbn; lia]. }
      assert (HT : heat1d_finite_diff (T k) = Ok (T (S k))).
      { destruct (heat_spec (T k) L) as (T1 & ET & _). unfold T. cbn [states]. unfold hstep. fold T.
        fold (T k). now rewrite ET. }
      rewrite HT. cbn [bind]. rewrite flags_step.
      destruct (IH (S k)) as (s & S1 & S2 & S3 & S4). exists (S s).
      replace (k + S s)%nat with (S k + s)%nat by lia. repeat split.
      * lia.
      * exact S2.
      * destruct S3; [left; lia|right; assumption].
      * intros Q. destruct j as [|j].
        -- rewrite Nat.add_0_r in Q. apply SP in Q. congruence.
        -- replace (k + S j)%nat with (S k + j)%nat in Q by lia. apply (S4 j); [lia|exact Q].
      * destruct j as [|j]; [now rewrite Nat.add_0_r|]. replace (k + S j)%nat with (S k + j)%nat by lia. apply S4. lia.
Qed.

Lemma melted_mono k k' i : (k <= k')%nat -> has_melted melt_t T k i = true -> has_melted melt_t T k' i = true.
Proof. intros H. induction H; [auto|]. intros Q. rewrite has_melted_S, IHle by exact Q. reflexivity. Qed.
End Loop.

(** ** Counting *)

Lemma count_map_seq (f : nat -> bool) l : count_true (map f l) = length (filter f l).
Proof.
  unfold count_true. induction l as [|x l IH]; [reflexivity|]. cbn [map filter].
  destruct (f x); cbn [length]; now rewrite IH.
Qed.
Lemma filter_or (f g : nat -> bool) l :
  length (filter (fun i => f i || g i) l) =
  (length (filter f l) + length (filter (fun i => negb (f i) && g i) l))%nat.
Proof.
  induction l as [|x l IH]; [reflexivity|]. cbn [filter]. destruct (f x), (g x); cbn [orb negb andb length]; lia.
Qed.
Lemma count_ej n ej : NoDup ej -> Forall (fun i => (i < n)%nat) ej ->
  length (filter (fun i => existsb (Nat.eqb i) ej) (seq 0 n)) = length ej.
Proof.
  intros ND F. apply Permutation_length. apply NoDup_Permutation.
  - apply NoDup_filter, seq_NoDup.
  - exact ND.
  - intros x. rewrite filter_In, existsb_In, in_seq. rewrite Forall_forall in F. split; [tauto|].
    intros I. split; [specialize (F x I); lia|exact I].
Qed.
Lemma filter_length_le_ {A} (f g : A -> bool) l : (forall x, In x l -> f x = true -> g x = true) ->
  (length (filter f l) <= length (filter g l))%nat.
Proof.
  intros H. induction l as [|x l IH]; [cbn; lia|]. cbn [filter].
  assert (IH' := IH (fun y I => H y (or_intror I))).
  destruct (f x) eqn:E; [rewrite (H x (or_introl eq_refl) E); cbn [length]; lia|].
  destruct (g x); cbn [length]; lia.
Qed.
Lemma count_target n ej : NoDup ej -> Forall (fun i => (i < n)%nat) ej ->
  (length (filter (fun i => negb (existsb (Nat.eqb i) ej)) (seq 0 n)) + length ej = n)%nat.
Proof.
  intros ND F. rewrite <- (count_ej n ej ND F). rewrite <- (seq_length n 0) at 3.
  generalize (seq 0 n). intros l. induction l as [|x l IH]; [reflexivity|]. cbn [filter].
  destruct (existsb (Nat.eqb x) ej); cbn [negb length]; lia.
Qed.

(** ** The whole function *)

Lemma pixels_spec rnd n mr : rounds n rnd -> 0 <= mr ->
  exists k, ejecta_pixels rnd n mr = Ok (Z.of_nat k) /\ (k <= n)%nat /\
    INR k <= rnd (INR n * rnd (1 / rnd (1 + mr))) < INR k + 1.
Proof.
  intros [M X] H. unfold ejecta_pixels.
  assert (X0 : rnd 0 = 0) by (apply (X O); lia).
  assert (X1 : rnd 1 = 1) by (rewrite <- (X 1%nat) at 2 by lia; reflexivity).
  assert (D : 1 <= rnd (1 + mr)) by (rewrite <- X1; apply M; lra).
  set (d := rnd (1 + mr)) in *. clearbody d.
  destruct (Reqb d 0) eqn:E; [apply Reqb_true in E; lra|]. clear E.
  assert (Q : 0 <= rnd (1 / d) <= 1).
  { split; [rewrite <- X0 at 1|rewrite <- X1 at 2]; apply M.
    - apply Rlt_le, Rdiv_lt_0_compat; lra.
    - apply Rmult_le_reg_r with d; [lra|]. unfold Rdiv. rewrite Rmult_assoc, Rinv_l by lra. lra. }
  set (q := rnd (1 / d)) in *. clearbody q.
  assert (P : 0 <= rnd (INR n * q) <= INR n).
  { pose proof (pos_INR n). split; [rewrite <- X0 at 1|rewrite <- (X n) at 2 by lia]; apply M; nra. }
  set (x := rnd (INR n * q)) in *. clearbody x.
  rewrite truncZ_pos by lra. pose proof (Int_part_bounds x) as B.
  assert (Z0 : (0 <= Int_part x)%Z).
  { assert (-1 < Int_part x)%Z; [|lia]. apply lt_IZR. lra. }
  exists (Z.to_nat (Int_part x)). rewrite Z2Nat.id by exact Z0. split; [reflexivity|].
  rewrite INR_IZR_INZ, Z2Nat.id by exact Z0. split; [|lra].
  apply INR_le. rewrite INR_IZR_INZ, Z2Nat.id by exact Z0. lra.
Qed.

Section Frac.
Variables (rnd : R -> R) (pick : Z -> nat -> nat -> list nat) (mr ejecta_t0 target_t0 melt_t : R)
  (n : nat) (eq_thresh : R) (seed : Z) (k : nat).
Hypothesis PK : picks pick.
Hypothesis EK : ejecta_pixels rnd n mr = Ok (Z.of_nat k).
Hypothesis LK : (k < n)%nat.
Let ej := pick seed k n.
Let T := states (start_column n ej ejecta_t0 target_t0).

Lemma start_length : length (start_column n ej ejecta_t0 target_t0) = n.
Proof. unfold start_column. now rewrite map_length, seq_length. Qed.

Lemma frac_spec max_iter : exists s, (s <= max_iter)%nat /\
  melt_frac_teq_1d rnd pick mr ejecta_t0 target_t0 melt_t n eq_thresh max_iter seed
  = Ok (INR (length (target_melted melt_t n ej T s)) / INR (n - k)) /\
  (s = max_iter \/ stopped melt_t eq_thresh n ej T s) /\
  (forall j, (j < s)%nat -> ~ stopped melt_t eq_thresh n ej T j /\
     heat1d_finite_diff (T j) = Ok (T (S j))).
Proof.
  destruct (PK seed k n ltac:(lia)) as (P1 & P2 & P3). fold ej in P1, P2, P3.
  destruct (loop_spec melt_t eq_thresh n ej _ start_length max_iter 0) as (s & S1 & S2 & S3 & S4).
  exists s. split; [exact S1|]. split; [|split; [exact S3|exact S4]].
  unfold melt_frac_teq_1d. rewrite EK. cbn [bind].
  destruct (Z.eqb_spec (Z.of_nat k) (Z.of_nat n)) as [Q|_]; [lia|].
  unfold rand_positions. destruct (Z.ltb_spec (Z.of_nat k) 0); [lia|].
  destruct (Z.ltb_spec (Z.of_nat n) (Z.of_nat k)); [lia|]. cbn [orb bind]. rewrite Nat2Z.id. fold ej.
  rewrite !set_all_repeat by exact P3. cbn [bind].
  assert (F0 : map (fun i => if existsb (Nat.eqb i) ej then true else false) (seq 0 n)
               = flags melt_t n ej (start_column n ej ejecta_t0 target_t0) 0).
  { unfold flags. apply map_ext. intros i. unfold has_melted. cbn [seq existsb].
    destruct (existsb _ ej); reflexivity. }
  rewrite F0. fold (start_column n ej ejecta_t0 target_t0).
  change (start_column n ej ejecta_t0 target_t0) with (T 0) at 1. unfold T at 1. rewrite S2. cbn [bind].
  f_equal. unfold flags. rewrite count_map_seq, filter_or, count_ej, P1 by assumption.
  cbn [plus]. unfold target_melted. fold T. fold T in S2.
  set (c := length _).
  rewrite Nat2Z.inj_add. replace (Z.of_nat k + Z.of_nat c - Z.of_nat k)%Z with (Z.of_nat c) by lia.
  rewrite <- Nat2Z.inj_sub by lia. now rewrite !INR_IZR_INZ.
Qed.

Lemma target_bound s : (length (target_melted melt_t n ej T s) <= n - k)%nat.
Proof.
  destruct (PK seed k n ltac:(lia)) as (P1 & P2 & P3). fold ej in P1, P2, P3.
  pose proof (count_target n ej P2 P3) as C. unfold target_melted.
  pose proof (filter_length_le_ (fun i => negb (existsb (Nat.eqb i) ej) && has_melted melt_t T s i)
    (fun i => negb (existsb (Nat.eqb i) ej)) (seq 0 n)) as L.
  specialize (L ltac:(intros x _ Q; apply andb_prop in Q; tauto)). lia.
Qed.

Lemma target_mono s s' : (s <= s')%nat ->
  (length (target_melted melt_t n ej T s) <= length (target_melted melt_t n ej T s'))%nat.
Proof.
  intros H. apply filter_length_le_. intros x _ Q. apply andb_prop in Q as [Q1 Q2]. rewrite Q1.
  unfold T in *. now rewrite (melted_mono _ _ s s' x H Q2).
Qed.

Lemma frac_zero : (forall j i t, (1 <= j)%nat -> (forall j', (j' < j)%nat -> heat1d_finite_diff (T j') = Ok (T (S j'))) ->
    ~ In i ej -> nth_error (T j) i = Some t -> t < melt_t) ->
  forall max_iter, melt_frac_teq_1d rnd pick mr ejecta_t0 target_t0 melt_t n eq_thresh max_iter seed = Ok 0.
Proof.
  intros H max_iter. destruct (frac_spec max_iter) as (s & S1 & S2 & S3 & S4). rewrite S2. f_equal.
  replace (target_melted melt_t n ej T s) with (@nil nat); [cbn [length INR]; unfold Rdiv; ring|].
  symmetry. unfold target_melted.
  assert (Q : forall l, (forall x, In x l -> negb (existsb (Nat.eqb x) ej) && has_melted melt_t T s x = false) ->
    filter (fun i => negb (existsb (Nat.eqb i) ej) && has_melted melt_t T s i) l = []).
  { induction l as [|x l IH]; intros F; [reflexivity|]. cbn [filter]. rewrite F by (left; reflexivity).
    apply IH. intros y I. apply F. now right. }
  apply Q. intros x _. destruct (existsb (Nat.eqb x) ej) eqn:E; [reflexivity|]. cbn [negb andb].
  destruct (has_melted melt_t T s x) eqn:M; [|reflexivity]. exfalso.
  unfold has_melted in M. apply existsb_exists in M as (j & J1 & J2). apply in_seq in J1.
  destruct (nth_error (T j) x) as [t|] eqn:N; [|discriminate]. apply Rleb_true in J2.
  assert (t < melt_t); [|lra]. apply (H j x t); [lia| | |exact N].
  - intros j' L. apply S4. lia.
  - intros I. apply existsb_In in I. congruence.
Qed.
End Frac.
