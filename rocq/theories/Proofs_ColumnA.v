(** Array forms of the stack lemmas. *)
From Coq Require Import List ZArith Reals Lia Lra Bool String.
From Verif Require Import Base Arith Model_Column Spec_Column Proofs_Base Proofs_Column Proofs_ColumnR.
Import ListNotations.
Open Scope R_scope.

Section Arrays.
  Context {T : Type} (A : arith T).
  Implicit Types ice ej : list T.

  Lemma stack_of_length k ice ej :
    List.length ice = List.length ej -> (k <= List.length ice)%nat ->
    List.length (stack_of k ice ej) = k.
  Proof.
    intros. unfold stack_of. rewrite rev_length, combine_length, !firstn_length. lia.
  Qed.

  Lemma stack_of_split k ice ej :
    List.length ice = List.length ej -> (k <= List.length ice)%nat ->
    ice = rev (map fst (stack_of k ice ej)) ++ skipn k ice /\
    ej = rev (map snd (stack_of k ice ej)) ++ skipn k ej.
  Proof.
    intros H Hk. unfold stack_of. rewrite <- !map_rev, rev_involutive.
    rewrite map_fst_combine, map_snd_combine by (rewrite !firstn_length; lia).
    now rewrite !firstn_skipn.
  Qed.

  Lemma garden_array ice ej t depth eff :
    List.length ice = List.length ej -> (-1 <= t < Z.of_nat (List.length ice))%Z ->
    garden_ice_column A ice ej t depth eff
    = Ok (ice_of (garden_stack A (zero A) depth eff (stack_of (Z.to_nat (t + 1)) ice ej))
          ++ skipn (Z.to_nat (t + 1)) ice).
  Proof.
    intros H Ht. set (k := Z.to_nat (t + 1)).
    assert (Hk : (k <= List.length ice)%nat) by lia.
    destruct (stack_of_split k ice ej H Hk) as [E1 E2].
    pose proof (garden_column_stack A (stack_of k ice ej) (skipn k ice) (skipn k ej) depth eff) as G.
    rewrite <- E1, <- E2, stack_of_length in G by auto.
    replace (Z.of_nat k - 1)%Z with t in G by lia. exact G.
  Qed.

  Lemma garden_index_error ice ej t depth eff :
    List.length ice = List.length ej -> (Z.of_nat (List.length ice) <= t)%Z ->
    garden_ice_column A ice ej t depth eff
    = if ltb A (zero A) depth then Err IndexError else Ok ice.
  Proof.
    intros H Ht. unfold garden_ice_column.
    replace (Z.to_nat (2 * t + 2)) with (S (S (2 * Z.to_nat t))) by lia.
    cbn [garden_loop]. destruct (ltb A (zero A) depth); auto.
    rewrite odd_2k1, div2_2k1. unfold get.
    replace (nth_error ej (Z.to_nat t)) with (@None T); auto.
    symmetry. apply nth_error_None. lia.
  Qed.

  Lemma erode_array ice ej t depth shield :
    List.length ice = List.length ej -> (-1 <= t < Z.of_nat (List.length ice))%Z ->
    erode_ice_cannon A ice ej t depth shield
    = Ok (ice_of (erode_shielded A shield depth (stack_of (Z.to_nat (t + 1)) ice ej))
          ++ skipn (Z.to_nat (t + 1)) ice).
  Proof.
    intros H Ht. set (k := Z.to_nat (t + 1)).
    assert (Hk : (k <= List.length ice)%nat) by lia.
    destruct (stack_of_split k ice ej H Hk) as [E1 E2].
    pose proof (erode_column_stack A (stack_of k ice ej) (skipn k ice) (skipn k ej) depth shield) as G.
    rewrite <- E1, <- E2, stack_of_length in G by auto.
    replace (Z.of_nat k - 1)%Z with t in G by lia. exact G.
  Qed.

  (** Position [k] of the array is position [m - 1 - k] of the stack. *)
  Lemma stack_of_nth m ice ej k :
    List.length ice = List.length ej -> (m <= List.length ice)%nat -> (k < m)%nat ->
    nth_error (stack_of m ice ej) (m - 1 - k) =
    match nth_error ice k, nth_error ej k with Some a, Some b => Some (a, b) | _, _ => None end.
  Proof.
    intros H Hm Hk. unfold stack_of.
    assert (HL : List.length (combine (firstn m ice) (firstn m ej)) = m)
      by (rewrite combine_length, !firstn_length; lia).
    rewrite nth_error_rev by lia. rewrite HL.
    replace (m - S (m - 1 - k))%nat with k by lia.
    rewrite nth_error_combine, !nth_error_firstn by lia. reflexivity.
  Qed.

  Lemma ice_of_nth (L : list (T * T)) (r : list T) k x :
    (k < List.length L)%nat ->
    nth_error (ice_of L ++ r) k = Some x ->
    exists e, nth_error L (List.length L - 1 - k) = Some (x, e).
  Proof.
    intros Hk H. unfold ice_of in H.
    rewrite nth_error_app1 in H by (rewrite rev_length, map_length; lia).
    rewrite nth_error_rev in H by (rewrite map_length; lia).
    rewrite map_length in H. 
    replace (List.length L - S k)%nat with (List.length L - 1 - k)%nat in H by lia.
    rewrite nth_error_map in H.
    destruct (nth_error L (List.length L - 1 - k)) as [[a e]|]; simpl in H; [|discriminate].
    injection H as <-. now exists e.
  Qed.
End Arrays.

Lemma stack_of_nonneg m ice ej :
  Forall (fun x => 0 <= x) ice -> Forall (fun x => 0 <= x) ej ->
  Forall (fun l => 0 <= fst l /\ 0 <= snd l) (stack_of m ice ej).
Proof.
  intros. unfold stack_of. apply Forall_rev. apply Forall_combine; now apply Forall_firstn.
Qed.

Lemma stack_of_snd_firstn m ice ej k :
  List.length ice = List.length ej -> (m <= List.length ice)%nat -> (k < m)%nat ->
  Rsum (map snd (firstn (S (m - 1 - k)) (stack_of m ice ej))) = Rsum (slice k m ej).
Proof.
  intros H Hm Hk. unfold stack_of.
  assert (HL : List.length (combine (firstn m ice) (firstn m ej)) = m)
    by (rewrite combine_length, !firstn_length; lia).
  rewrite firstn_rev, HL. replace (m - S (m - 1 - k))%nat with k by lia.
  rewrite map_rev, Rsum_rev. rewrite <- skipn_map, map_snd_combine
    by (rewrite !firstn_length; lia).
  unfold slice. now rewrite skipn_firstn_comm.
Qed.

Lemma garden_array_R ice ej t depth eff :
  List.length ice = List.length ej -> (-1 <= t < Z.of_nat (List.length ice))%Z ->
  Forall (fun x => 0 <= x) ice -> Forall (fun x => 0 <= x) ej -> 0 <= eff <= 1 ->
  garden_ice_column exactR ice ej t depth eff
  = Ok (ice_of (garden_R 0 depth eff (stack_of (Z.to_nat (t + 1)) ice ej))
        ++ skipn (Z.to_nat (t + 1)) ice).
Proof.
  intros. rewrite garden_array by auto. rewrite garden_stack_R; auto.
  now apply stack_of_nonneg.
Qed.

Lemma garden_R_length L : forall d depth eff,
  List.length (garden_R d depth eff L) = List.length L.
Proof.
  induction L as [|[x e] L IH]; intros; simpl; auto.
  destruct (Rltb (d + e) depth), (Rltb d depth); simpl; auto.
Qed.

(** Loss of one layer in array form. *)
Lemma garden_array_layer ice ej t depth eff ice' k x x' :
  List.length ice = List.length ej -> (-1 <= t < Z.of_nat (List.length ice))%Z ->
  Forall (fun x => 0 <= x) ice -> Forall (fun x => 0 <= x) ej -> 0 <= eff <= 1 ->
  garden_ice_column exactR ice ej t depth eff = Ok ice' ->
  (Z.of_nat k <= t)%Z -> nth_error ice k = Some x -> nth_error ice' k = Some x' ->
  x - x' <= Rmax 0 (depth - Rsum (slice k (Z.to_nat (t + 1)) ej)) /\
  x - x' <= eff * x /\ 0 <= x' <= x.
Proof.
  intros H Ht Hi He Hf HG Hk Hx Hx'.
  rewrite garden_array_R in HG by auto. injection HG as <-.
  set (m := Z.to_nat (t + 1)) in *.
  assert (Hm : (m <= List.length ice)%nat) by lia.
  assert (Hkm : (k < m)%nat) by lia.
  apply ice_of_nth in Hx' as [e' Hx'].
  2:{ rewrite garden_R_length, stack_of_length; auto. }
  rewrite garden_R_length, stack_of_length in Hx' by auto.
  assert (Hl : (k < List.length ej)%nat) by lia.
  destruct (nth_error ej k) as [e|] eqn:Ee; [|apply nth_error_None in Ee; lia].
  pose proof (stack_of_nth m ice ej k H Hm Hkm) as Hs. rewrite Hx, Ee in Hs.
  destruct (garden_R_layer eff (stack_of m ice ej) 0 depth (m - 1 - k) x e x' e')
    as (H1 & H2 & H3 & H4); auto; [lra|now apply stack_of_nonneg|].
  rewrite stack_of_snd_firstn in H1 by auto.
  replace (depth - 0 - Rsum (slice k m ej)) with (depth - Rsum (slice k m ej)) in H1 by lra.
  auto.
Qed.

Lemma ice_sum_split m (ice ej : list R) :
  List.length ice = List.length ej -> (m <= List.length ice)%nat ->
  Rsum ice = Rsum (map fst (stack_of m ice ej)) + Rsum (skipn m ice).
Proof.
  intros H Hm. destruct (stack_of_split m ice ej H Hm) as [E1 _].
  rewrite E1 at 1. rewrite Rsum_app, Rsum_rev. reflexivity.
Qed.

Lemma ice_of_sum L : Rsum (ice_of L) = Rsum (map fst L).
Proof. unfold ice_of. apply Rsum_rev. Qed.

Lemma garden_half_total ice ej t depth eff ice' :
  List.length ice = List.length ej -> (-1 <= t < Z.of_nat (List.length ice))%Z ->
  Forall (fun x => 0 <= x) ice -> Forall (fun x => 0 <= x) ej -> 0 <= eff <= 1 / 2 ->
  0 <= depth ->
  garden_ice_column exactR ice ej t depth eff = Ok ice' ->
  Rsum ice - Rsum ice' <= depth.
Proof.
  intros H Ht Hi He Hf Hd HG.
  rewrite garden_array_R in HG by (auto; lra). injection HG as <-.
  rewrite (ice_sum_split (Z.to_nat (t + 1)) ice ej) by (auto; lia).
  rewrite Rsum_app, ice_of_sum.
  pose proof (garden_R_half eff (stack_of (Z.to_nat (t + 1)) ice ej) 0 depth Hf (Rle_refl 0)
                (stack_of_nonneg _ _ _ Hi He)).
  rewrite Rmax_right in H0 by lra. lra.
Qed.

(** Removal is exact when the first ice layer reached is thick. *)
Lemma garden_top_exact ice ej t depth ice' x e :
  List.length ice = List.length ej -> 
  Forall (fun x => 0 <= x) ice -> Forall (fun x => 0 <= x) ej ->
  nth_error ice t = Some x -> nth_error ej t = Some e ->
  e < depth -> 2 * (depth - e) <= x ->
  garden_ice_column exactR ice ej (Z.of_nat t) depth 1 = Ok ice' ->
  ice' = upd ice t (x - (depth - e)).
Proof.
  intros H Hi He Hx Hej Hlt Hx2 HG.
  assert (Hl : (t < List.length ice)%nat) by (apply nth_error_Some; congruence).
  rewrite garden_array_R in HG by (auto; try lra; lia). injection HG as <-.
  replace (Z.to_nat (Z.of_nat t + 1)) with (S t) by lia.
  assert (H0e : 0 <= e) by (apply (Forall_nth_error _ _ _ _ He Hej)).
  apply nth_error_split in Hx as (i1 & i2 & -> & Hi1).
  apply nth_error_split in Hej as (j1 & j2 & -> & Hj1).
  assert (F : forall (l1 l2 : list R) a, List.length l1 = t -> firstn (S t) (l1 ++ a :: l2) = l1 ++ [a]).
  { intros l1 l2 a Hla. replace (l1 ++ a :: l2) with ((l1 ++ [a]) ++ l2) by now rewrite <- app_assoc.
    rewrite firstn_app. replace (S t - List.length (l1 ++ [a]))%nat with 0%nat
      by (rewrite app_length; cbn [List.length]; lia).
    rewrite firstn_all2 by (rewrite app_length; cbn [List.length]; lia). simpl. now rewrite app_nil_r. }
  unfold stack_of. rewrite !F by auto.
  assert (C : combine (i1 ++ [x]) (j1 ++ [e]) = combine i1 j1 ++ [(x, e)]).
  { assert (HE : List.length i1 = List.length j1) by congruence.
    clear - HE. revert j1 HE. induction i1 as [|a i1 IH]; intros [|b j1] HE; simpl in *; 
      try discriminate; auto. f_equal. apply IH. now injection HE. }
  rewrite C, rev_app_distr. cbn [rev app].
  rewrite garden_R_top by auto.
  unfold ice_of. cbn [map fst rev]. rewrite map_rev, rev_involutive.
  rewrite map_fst_combine by congruence.
  rewrite <- Hi1. rewrite upd_app_mid. rewrite <- app_assoc. f_equal. cbn [app]. f_equal.
  replace (i1 ++ x :: i2) with ((i1 ++ [x]) ++ i2) by now rewrite <- app_assoc.
  rewrite skipn_app. rewrite skipn_all2 by (rewrite app_length; cbn [List.length]; lia).
  rewrite app_length. cbn [List.length app]. replace (S (List.length i1) - (List.length i1 + 1))%nat with 0%nat by lia. reflexivity.
Qed.
