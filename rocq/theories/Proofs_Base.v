From Coq Require Import List ZArith Reals Lia Lra Bool.
From Verif Require Import Base.
Import ListNotations.

Lemma Rltb_true x y : Rltb x y = true <-> (x < y)%R.
Proof. unfold Rltb; destruct (Rlt_dec x y); split; intros; auto; try discriminate; contradiction. Qed.
Lemma Rltb_false x y : Rltb x y = false <-> (y <= x)%R.
Proof. unfold Rltb; destruct (Rlt_dec x y); split; intros; auto; try discriminate; lra. Qed.
Lemma Rleb_true x y : Rleb x y = true <-> (x <= y)%R.
Proof. unfold Rleb; destruct (Rle_dec x y); split; intros; auto; try discriminate; contradiction. Qed.
Lemma Rleb_false x y : Rleb x y = false <-> (y < x)%R.
Proof. unfold Rleb; destruct (Rle_dec x y); split; intros; auto; try discriminate; lra. Qed.
Lemma Reqb_true x y : Reqb x y = true <-> x = y.
Proof. unfold Reqb; destruct (Req_EM_T x y); split; intros; auto; try discriminate; contradiction. Qed.
Lemma Reqb_false x y : Reqb x y = false <-> x <> y.
Proof. unfold Reqb; destruct (Req_EM_T x y); split; intros; auto; try discriminate; contradiction. Qed.

(** Case split on a boolean comparison of reals, leaving the inequality. *)
Tactic Notation "rcase" constr(x) constr(y) ident(H) :=
  destruct (Rltb x y) eqn:H;
    [ apply Rltb_true in H | apply Rltb_false in H ].

Lemma upd_length {A} (l : list A) i x : length (upd l i x) = length l.
Proof. revert i; induction l; destruct i; simpl; auto. Qed.

Lemma upd_nth_same {A} (l : list A) i x : i < length l -> nth_error (upd l i x) i = Some x.
Proof. revert i; induction l; destruct i; simpl; intros; try lia; auto. apply IHl; lia. Qed.

Lemma upd_nth_other {A} (l : list A) i j x : i <> j -> nth_error (upd l i x) j = nth_error l j.
Proof. revert i j; induction l; destruct i, j; simpl; intros; try lia; auto. Qed.

Lemma upd_app_mid {A} (l r : list A) a x : upd (l ++ a :: r) (length l) x = l ++ x :: r.
Proof. induction l; simpl; congruence. Qed.

Lemma get_app_mid {A} (l r : list A) a : get (l ++ a :: r) (length l) = Ok a.
Proof. unfold get. induction l; simpl; auto. Qed.

Lemma set_app_mid {A} (l r : list A) a x : set (l ++ a :: r) (length l) x = Ok (l ++ x :: r).
Proof.
  unfold set. rewrite app_length; simpl.
  replace (Nat.ltb (length l) (length l + S (length r))) with true
    by (symmetry; apply Nat.ltb_lt; lia).
  now rewrite upd_app_mid.
Qed.

Lemma get_Ok {A} (l : list A) i a : get l i = Ok a <-> nth_error l i = Some a.
Proof. unfold get; destruct (nth_error l i); split; congruence. Qed.

Lemma set_Ok {A} (l : list A) i a l' : set l i a = Ok l' <-> i < length l /\ l' = upd l i a.
Proof.
  unfold set; destruct (Nat.ltb i (length l)) eqn:E.
  - apply Nat.ltb_lt in E. split; [intros [= <-]; auto | intros [_ ->]; auto].
  - apply Nat.ltb_ge in E. split; [discriminate | intros [H _]; lia].
Qed.

Lemma Forall_upd {A} (P : A -> Prop) l i x : Forall P l -> P x -> Forall P (upd l i x).
Proof.
  intros HF HP; revert i; induction HF; destruct i; simpl; auto.
Qed.

Lemma Forall_nth_error {A} (P : A -> Prop) l i x : Forall P l -> nth_error l i = Some x -> P x.
Proof. intros HF Hn. rewrite Forall_forall in HF. apply HF. eapply nth_error_In; eauto. Qed.

Lemma Forall2_nth_error {A B} (P : A -> B -> Prop) l l' :
  Forall2 P l l' <-> length l = length l' /\
  (forall i x y, nth_error l i = Some x -> nth_error l' i = Some y -> P x y).
Proof.
  split.
  - induction 1; simpl; split; auto.
    + destruct i; discriminate.
    + destruct IHForall2; lia.
    + destruct IHForall2 as [_ IH]. destruct i; simpl; intros; eauto. congruence.
  - revert l'. induction l; destruct l'; simpl; intros [HL HN]; try discriminate; constructor.
    + apply (HN 0 a b); auto.
    + apply IHl. split; [lia|]. intros i; apply (HN (S i)).
Qed.

Lemma Rsum_app l r : Rsum (l ++ r) = (Rsum l + Rsum r)%R.
Proof. unfold Rsum. induction l; simpl; [lra|]. rewrite IHl; lra. Qed.

Lemma Rsum_rev l : Rsum (rev l) = Rsum l.
Proof. induction l; simpl; auto. rewrite Rsum_app, IHl. simpl. unfold Rsum; simpl; lra. Qed.

Lemma Rsum_nonneg l : Forall (fun x => 0 <= x)%R l -> (0 <= Rsum l)%R.
Proof. induction 1; simpl; unfold Rsum in *; simpl; lra. Qed.

Lemma Rsum_cons x l : Rsum (x :: l) = (x + Rsum l)%R.
Proof. reflexivity. Qed.

Lemma Rsum_map_const {A} (l : list A) c : Rsum (map (fun _ => c) l) = (INR (length l) * c)%R.
Proof. induction l; simpl length; [simpl; unfold Rsum; simpl; lra|]. cbn [map]. rewrite Rsum_cons, IHl, S_INR; lra. Qed.

Lemma nth_error_rev {A} (l : list A) j :
  j < length l -> nth_error (rev l) j = nth_error l (length l - S j).
Proof.
  revert j; induction l as [|a l IH] using rev_ind; simpl; [lia|]. intros j H.
  rewrite rev_app_distr, app_length in *. simpl in *.
  destruct j as [|j]; simpl.
  - rewrite nth_error_app2 by lia. replace (length l + 1 - 1 - length l) with 0 by lia. reflexivity.
  - rewrite IH by lia. rewrite nth_error_app1 by lia. f_equal. lia.
Qed.

Lemma nth_error_combine {A B} (l : list A) (l' : list B) i :
  nth_error (combine l l') i =
  match nth_error l i, nth_error l' i with Some a, Some b => Some (a, b) | _, _ => None end.
Proof.
  revert l' i; induction l as [|a l IH]; intros [|b l'] [|i]; simpl; auto.
  destruct (nth_error l i); auto.
Qed.

Lemma nth_error_firstn {A} (l : list A) k i : i < k -> nth_error (firstn k l) i = nth_error l i.
Proof.
  revert k i; induction l as [|a l IH]; intros [|k] [|i] H; simpl; auto; try lia. apply IH; lia.
Qed.

Lemma map_fst_combine {A B} (l : list A) (l' : list B) :
  length l = length l' -> map fst (combine l l') = l.
Proof. revert l'; induction l as [|a l IH]; intros [|b l'] H; simpl in *; try discriminate; auto. f_equal; auto. Qed.

Lemma map_snd_combine {A B} (l : list A) (l' : list B) :
  length l = length l' -> map snd (combine l l') = l'.
Proof. revert l'; induction l as [|a l IH]; intros [|b l'] H; simpl in *; try discriminate; auto. f_equal; auto. Qed.

Lemma Forall_combine {A B} (P : A -> Prop) (Q : B -> Prop) l l' :
  Forall P l -> Forall Q l' -> Forall (fun p => P (fst p) /\ Q (snd p)) (combine l l').
Proof.
  intros H; revert l'; induction H; intros l' H'; [constructor|].
  destruct H'; simpl; constructor; simpl; auto.
Qed.

Lemma Forall_firstn {A} (P : A -> Prop) k l : Forall P l -> Forall P (firstn k l).
Proof. intros H; revert k; induction H; intros [|k]; simpl; auto. Qed.

Lemma Forall_skipn {A} (P : A -> Prop) k l : Forall P l -> Forall P (skipn k l).
Proof. intros H; revert k; induction H; intros [|k]; simpl; auto. Qed.
