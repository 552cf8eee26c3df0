(** Proofs about the figure of impact speeds. *)
From Coq Require Import String List ZArith Reals Bool Lra Lia.
From Verif Require Import Base Model_Time Model_Interp Model_Ice Model_Rng Model_Ages Model_Volatile Model_Speeds.
From Verif Require Import Spec_Ice Spec_Volatile Spec_Speeds Proofs_Base Proofs_Time Proofs_Cumulative Proofs_Rng Proofs_Ages Proofs_Volatile.
Import ListNotations.
Open Scope R_scope.

(** ** Example distributions *)
Lemma ex_truncated : truncated ex_pdf ex_cdf ex_sf.
Proof.
  split; unfold ex_pdf, ex_cdf, ex_sf, below.
  - intros a [b|] x H; [destruct (Rltb a x && Rltb x b); [|lra]; apply Rlt_le, Rdiv_lt_0_compat; lra|].
    destruct (Rltb a x); [|lra]. pose proof (exp_pos (a - x)). lra.
  - intros a [b|] x H B.
    + rewrite (proj2 (Rltb_true _ _) H), (proj2 (Rltb_true _ _) B). cbn. apply Rdiv_lt_0_compat; lra.
    + rewrite (proj2 (Rltb_true _ _) H). apply exp_pos.
  - intros a b x H. assert (E : Rltb a x = false) by (apply Rltb_false; lra). rewrite E. cbn. destruct b; reflexivity.
  - intros a b x H. assert (E : Rltb x b = false) by (apply Rltb_false; lra). rewrite E, andb_false_r. reflexivity.
  - intros a b x H. destruct (Rleb x a) eqn:X; [lra|]. apply Rleb_false in X. destruct b as [b|].
    + destruct (Rleb b x) eqn:Y; [lra|]. apply Rleb_false in Y. split; [apply Rmult_le_pos; [lra|apply Rlt_le, Rinv_0_lt_compat; lra]|].
      apply Rmult_le_reg_r with (b - a); [lra|]. unfold Rdiv. rewrite Rmult_assoc, Rinv_l by lra. lra.
    + pose proof (exp_pos (a - x)). assert (exp (a - x) < exp 0) by (apply exp_increasing; lra). rewrite exp_0 in *. lra.
  - intros a b x y H L. destruct (Rleb x a) eqn:X.
    + destruct (Rleb y a) eqn:Y; [lra|]. apply Rleb_false in Y. destruct b as [b|].
      * destruct (Rleb b y) eqn:Z; [lra|]. apply Rleb_false in Z. apply Rmult_le_pos; [lra|apply Rlt_le, Rinv_0_lt_compat; lra].
      * assert (exp (a - y) < exp 0) by (apply exp_increasing; lra). rewrite exp_0 in *. lra.
    + apply Rleb_false in X. assert (Y : Rleb y a = false) by (apply Rleb_false; lra). rewrite Y. destruct b as [b|].
      * destruct (Rleb b x) eqn:Bx.
        -- apply Rleb_true in Bx. assert (By : Rleb b y = true) by (apply Rleb_true; lra). rewrite By. lra.
        -- apply Rleb_false in Bx. destruct (Rleb b y) eqn:By.
           ++ apply Rmult_le_reg_r with (b - a); [lra|]. unfold Rdiv. rewrite Rmult_assoc, Rinv_l by lra. lra.
           ++ apply Rmult_le_compat_r; [apply Rlt_le, Rinv_0_lt_compat; lra|lra].
      * destruct (Rle_lt_or_eq_dec x y L) as [L'|L']; [|subst; lra].
        assert (exp (a - y) < exp (a - x)) by (apply exp_increasing; lra). lra.
  - intros a b x H. now rewrite (proj2 (Rleb_true _ _) H).
  - intros a b x H L. assert (E : Rleb x a = false) by (apply Rleb_false; lra). rewrite E. now rewrite (proj2 (Rleb_true _ _) L).
  - intros a b x H B. assert (E : Rleb x a = false) by (apply Rleb_false; lra). rewrite E. destruct b as [b|].
    + assert (E' : Rleb b x = false) by (apply Rleb_false; lra). rewrite E'.
      split; [apply Rdiv_lt_0_compat; lra|]. apply Rmult_lt_reg_r with (b - a); [lra|]. unfold Rdiv. rewrite Rmult_assoc, Rinv_l by lra. lra.
    + pose proof (exp_pos (a - x)). assert (exp (a - x) < exp 0) by (apply exp_increasing; lra). rewrite exp_0 in *. lra.
  - reflexivity.
Qed.

(** ** Bars *)
Lemma combine_inv {A B} : forall (l : list A) (m : list B) i a b, nth_error (combine l m) i = Some (a, b) ->
  nth_error l i = Some a /\ nth_error m i = Some b.
Proof. induction l as [|x l IH]; intros [|y m] [|i] a b H; try discriminate; cbn in *; [injection H as -> ->; auto|auto]. Qed.
Lemma some_eq {A} (x y : A) : Some x = Some y -> x = y.
Proof. congruence. Qed.
Lemma filter_add {A} (f g h : A -> bool) l : (forall y, (Nat.b2n (f y) + Nat.b2n (g y) = Nat.b2n (h y))%nat) ->
  (length (filter f l) + length (filter g l) = length (filter h l))%nat.
Proof.
  intros H. induction l as [|y l IH]; [reflexivity|]. cbn [filter]. specialize (H y).
  destruct (f y), (g y), (h y); cbn in *; lia.
Qed.
Lemma filter_same {A} (f g : A -> bool) l : (forall y, f y = g y) -> length (filter f l) = length (filter g l).
Proof. intros H. induction l as [|y l IH]; [reflexivity|]. cbn. rewrite H. destruct (g y); cbn; congruence. Qed.
Ltac decs :=
  repeat match goal with
  | |- context [Rleb ?a ?b] => destruct (Rleb a b) eqn:?
  | |- context [Rltb ?a ?b] => destruct (Rltb a b) eqn:?
  end;
  repeat match goal with
  | H : Rleb _ _ = true |- _ => apply Rleb_true in H
  | H : Rleb _ _ = false |- _ => apply Rleb_false in H
  | H : Rltb _ _ = true |- _ => apply Rltb_true in H
  | H : Rltb _ _ = false |- _ => apply Rltb_false in H
  end.
Fixpoint rising (es : list R) : Prop :=
  match es with a :: ((b :: _) as r) => a < b /\ rising r | _ => True end.
Lemma rising_last a es : rising (a :: es) -> a <= last (a :: es) 0.
Proof.
  revert a. induction es as [|b es IH]; intros a H; [cbn; lra|]. destruct H as [L H]. specialize (IH b H).
  change (last (a :: b :: es) 0) with (last (b :: es) 0). lra.
Qed.
Lemma hist_sum a b r x : rising (a :: b :: r) ->
  list_sum (hist (a :: b :: r) x) = between true a (last (b :: r) 0) x.
Proof.
  revert a b. induction r as [|e r IH]; intros a b H; rewrite hist_cons.
  - cbn [hist list_sum fold_right last]. rewrite Nat.add_0_r. apply filter_same. intros y. decs; cbn; auto; lra.
  - destruct H as [L H]. cbn [list_sum]. change (list_sum (?n :: ?l)) with (n + list_sum l)%nat.
    rewrite IH by exact H. change (last (b :: e :: r) 0) with (last (e :: r) 0). unfold between. cbn [andb].
    pose proof (rising_last _ _ H) as M. change (last (b :: e :: r) 0) with (last (e :: r) 0) in M.
    apply filter_add. intros y. decs; cbn; auto; lra.
Qed.
Lemma linspace_rising lo hi m : lo < hi -> rising (linspace lo hi (S m)).
Proof.
  intros L. assert (R0 : forall es, (forall k a b, nth_error es k = Some a -> nth_error es (S k) = Some b -> a < b) -> rising es).
  { induction es as [|a [|b r] IH]; intros H; cbn; auto. split; [apply (H 0%nat); reflexivity|]. apply IH.
    intros k x y Hx Hy. apply (H (S k)); auto. }
  apply R0. intros k a b Ha Hb.
  assert (K : (S k < S m)%nat) by (rewrite <- (linspace_length lo hi (S m)); apply nth_error_Some; congruence).
  rewrite linspace_nth in Ha by lia. rewrite linspace_nth in Hb by lia. apply some_eq in Ha, Hb. subst a b.
  rewrite (S_INR k). pose proof (INR_n1 (S m) ltac:(lia)). assert (0 < (hi - lo) / (INR (S m) - 1)) by (apply Rdiv_lt_0_compat; lra). lra.
Qed.
Lemma linspace_shape lo hi m : (1 <= m)%nat -> exists b r, linspace lo hi (S m) = lo :: b :: r /\ last (b :: r) 0 = hi.
Proof.
  intros M. pose proof (linspace_length lo hi (S m)) as L. pose proof (linspace_first lo hi (S m) ltac:(lia)) as F.
  pose proof (linspace_last lo hi (S m) ltac:(lia)) as E.
  destruct (linspace lo hi (S m)) as [|a [|b r]]; cbn in L; try lia. injection F as ->. exists b, r. split; auto.
  replace (S m - 1)%nat with m in E by lia. destruct m as [|m]; [lia|]. cbn [nth_error] in E.
  assert (LB : length (b :: r) = S m) by (cbn; lia). clear - E LB. revert m E LB. generalize (b :: r) as l. 
  induction l as [|x l IH]; intros m E LB; [destruct m; discriminate|]. destruct m as [|m].
  - destruct l; [|discriminate]. cbn in *. congruence.
  - destruct l as [|y l]; [destruct m; discriminate|]. change (last (x :: y :: l) 0) with (last (y :: l) 0). apply (IH m); auto.
Qed.
Lemma bars_shares lo hi m x : lo < hi -> (1 <= m)%nat -> shares lo hi m x (bars (linspace lo hi (S m)) x).
Proof.
  intros L M. set (es := linspace lo hi (S m)).
  assert (LE : length es = S m) by apply linspace_length.
  assert (T : list_sum (hist es x) = between true lo hi x).
  { destruct (linspace_shape lo hi m M) as (b & r & E & Hl). pose proof (linspace_rising lo hi m L) as Ri.
    unfold es. rewrite E in *. rewrite hist_sum by auto. now rewrite Hl. }
  assert (LH : length (hist es x) = m) by (rewrite hist_length, LE; lia).
  assert (LC : length (combine (combine es (tl es)) (hist es x)) = m).
  { rewrite !combine_length, LH. assert (length (tl es) = m) by (destruct es; [discriminate|cbn in *; lia]). lia. }
  unfold bars. rewrite T. split; [now rewrite map_length|].
  intros k a b h H. rewrite nth_error_map in H. destruct (nth_error (combine _ _) k) as [[[a' b'] n]|] eqn:C; [|discriminate].
  cbn [option_map] in H. injection H as -> -> <-.
  assert (K : (k < m)%nat) by (rewrite <- LC; apply nth_error_Some; congruence).
  apply combine_inv in C as [C Cn]. apply combine_inv in C as [Ca Cb].
  assert (Cb' : nth_error es (S k) = Some b) by (destruct es; [destruct k; discriminate|exact Cb]).
  pose proof (hist_nth _ x _ _ _ Ca Cb') as Hn. rewrite Cn in Hn. apply some_eq in Hn.
  assert (N : n = between (Nat.eqb (k + 1) m) a b x).
  { rewrite Hn. rewrite LE. apply filter_same. intros y. replace (Nat.eqb (S (S k)) (S m)) with (Nat.eqb (k + 1) m)
      by (destruct (Nat.eqb_spec (k + 1) m), (Nat.eqb_spec (S (S k)) (S m)); auto; lia).
    destruct (Nat.eqb (k + 1) m); decs; cbn; auto; lra. }
  unfold es in Ca, Cb'. rewrite linspace_nth in Ca by lia. rewrite linspace_nth in Cb' by lia.
  pose proof (INR_n1 (S m) ltac:(lia)) as Im. assert (Em : INR (S m) - 1 = INR m) by (rewrite S_INR; lra). rewrite Em in *.
  assert (Ea : a = lo + (hi - lo) * INR k / INR m) by (apply some_eq in Ca; rewrite <- Ca; field; lra).
  assert (Eb : b = lo + (hi - lo) * INR (k + 1) / INR m) by (apply some_eq in Cb'; rewrite <- Cb', S_INR, plus_INR; cbn [INR]; field; lra).
  assert (W : 0 < b - a).
  { rewrite Ea, Eb, plus_INR. cbn [INR]. replace (_ - _) with ((hi - lo) / INR m) by (field; lra). apply Rdiv_lt_0_compat; lra. }
  split; auto. split; auto. split.
  - intros ->. reflexivity.
  - intros Z. destruct (Nat.eqb_spec (between true lo hi x) 0) as [|_]; [contradiction|].
    eexists. split; [reflexivity|]. rewrite <- N. assert (0 < INR (between true lo hi x)) by (apply lt_0_INR; lia). field. lra.
Qed.
Lemma bars_area lo hi m x : lo < hi -> (1 <= m)%nat -> between true lo hi x <> 0%nat -> area (bars (linspace lo hi (S m)) x) = 1.
Proof.
  intros L M NZ. pose proof (linspace_rising lo hi m L) as Ri. destruct (linspace_shape lo hi m M) as (b & r & E & Hl). rewrite E in *.
  assert (T : list_sum (hist (lo :: b :: r) x) = between true lo hi x) by (rewrite hist_sum by auto; now rewrite Hl).
  unfold bars, area. rewrite T. destruct (Nat.eqb_spec (between true lo hi x) 0) as [|_]; [contradiction|].
  set (n := between true lo hi x) in *. assert (P : 0 < INR n) by (apply lt_0_INR; lia).
  enough (G : forall es, rising es -> Rsum (map (fun '(a, b, h) => match h with Some v => v * (b - a) | None => 0 end)
    (map (fun '(a, b, k) => (a, b, Some (INR k / (b - a) / INR n))) (combine (combine es (tl es)) (hist es x)))) =
    INR (list_sum (hist es x)) / INR n).
  { rewrite G by auto. rewrite T. field. lra. }
  clear - P. induction es as [|a [|b r] IH]; intros H; [cbn; unfold Rdiv, Rsum; cbn; lra|cbn; unfold Rdiv, Rsum; cbn; lra|].
  rewrite hist_cons. destruct H as [L H]. set (k := length _). specialize (IH H).
  change (combine (combine (a :: b :: r) (tl (a :: b :: r))) (k :: hist (b :: r) x))
    with ((a, b, k) :: combine (combine (b :: r) (tl (b :: r))) (hist (b :: r) x)).
  rewrite !map_cons, Rsum_cons, IH. change (list_sum (?n :: ?l)) with (n + list_sum l)%nat. rewrite plus_INR. field. lra.
Qed.
Lemma between_all lo hi x : (forall y, In y x -> lo <= y <= hi) -> between true lo hi x = length x.
Proof.
  intros H. unfold between. induction x as [|y x IH]; [reflexivity|]. cbn [filter].
  destruct (H y (or_introl eq_refl)) as [A B]. rewrite (proj2 (Rleb_true _ _) A), (proj2 (Rleb_true _ _) B). cbn.
  f_equal. apply IH. intros z Z. apply H. now right.
Qed.
Lemma own_ok m x : (1 <= m)%nat -> x <> [] -> exists lo hi bs, bars_own m x = Ok bs /\ lo < hi /\
  (forall y, In y x -> lo <= y <= hi) /\ shares lo hi m x bs /\ area bs = 1.
Proof.
  intros M N. unfold bars_own. destruct (least_spec x) as [(lo & -> & I1 & L1)|[]]; [|contradiction].
  destruct (greatest_spec x) as [(hi & -> & I2 & G2)|[]]; [|contradiction]. cbn [bind].
  assert (LH : lo <= hi) by (now apply L1).
  assert (NZ : length x <> 0%nat) by (destruct x; [contradiction|discriminate]).
  destruct (Reqb lo hi) eqn:Q.
  - apply Reqb_true in Q. subst hi. assert (A : forall y, In y x -> lo - 1 / 2 <= y <= lo + 1 / 2).
    { intros y Y. specialize (L1 _ Y). specialize (G2 _ Y). lra. }
    exists (lo - 1 / 2), (lo + 1 / 2). eexists. split; [reflexivity|]. split; [lra|]. split; auto. split; [apply bars_shares; auto; lra|].
    apply bars_area; auto; [lra|]. now rewrite between_all.
  - apply Reqb_false in Q. assert (lo < hi) by lra. assert (A : forall y, In y x -> lo <= y <= hi) by (intros y Y; split; [now apply L1|now apply G2]).
    exists lo, hi. eexists. split; [reflexivity|]. split; auto. split; auto. split; [now apply bars_shares|].
    apply bars_area; auto. now rewrite between_all.
Qed.
