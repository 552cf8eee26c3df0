From Coq Require Import List ZArith Reals Lia Lra Psatz Bool Sorted.
From Verif Require Import Base Model_Interp Proofs_Base.
Import ListNotations.
Open Scope R_scope.

(** Abscissae strictly increasing. *)
Definition increasing_x (knots : list (R * R)) : Prop :=
  StronglySorted (fun a b => fst a < fst b) knots.

(** Ordinates non-decreasing along the table. *)
Definition nondecreasing_y (knots : list (R * R)) : Prop :=
  StronglySorted (fun a b => snd a <= snd b) knots.

Lemma lin_between x0 y0 x1 y1 x : x0 < x1 -> x0 <= x <= x1 ->
  let y := (y1 - y0) / (x1 - x0) * (x - x0) + y0 in
  Rmin y0 y1 <= y <= Rmax y0 y1.
Proof.
  intros H Hx y. set (w := (x - x0) / (x1 - x0)).
  assert (Hw : 0 <= w <= 1).
  { unfold w. split.
    - apply Rmult_le_pos; [lra|]. left. apply Rinv_0_lt_compat. lra.
    - apply Rmult_le_reg_r with (x1 - x0); [lra|].
      replace ((x - x0) / (x1 - x0) * (x1 - x0)) with (x - x0) by (field; lra). lra. }
  assert (Hy : y = y0 + w * (y1 - y0)) by (unfold y, w; field; lra).
  rewrite Hy. unfold Rmin, Rmax. destruct (Rle_dec y0 y1); split; nra.
Qed.

(** Complete case analysis of [interp_from]. *)
Lemma interp_from_cases rest : forall x0 y0 x,
  increasing_x ((x0, y0) :: rest) -> x0 <= x ->
  (exists xl yl, last ((x0, y0) :: rest) (0, 0) = (xl, yl) /\ xl <= x /\ interp_from x0 y0 rest x = yl) \/
  (exists i xa ya xb yb,
     nth_error ((x0, y0) :: rest) i = Some (xa, ya) /\ nth_error ((x0, y0) :: rest) (S i) = Some (xb, yb) /\
     xa <= x < xb /\ interp_from x0 y0 rest x = (yb - ya) / (xb - xa) * (x - xa) + ya).
Proof.
  induction rest as [|[x1 y1] rest IH]; intros x0 y0 x HS Hx; cbn [interp_from].
  - left. exists x0, y0. auto.
  - rcase x x1 E1'.
    + right. exists 0%nat, x0, y0, x1, y1. repeat split; auto.
    + inversion HS; subst. destruct (IH x1 y1 x H1 E1') as [(xl & yl & A & B & C)|(i & xa & ya & xb & yb & A & B & C & D)].
      * left. exists xl, yl. auto.
      * right. exists (S i), xa, ya, xb, yb. repeat split; auto; apply C.
Qed.

Lemma interp_cases knots x y : increasing_x knots -> interp knots x = Ok y ->
  (exists xf yf, nth_error knots 0 = Some (xf, yf) /\ x < xf /\ y = yf) \/
  (exists xl yl, last knots (0, 0) = (xl, yl) /\ xl <= x /\ y = yl) \/
  (exists i xa ya xb yb,
     nth_error knots i = Some (xa, ya) /\ nth_error knots (S i) = Some (xb, yb) /\
     xa <= x < xb /\ y = (yb - ya) / (xb - xa) * (x - xa) + ya).
Proof.
  destruct knots as [|[x0 y0] rest]; intros HS H; [discriminate|]. cbn [interp] in H.
  injection H as <-. rcase x x0 E1'.
  - left. exists x0, y0. auto.
  - right. apply interp_from_cases; auto.
Qed.

Lemma interp_total knots x : knots <> [] -> exists y, interp knots x = Ok y.
Proof. destruct knots as [|[x0 y0] r]; [congruence|]. cbn [interp]. eauto. Qed.

Lemma interp_empty x : interp [] x = Err ValueError.
Proof. reflexivity. Qed.

Lemma SS_nth {A} (P : A -> A -> Prop) l i j a b : StronglySorted P l -> (i < j)%nat ->
  nth_error l i = Some a -> nth_error l j = Some b -> P a b.
Proof.
  intros HS. revert i j. induction HS as [|x l HS IH HF]; intros i j Hij Ha Hb.
  - destruct i; discriminate.
  - destruct i as [|i], j as [|j]; try lia; cbn [nth_error] in *.
    + injection Ha as <-. rewrite Forall_forall in HF. apply HF. eapply nth_error_In; eauto.
    + eapply (IH i j); eauto. lia.
Qed.

Lemma last_nth {A} (l : list A) d : l <> [] -> nth_error l (length l - 1) = Some (last l d).
Proof.
  intros H. induction l as [|a l IH]; [congruence|]. destruct l as [|b l]; auto.
  cbn [length]. replace (S (S (length l)) - 1)%nat with (S (length (b :: l) - 1)) by (cbn [length]; lia).
  cbn [nth_error]. rewrite IH by congruence. reflexivity.
Qed.

Lemma interp_at_knot knots i xk yk : increasing_x knots ->
  nth_error knots i = Some (xk, yk) -> interp knots xk = Ok yk.
Proof.
  intros HS Hi. destruct (interp_total knots xk) as [y Hy].
  { intros ->. destruct i; discriminate. }
  rewrite Hy. f_equal.
  destruct (interp_cases knots xk y HS Hy) as [(xf & yf & A & B & C)|[(xl & yl & A & B & C)|(j & xa & ya & xb & yb & A & B & C & D)]].
  - destruct i as [|i]; [rewrite Hi in A; injection A as -> ->; auto|].
    assert (G := SS_nth _ _ 0 (S i) _ _ HS ltac:(lia) A Hi). simpl in G. lra.
  - assert (N : knots <> []) by (intros ->; destruct i; discriminate).
    pose proof (last_nth knots (0, 0) N) as L. rewrite A in L.
    destruct (Nat.lt_trichotomy i (length knots - 1)) as [G|[G|G]].
    + assert (Q := SS_nth _ _ _ _ _ _ HS G Hi L). simpl in Q. lra.
    + rewrite <- G in L. rewrite Hi in L. injection L as -> ->. auto.
    + assert (i < length knots)%nat by (apply nth_error_Some; congruence). lia.
  - destruct (Nat.lt_trichotomy i j) as [G|[G|G]].
    + assert (Q := SS_nth _ _ _ _ _ _ HS G Hi A). simpl in Q. lra.
    + subst j. rewrite Hi in A. injection A as -> ->. subst y. field. lra.
    + destruct (Nat.eq_dec i (S j)) as [->|N].
      * rewrite Hi in B. injection B as -> ->. lra.
      * assert (Q := SS_nth _ _ (S j) i _ _ HS ltac:(lia) B Hi). simpl in Q. lra.
Qed.

Lemma interp_in_range knots x y lo hi : increasing_x knots -> interp knots x = Ok y ->
  Forall (fun k => lo <= snd k <= hi) knots -> lo <= y <= hi.
Proof.
  intros HS H HF.
  destruct (interp_cases knots x y HS H) as [(xf & yf & A & B & C)|[(xl & yl & A & B & C)|(j & xa & ya & xb & yb & A & B & C & D)]].
  - subst. apply (Forall_nth_error _ _ _ _ HF A).
  - assert (N : knots <> []) by (intros ->; discriminate).
    pose proof (last_nth knots (0, 0) N) as L. rewrite A in L. subst.
    apply (Forall_nth_error _ _ _ _ HF L).
  - pose proof (Forall_nth_error _ _ _ _ HF A) as Ha. pose proof (Forall_nth_error _ _ _ _ HF B) as Hb.
    simpl in Ha, Hb.
    assert (xa < xb) by lra.
    pose proof (lin_between xa ya xb yb x H0 ltac:(lra)) as G. rewrite <- D in G.
    unfold Rmin, Rmax in G. destruct (Rle_dec ya yb); lra.
Qed.

(** Value between the two neighbouring knots. *)
Lemma interp_neighbours knots x y i xa ya xb yb : increasing_x knots -> interp knots x = Ok y ->
  nth_error knots i = Some (xa, ya) -> nth_error knots (S i) = Some (xb, yb) ->
  xa <= x <= xb -> Rmin ya yb <= y <= Rmax ya yb.
Proof.
  intros HS H Ha Hb Hx.
  destruct (Req_dec x xb) as [->|Nx].
  { rewrite (interp_at_knot _ _ _ _ HS Hb) in H. injection H as <-.
    split; [apply Rmin_r|apply Rmax_r]. }
  destruct (interp_cases knots x y HS H) as [(xf & yf & A & B & C)|[(xl & yl & A & B & C)|(j & xa' & ya' & xb' & yb' & A & B & C & D)]].
  - destruct i as [|i]; [rewrite Ha in A; injection A as -> ->; lra|].
    assert (G := SS_nth _ _ 0 (S i) _ _ HS ltac:(lia) A Ha). simpl in G. lra.
  - assert (N : knots <> []) by (intros ->; discriminate).
    pose proof (last_nth knots (0, 0) N) as L. rewrite A in L.
    assert (S i < length knots)%nat by (apply nth_error_Some; congruence).
    destruct (Nat.eq_dec (S i) (length knots - 1)) as [G|G].
    + rewrite <- G in L. rewrite Hb in L. injection L as -> ->. lra.
    + assert (Q := SS_nth _ _ _ _ _ _ HS (ltac:(lia) : (S i < length knots - 1)%nat) Hb L). simpl in Q. lra.
  - assert (i = j).
    { destruct (Nat.lt_trichotomy i j) as [G|[G|G]]; auto.
      - destruct (Nat.eq_dec (S i) j) as [<-|N].
        + rewrite Hb in A. injection A as -> ->. lra.
        + assert (Q := SS_nth _ _ _ _ _ _ HS (ltac:(lia) : (S i < j)%nat) Hb A). simpl in Q. lra.
      - destruct (Nat.eq_dec (S j) i) as [<-|N].
        + rewrite Ha in B. injection B as -> ->. lra.
        + assert (Q := SS_nth _ _ _ _ _ _ HS (ltac:(lia) : (S j < i)%nat) B Ha). simpl in Q. lra. }
    subst j. rewrite Ha in A. injection A as -> ->. rewrite Hb in B. injection B as -> ->.
    rewrite D. apply lin_between; lra.
Qed.

Lemma interp_from_mono rest : forall x0 y0 x x',
  increasing_x ((x0, y0) :: rest) -> nondecreasing_y ((x0, y0) :: rest) ->
  x0 <= x -> x <= x' -> interp_from x0 y0 rest x <= interp_from x0 y0 rest x'.
Proof.
  induction rest as [|[x1 y1] rest IH]; intros x0 y0 x x' HS HY Hx Hxx; cbn [interp_from]; [lra|].
  inversion HS as [|? ? HS' HSF]; subst. inversion HY as [|? ? HY' HYF]; subst.
  assert (Hx01 : x0 < x1) by (inversion HSF; auto).
  assert (Hy01 : y0 <= y1) by (inversion HYF; auto).
  rcase x x1 E1'; rcase x' x1 E2'; try lra.
  - assert (0 <= (y1 - y0) / (x1 - x0)).
    { apply Rmult_le_pos; [lra|]. left. apply Rinv_0_lt_compat. lra. }
    nra.
  - apply Rle_trans with y1.
    + pose proof (lin_between x0 y0 x1 y1 x Hx01 ltac:(lra)) as G. cbv zeta in G.
      rewrite Rmax_right in G; lra.
    + assert (G : interp_from x1 y1 rest x1 = y1).
      { pose proof (interp_at_knot ((x1, y1) :: rest) 0 x1 y1 HS' eq_refl) as K.
        cbn [interp] in K. rcase x1 x1 E3'; [lra|]. now injection K. }
      rewrite <- G at 1. apply IH; auto; lra.
  - apply IH; auto.
Qed.

Lemma interp_mono knots x x' y y' : increasing_x knots -> nondecreasing_y knots ->
  x <= x' -> interp knots x = Ok y -> interp knots x' = Ok y' -> y <= y'.
Proof.
  destruct knots as [|[x0 y0] rest]; intros HS HY Hx H H'; [discriminate|]. cbn [interp] in *.
  injection H as <-. injection H' as <-.
  rcase x x0 E1'; rcase x' x0 E2'; try lra.
  - assert (G : interp_from x0 y0 rest x0 = y0).
    { pose proof (interp_at_knot ((x0, y0) :: rest) 0 x0 y0 HS eq_refl) as K.
      cbn [interp] in K. rcase x0 x0 E3'; [lra|]. now injection K. }
    rewrite <- G at 1. apply interp_from_mono; auto; lra.
  - apply interp_from_mono; auto; lra.
Qed.

Lemma interp_outside knots x xf yf xl yl : increasing_x knots ->
  nth_error knots 0 = Some (xf, yf) -> last knots (0, 0) = (xl, yl) ->
  (x <= xf -> interp knots x = Ok yf) /\ (xl <= x -> interp knots x = Ok yl).
Proof.
  intros HS Hf Hl.
  assert (N : knots <> []) by (intros ->; discriminate).
  pose proof (last_nth knots (0, 0) N) as L. rewrite Hl in L. split; intros Hx.
  - destruct (Req_dec x xf) as [->|Nx]; [eapply interp_at_knot; eauto|].
    destruct knots as [|[x0 y0] r]; [discriminate|]. injection Hf as -> ->. cbn [interp].
    rcase x xf E1'; [auto|lra].
  - destruct (interp_total knots x N) as [y Hy]. rewrite Hy. f_equal.
    destruct (Req_dec x xl) as [->|Nx].
    { rewrite (interp_at_knot _ _ _ _ HS L) in Hy. congruence. }
    destruct (interp_cases knots x y HS Hy) as [(xf' & yf' & A & B & C)|[(xl' & yl' & A & B & C)|(j & xa & ya & xb & yb & A & B & C & D)]].
    + destruct (Nat.eq_dec (length knots - 1) 0) as [G|G].
      * rewrite G, A in L. injection L as -> ->. lra.
      * assert (Q := SS_nth _ _ 0 (length knots - 1) _ _ HS ltac:(lia) A L). simpl in Q. lra.
    + congruence.
    + assert (S j < length knots)%nat by (apply nth_error_Some; congruence).
      destruct (Nat.eq_dec (S j) (length knots - 1)) as [G|G].
      * rewrite <- G in L. rewrite B in L. injection L as -> ->. lra.
      * assert (Q := SS_nth _ _ _ _ _ _ HS (ltac:(lia) : (S j < length knots - 1)%nat) B L). simpl in Q. lra.
Qed.

Lemma interp_linear knots i xa ya xb yb w : increasing_x knots ->
  nth_error knots i = Some (xa, ya) -> nth_error knots (S i) = Some (xb, yb) -> 0 <= w <= 1 ->
  interp knots ((1 - w) * xa + w * xb) = Ok ((1 - w) * ya + w * yb).
Proof.
  intros HS Ha Hb Hw. pose proof (SS_nth _ _ i (S i) _ _ HS ltac:(lia) Ha Hb) as Hab. cbn [fst] in Hab.
  destruct (Req_dec w 1) as [->|Nw].
  { replace ((1 - 1) * xa + 1 * xb) with xb by ring. replace ((1 - 1) * ya + 1 * yb) with yb by ring.
    eapply interp_at_knot; eauto. }
  set (x := (1 - w) * xa + w * xb).
  assert (Hx : xa <= x < xb) by (unfold x; nra).
  destruct (interp_total knots x) as [y Hy]; [intros ->; destruct i; discriminate|].
  rewrite Hy. f_equal.
  destruct (interp_cases knots x y HS Hy) as [(xf & yf & A & B & C)|[(xl & yl & A & B & C)|(j & xa' & ya' & xb' & yb' & A & B & C & D)]].
  - destruct i as [|i]; [rewrite Ha in A; injection A as -> ->; lra|].
    assert (G := SS_nth _ _ 0 (S i) _ _ HS ltac:(lia) A Ha). simpl in G. lra.
  - assert (N : knots <> []) by (intros ->; destruct i; discriminate).
    pose proof (last_nth knots (0, 0) N) as L. rewrite A in L.
    assert (S i < length knots)%nat by (apply nth_error_Some; congruence).
    destruct (Nat.eq_dec (S i) (length knots - 1)) as [G|G].
    + rewrite <- G in L. rewrite Hb in L. injection L as -> ->. lra.
    + assert (Q := SS_nth _ _ _ _ _ _ HS (ltac:(lia) : (S i < length knots - 1)%nat) Hb L). simpl in Q. lra.
  - assert (i = j).
    { destruct (Nat.lt_trichotomy i j) as [G|[G|G]]; auto.
      - destruct (Nat.eq_dec (S i) j) as [<-|N].
        + rewrite Hb in A. injection A as -> ->. lra.
        + assert (Q := SS_nth _ _ _ _ _ _ HS (ltac:(lia) : (S i < j)%nat) Hb A). simpl in Q. lra.
      - destruct (Nat.eq_dec (S j) i) as [<-|N].
        + rewrite Ha in B. injection B as -> ->. lra.
        + assert (Q := SS_nth _ _ _ _ _ _ HS (ltac:(lia) : (S j < i)%nat) B Ha). simpl in Q. lra. }
    subst j. rewrite Ha in A. injection A as <- <-. rewrite Hb in B. injection B as <- <-.
    rewrite D. unfold x. field. lra.
Qed.
