From Coq Require Import List ZArith Reals Lia Lra Bool String Psatz.
From Verif Require Import Base Arith Model_Column Spec_Column Proofs_Base Proofs_Column.
Import ListNotations.
Open Scope R_scope.

(** * Safety for every rounding *)
Section Rounded.
  Variables (rw rs : R -> R).
  Hypothesis FP : fp_ok rw rs.
  Let A := roundedR rw rs.

  Definition stored (x : R) := 0 <= x /\ rs x = x.

  Lemma rw_stored x : stored x -> rw x = x.
  Proof. intros [_ H]. rewrite <- H at 1. rewrite (rw_rs _ _ FP). exact H. Qed.

  Lemma rw_nonneg x : 0 <= x -> 0 <= rw x.
  Proof. intros. rewrite <- (rw_0 _ _ FP). now apply (rw_mono _ _ FP). Qed.

  Lemma rs_nonneg x : 0 <= x -> 0 <= rs x.
  Proof. intros. rewrite <- (rs_0 _ _ FP). now apply (rs_mono _ _ FP). Qed.

  (** The amount stored back by one ice half-step. *)
  Lemma removal_safe x d depth eff :
    stored x -> rw depth = depth -> 0 <= eff <= 1 -> d < depth ->
    let removed0 := rw (x * eff) in
    let removed := if Rltb depth (rw (d + removed0)) then rw (depth - d) else removed0 in
    let x' := rs (rw (x - removed)) in
    stored x' /\ x' <= x.
  Proof.
    intros Hx Hd He Hlt removed0 removed x'.
    assert (Hx0 : 0 <= x) by apply Hx.
    assert (H0 : 0 <= removed0 <= x).
    { unfold removed0; split.
      - apply rw_nonneg. nra.
      - rewrite <- (rw_stored x Hx) at 2. apply (rw_mono _ _ FP). nra. }
    assert (H1 : 0 <= removed <= x).
    { unfold removed. rcase depth (rw (d + removed0)) E; [|lra].
      split; [apply rw_nonneg; lra|].
      assert (depth < d + removed0).
      { apply Rnot_le_lt. intros C. apply (rw_mono _ _ FP) in C. rewrite Hd in C. lra. }
      apply Rle_trans with (rw removed0).
      - apply (rw_mono _ _ FP); lra.
      - unfold removed0 in *. rewrite (rw_idem _ _ FP). lra. }
    unfold x', stored. repeat split.
    - apply rs_nonneg, rw_nonneg; lra.
    - apply (rs_idem _ _ FP).
    - destruct Hx as [_ Hs]. rewrite <- Hs at 2. apply (rs_mono _ _ FP).
      rewrite <- (rw_stored x) at 2 by (split; auto). apply (rw_mono _ _ FP). lra.
  Qed.

  Lemma erosion_safe x depth :
    stored x -> 0 < depth ->
    let x' := if Rltb x depth then 0 else rs (rw (x - depth)) in
    stored x' /\ x' <= x.
  Proof.
    intros Hx Hd x'. unfold x'. rcase x depth E.
    - split; [split; [lra| apply (rs_0 _ _ FP)]| apply Hx].
    - repeat split.
      + apply rs_nonneg, rw_nonneg; lra.
      + apply (rs_idem _ _ FP).
      + destruct Hx as [H0 Hs]. rewrite <- Hs at 2. apply (rs_mono _ _ FP).
        rewrite <- (rw_stored x) at 2 by (split; auto). apply (rw_mono _ _ FP). lra.
  Qed.

  Definition safe (new old : list R) : Prop :=
    Forall stored new /\ only_removed new old.

  Lemma safe_refl l : Forall stored l -> safe l l.
  Proof.
    intros H; split; auto. unfold only_removed. induction H; constructor; auto.
    destruct H; lra.
  Qed.

  Lemma safe_trans a b c : safe a b -> safe b c -> safe a c.
  Proof.
    intros [Ha Hab] [Hb Hbc]; split; auto. unfold only_removed in *.
    revert c Hbc. clear Ha Hb. induction Hab; intros c Hbc; inversion Hbc; subst; constructor; auto.
    lra.
  Qed.

  Lemma safe_upd l k x x' :
    Forall stored l -> nth_error l k = Some x -> stored x' -> x' <= x -> safe (upd l k x') l.
  Proof.
    intros HF Hn Hs Hle. split; [now apply Forall_upd|].
    apply Forall2_nth_error. split; [apply upd_length|].
    intros i a b Ha Hb.
    assert (Sb : stored b) by (eapply Forall_nth_error; eauto).
    destruct (Nat.eq_dec k i) as [->|Hne].
    - rewrite upd_nth_same in Ha by (apply nth_error_Some; congruence).
      rewrite Hn in Hb. injection Ha as <-; injection Hb as <-. destruct Hs; lra.
    - rewrite upd_nth_other in Ha by auto. rewrite Ha in Hb; injection Hb as <-.
      destruct Sb; lra.
  Qed.

  Lemma garden_loop_safe : forall n d depth eff ice ej ice',
    Forall stored ice -> rw depth = depth -> 0 <= eff <= 1 ->
    garden_loop A n d depth eff ice ej = Ok ice' ->
    safe ice' ice /\ (forall k, (n <= 2 * k)%nat -> nth_error ice' k = nth_error ice k).
  Proof.
    induction n as [|i IH]; intros d depth eff ice ej ice' HF Hd He H.
    - injection H as <-. split; auto using safe_refl.
    - cbn [garden_loop] in H. change (ltb A) with Rltb in H.
      rcase d depth E.
      2:{ injection H as <-. split; auto using safe_refl. }
      destruct (Nat.odd i) eqn:Eo.
      + destruct (get ej (Nat.div2 i)) as [e|]; [|discriminate]. cbn [bind] in H.
        apply IH in H; auto. destruct H as [H1 H2]. split; auto.
        intros k Hk; apply H2; lia.
      + destruct (get ice (Nat.div2 i)) as [x|] eqn:Eg; [|discriminate]. cbn [bind] in H.
        apply get_Ok in Eg.
        match type of H with (bind (set _ _ ?v) _) = _ => set (x' := v) in H end.
        destruct (set ice (Nat.div2 i) x') as [ice1|] eqn:Es; [|discriminate].
        cbn [bind] in H. apply set_Ok in Es as [Hlen ->].
        assert (Hx : stored x) by (eapply Forall_nth_error; eauto).
        destruct (removal_safe x d depth eff Hx Hd He E) as [Sx' Lx'].
        change (stored x') in Sx'. change (x' <= x) in Lx'.
        assert (S1 : safe (upd ice (Nat.div2 i) x') ice) by (eapply safe_upd; eauto).
        apply IH in H; auto; [|apply S1]. destruct H as [H1 H2]. split.
        * eapply safe_trans; eauto.
        * intros k Hk. rewrite H2 by lia. apply upd_nth_other.
          assert (Nat.even i = true) by (rewrite <- Nat.negb_odd, Eo; auto).
          apply Nat.even_spec in H as [m Hm]. rewrite Hm, div2_2k. lia.
  Qed.

  Lemma garden_safe ice ej t depth eff ice' :
    Forall stored ice -> rw depth = depth -> 0 <= eff <= 1 ->
    garden_ice_column A ice ej t depth eff = Ok ice' ->
    safe ice' ice /\
    (forall k, (Z.of_nat k > t)%Z -> nth_error ice' k = nth_error ice k).
  Proof.
    intros HF Hd He H. apply garden_loop_safe in H; auto. destruct H as [H1 H2].
    split; auto. intros k Hk. apply H2. lia.
  Qed.

  Lemma erode_loop_safe : forall n t base depth ice ice',
    Forall stored ice -> erode_loop A n t base depth ice = Ok ice' ->
    safe ice' ice /\ (forall k, (n <= k)%nat -> nth_error ice' k = nth_error ice k).
  Proof.
    induction n as [|i IH]; intros t base depth ice ice' HF H.
    - injection H as <-. split; auto using safe_refl.
    - cbn [erode_loop] in H. change (ltb A) with Rltb in H. change (zero A) with 0 in H.
      rcase 0 depth E.
      2:{ injection H as <-. split; auto using safe_refl. }
      destruct (t >? base)%Z.
      2:{ injection H as <-. split; auto using safe_refl. }
      destruct (get ice i) as [x|] eqn:Eg; [|discriminate]. cbn [bind] in H.
      apply get_Ok in Eg.
      match type of H with (bind (set _ _ ?v) _) = _ => set (x' := v) in H end.
      destruct (set ice i x') as [ice1|] eqn:Es; [|discriminate].
      cbn [bind] in H. apply set_Ok in Es as [Hlen ->].
      assert (Hx : stored x) by (eapply Forall_nth_error; eauto).
      destruct (erosion_safe x depth Hx E) as [Sx' Lx'].
      change (stored x') in Sx'. change (x' <= x) in Lx'.
      assert (S1 : safe (upd ice i x') ice) by (eapply safe_upd; eauto).
      apply IH in H; [|apply S1]. destruct H as [H1 H2]. split.
      + eapply safe_trans; eauto.
      + intros k Hk. rewrite H2 by lia. apply upd_nth_other. lia.
  Qed.

  Lemma erode_safe ice ej t depth shield ice' :
    Forall stored ice -> erode_ice_cannon A ice ej t depth shield = Ok ice' ->
    safe ice' ice /\
    (forall k, (Z.of_nat k > t)%Z -> nth_error ice' k = nth_error ice k).
  Proof.
    intros HF H. apply erode_loop_safe in H; auto. destruct H as [H1 H2].
    split; auto. intros k Hk. apply H2. lia.
  Qed.

  Lemma update_ice_col_safe co shield ice ej t o bd bf ice' :
    Forall stored ice -> rw o = o -> rw bd = bd -> 0 <= bf <= 1 ->
    update_ice_col A co shield ice ej t o bd bf = Ok ice' ->
    safe ice' ice /\
    (forall k, (Z.of_nat k > t)%Z -> nth_error ice' k = nth_error ice k).
  Proof.
    intros HF Ho Hbd Hbf H. unfold update_ice_col in H.
    destruct (garden_ice_column A ice ej (t - 1) bd bf) as [ice1|] eqn:E; [|discriminate].
    cbn [bind] in H. apply garden_safe in E; auto. destruct E as [S1 U1].
    assert (S2 : safe ice' ice1 /\
      forall k, (Z.of_nat k > t)%Z -> nth_error ice' k = nth_error ice1 k).
    { destruct co; cbn [remove_ice_overturn] in H.
      - apply garden_safe in H; auto; [apply S1 | change (one A) with 1; lra].
      - eapply erode_safe; eauto. apply S1. }
    destruct S2 as [S2 U2]. split; [eapply safe_trans; eauto|].
    intros k Hk. rewrite U2 by lia. apply U1. lia.
  Qed.

  Definition good_hist (h : list (R * R * R)) :=
    Forall (fun '(o, bd, bf) => rw o = o /\ rw bd = bd /\ 0 <= bf <= 1) h.

  Lemma run_column_safe co shield h : forall t ice ej ice',
    Forall stored ice -> good_hist h ->
    run_column A co shield t ice ej h = Ok ice' -> safe ice' ice.
  Proof.
    induction h as [|[[o bd] bf] h IH]; intros t ice ej ice' HF HG H; cbn [run_column] in H.
    - injection H as <-. now apply safe_refl.
    - inversion HG as [|? ? Hh HG']; subst. destruct Hh as (Ho & Hbd & Hbf).
      destruct (update_ice_col A co shield ice ej (Z.of_nat t) o bd bf) as [ice1|] eqn:E;
        [|discriminate]. cbn [bind] in H.
      apply update_ice_col_safe in E; auto. destruct E as [S1 _].
      eapply safe_trans; [|exact S1]. eapply IH; eauto. apply S1.
  Qed.

  Lemma history_good bd bf j : forall ov t h,
    Forall (fun o => rw o = o) ov ->
    Forall (Forall (fun x => rw x = x)) bd -> Forall (Forall (fun x => 0 <= x <= 1)) bf ->
    history bd bf j t ov = Ok h -> good_hist h.
  Proof.
    induction ov as [|o ov IH]; intros t h Ho Hd Hf H; cbn [history] in H.
    - injection H as <-. constructor.
    - inversion Ho; subst.
      destruct (get2 bd t j) as [b|] eqn:Eb; [|discriminate].
      destruct (get2 bf t j) as [f|] eqn:Ef; [|discriminate].
      destruct (history bd bf j (S t) ov) as [h'|] eqn:Eh; [|discriminate].
      cbn [bind] in H. injection H as <-. constructor.
      + unfold get2, bind in *.
        destruct (get bd t) as [rb|] eqn:E1; [|discriminate].
        destruct (get bf t) as [rf|] eqn:E2; [|discriminate].
        apply get_Ok in E1, E2, Eb, Ef.
        repeat split; auto.
        * apply (Forall_nth_error (fun x => rw x = x) rb j); auto.
          apply (Forall_nth_error _ bd t); auto.
        * apply (Forall_nth_error (fun x => 0 <= x <= 1) rf j f); auto.
          apply (Forall_nth_error _ bf t rf); auto.
        * apply (Forall_nth_error (fun x => 0 <= x <= 1) rf j f); auto.
          apply (Forall_nth_error _ bf t rf); auto.
      + eapply IH; eauto.
  Qed.

  (** Shielding by a single thick ejecta layer *)
  Lemma garden_shield_single depth eff x e below : forall above d,
    rw depth = depth -> 0 <= eff <= 1 -> 0 <= d -> 
    Forall (fun l => stored (fst l) /\ 0 <= snd l) above ->
    depth <= e ->
    exists above', garden_stack A d depth eff (above ++ (x, e) :: below)
                   = above' ++ (x, e) :: below /\ List.length above' = List.length above.
  Proof.
    induction above as [|[y g] above IH]; intros d Hd He H0 HF Hle.
    - exists []. split; auto. cbn [app garden_stack].
      change (ltb A) with Rltb. change (add A d e) with (rw (d + e)).
      rcase d depth E; auto.
      rcase (rw (d + e)) depth E2; auto. exfalso.
      assert (depth <= d + e) by lra. apply (rw_mono _ _ FP) in H. lra.
    - inversion HF as [|? ? [Hy Hg] HF']; subst. cbn [fst snd] in *.
      cbn [app garden_stack].
      change (ltb A) with Rltb. change (add A d g) with (rw (d + g)).
      rcase d depth E; [|exists ((y, g) :: above); auto].
      rcase (rw (d + g)) depth E2; [|exists ((y, g) :: above); auto].
      match goal with |- context [garden_stack A ?d2 depth eff _] => set (d2' := d2) end.
      destruct (IH d2') as (ab & Hab & Hlen); auto.
      + unfold d2'. cbn [add A roundedR]. apply rw_nonneg.
        assert (0 <= rw (d + g)) by (apply rw_nonneg; lra).
        pose proof (removal_safe y (rw (d + g)) depth eff Hy Hd He E2) as [[S1 _] _].
        cbn [store sub A roundedR mul]. cbn zeta in S1. lra.
      + rewrite Hab. eexists (_ :: ab). split; [reflexivity|]. simpl; congruence.
  Qed.
End Rounded.

(** * Exact reals *)

Lemma exact_ok : fp_ok (fun x => x) (fun x => x).
Proof. constructor; auto. Qed.

Lemma exactR_rounded : exactR = roundedR (fun x => x) (fun x => x).
Proof. reflexivity. Qed.

Lemma stored_exact l : Forall (fun x => 0 <= x) l -> Forall (stored (fun x => x)) l.
Proof. intros H; eapply Forall_impl; [|exact H]. intros; split; auto. Qed.

Lemma garden_stack_R eff : forall L d depth,
  0 <= eff <= 1 ->
  Forall (fun l => 0 <= fst l /\ 0 <= snd l) L ->
  garden_stack exactR d depth eff L = garden_R d depth eff L.
Proof.
  induction L as [|[x e] L IH]; intros d depth He HF; auto.
  inversion HF as [|? ? [Hx He'] HF']; subst. cbn [fst snd] in *.
  cbn [garden_stack garden_R]. change (ltb exactR) with Rltb.
  cbn [add sub mul store exactR].
  rcase d depth E1.
  - rcase (d + e) depth E2; auto.
    replace (if Rltb depth (d + e + x * eff) then depth - (d + e) else x * eff)
      with (Rmin (x * eff) (depth - (d + e))).
    + f_equal. apply IH; auto.
    + unfold Rmin. rcase depth (d + e + x * eff) E3; destruct (Rle_dec (x * eff) (depth - (d + e))); lra.
  - rcase (d + e) depth E2; auto.
Qed.

(** Depth reached is at least the ejecta crossed; per-layer loss. *)
Lemma garden_R_layer eff : forall L d depth k x e x' e',
  0 <= eff <= 1 -> 0 <= d ->
  Forall (fun l => 0 <= fst l /\ 0 <= snd l) L ->
  nth_error L k = Some (x, e) ->
  nth_error (garden_R d depth eff L) k = Some (x', e') ->
  x - x' <= Rmax 0 (depth - d - Rsum (map snd (firstn (S k) L))) /\
  x - x' <= eff * x /\ 0 <= x' <= x /\ e' = e.
Proof.
  induction L as [|[y g] L IH]; intros d depth k x e x' e' He Hd HF Hn Hn'.
  - destruct k; discriminate.
  - inversion HF as [|? ? [Hy Hg] HF']; subst. cbn [fst snd] in *.
    assert (Hsame : nth_error ((y, g) :: L) k = Some (x', e') ->
      x - x' <= Rmax 0 (depth - d - Rsum (map snd (firstn (S k) ((y, g) :: L)))) /\
      x - x' <= eff * x /\ 0 <= x' <= x /\ e' = e).
    { intros Hs. rewrite Hn in Hs. injection Hs as <- <-.
      assert (0 <= x).
      { apply (Forall_nth_error _ _ k (x, e)) in HF; auto. apply HF. }
      pose proof (Rmax_l 0 (depth - d - Rsum (map snd (firstn (S k) ((y, g) :: L))))).
      repeat split; try lra. nra. }
    cbn [garden_R] in Hn'.
    rcase (d + g) depth E2; [|auto].
    rcase d depth E1; [|auto].
    destruct k as [|k]; cbn [nth_error] in *.
    + injection Hn as <- <-. injection Hn' as <- <-. clear Hsame IH.
      cbn [firstn map snd]. rewrite Rsum_cons. unfold Rsum at 1; cbn [fold_right].
      pose proof (Rmax_r 0 (depth - d - (g + 0))).
      pose proof (Rmin_l (y * eff) (depth - (d + g))).
      pose proof (Rmin_r (y * eff) (depth - (d + g))).
      assert (0 <= Rmin (y * eff) (depth - (d + g))).
      { apply Rmin_glb; nra. }
      repeat split; try lra; try nra.
    + clear Hsame.
      set (m := Rmin (y * eff) (depth - (d + g))) in *.
      assert (0 <= y - m).
      { unfold m. pose proof (Rmin_l (y * eff) (depth - (d + g))). nra. }
      destruct (IH (d + g + (y - m)) depth k x e x' e') as (H1 & H2 & H3 & H4); auto; [lra|].
      repeat split; auto; try apply H3.
      eapply Rle_trans; [exact H1|].
      change (firstn (S (S k)) ((y, g) :: L)) with ((y, g) :: firstn (S k) L).
      cbn [map snd]. rewrite Rsum_cons.
      apply Rle_max_compat_l. lra.
Qed.

(** eff <= 1/2: what is removed is never more than what is counted. *)
Lemma garden_R_half eff : forall L d depth,
  0 <= eff <= 1 / 2 -> 0 <= d ->
  Forall (fun l => 0 <= fst l /\ 0 <= snd l) L ->
  Rsum (map fst L) - Rsum (map fst (garden_R d depth eff L)) <= Rmax 0 (depth - d).
Proof.
  induction L as [|[y g] L IH]; intros d depth He Hd HF.
  - cbn [garden_R map]. pose proof (Rmax_l 0 (depth - d)). lra.
  - inversion HF as [|? ? [Hy Hg] HF']; subst. cbn [fst snd] in *.
    cbn [garden_R]. pose proof (Rmax_l 0 (depth - d)).
    rcase (d + g) depth E2; [|lra].
    rcase d depth E1; [|lra].
    cbn [map fst]. rewrite !Rsum_cons.
    set (m := Rmin (y * eff) (depth - (d + g))) in *.
    assert (Hm1 : m <= y * eff) by apply Rmin_l.
    assert (Hm2 : m <= depth - (d + g)) by apply Rmin_r.
    assert (Hm0 : 0 <= m) by (apply Rmin_glb; nra).
    specialize (IH (d + g + (y - m)) depth He).
    assert (0 <= d + g + (y - m)) by nra.
    specialize (IH H0 HF').
    assert (Rmax 0 (depth - (d + g + (y - m))) <= depth - d - m).
    { apply Rmax_lub; nra. }
    pose proof (Rmax_r 0 (depth - d)). lra.
Qed.

(** If the first ice layer reached is thick enough, removal is exact. *)
Lemma garden_R_top x e L depth :
  e < depth -> 0 <= e -> 2 * (depth - e) <= x ->
  garden_R 0 depth 1 ((x, e) :: L) = (x - (depth - e), e) :: L.
Proof.
  intros. cbn [garden_R].
  rcase (0 + e) depth E2; [|lra].
  rcase 0 depth E1; [|lra].
  replace (Rmin (x * 1) (depth - (0 + e))) with (depth - e).
  2:{ unfold Rmin. destruct (Rle_dec (x * 1) (depth - (0 + e))); lra. }
  f_equal.
  destruct L as [|[y g] L]; auto. cbn [garden_R].
  assert (Hd : Rltb (0 + e + (x - (depth - e))) depth = false) by (apply Rltb_false; lra).
  rewrite Hd. rcase (0 + e + (x - (depth - e)) + g) depth E3; auto.
Qed.

(** * Erosion in exact arithmetic *)

Lemma erode_stack_total : forall L depth,
  0 <= depth -> Forall (fun l => 0 <= fst l) L ->
  Rsum (map fst L) - Rsum (map fst (erode_stack exactR depth L))
  = Rmin depth (Rsum (map fst L)).
Proof.
  assert (Hneg : forall L depth, depth <= 0 -> erode_stack exactR depth L = L).
  { intros [|[x e] L] depth H; auto. cbn [erode_stack]. change (ltb exactR) with Rltb.
    cbn [zero exactR]. rcase 0 depth E; auto. lra. }
  induction L as [|[x e] L IH]; intros depth Hd HF.
  - cbn. rewrite Rmin_right; lra.
  - inversion HF as [|? ? Hx HF']; subst. cbn [fst] in Hx.
    assert (Hs : 0 <= Rsum (map fst L)).
    { apply Rsum_nonneg. rewrite Forall_forall in *. intros z Hz.
      apply in_map_iff in Hz as [l [<- Hl]]. auto. }
    cbn [erode_stack]. change (ltb exactR) with Rltb. cbn [zero exactR store sub].
    rcase 0 depth E.
    + cbn [map fst]. rewrite !Rsum_cons. rcase x depth E2.
      * specialize (IH (depth - x)).
        assert (Hd' : 0 <= depth - x) by lra. specialize (IH Hd' HF').
        assert (Rmin (depth - x) (Rsum (map fst L)) + x = Rmin depth (x + Rsum (map fst L))).
        { unfold Rmin. destruct (Rle_dec (depth - x) (Rsum (map fst L))),
            (Rle_dec depth (x + Rsum (map fst L))); lra. }
        lra.
      * rewrite Hneg by lra. rewrite Rmin_left; lra.
    + cbn [map fst]. rewrite !Rsum_cons. rewrite Rmin_left; lra.
Qed.

(** Top-down: a layer changes only if everything above it is emptied. *)
Lemma erode_stack_topdown : forall L depth k x e x' e',
  Forall (fun l => 0 <= fst l) L ->
  nth_error L k = Some (x, e) ->
  nth_error (erode_stack exactR depth L) k = Some (x', e') ->
  e' = e /\ 0 <= x' <= x /\
  (x' <> x -> Forall (fun l => fst l = 0) (firstn k (erode_stack exactR depth L))).
Proof.
  assert (Hneg : forall L depth, depth <= 0 -> erode_stack exactR depth L = L).
  { intros [|[x e] L] depth H; auto. cbn [erode_stack]. change (ltb exactR) with Rltb.
    cbn [zero exactR]. rcase 0 depth E; auto. lra. }
  induction L as [|[y g] L IH]; intros depth k x e x' e' HF Hn Hn'.
  - destruct k; discriminate.
  - inversion HF as [|? ? Hy HF']; subst. cbn [fst] in Hy.
    cbn [erode_stack] in *. change (ltb exactR) with Rltb in *. cbn [zero exactR store sub] in *.
    rcase 0 depth E.
    + destruct k as [|k]; cbn [nth_error] in *.
      * injection Hn as <- <-. injection Hn' as <- <-. split; auto.
        split; [|intros; constructor]. rcase y depth E2; lra.
      * rcase y depth E2.
        -- destruct (IH (depth - y) k x e x' e' HF' Hn Hn') as (H1 & H2 & H3).
           split; auto. split; auto. intros C. cbn [firstn]. constructor; auto.
        -- rewrite Hneg in * by lra. rewrite Hn in Hn'. injection Hn' as <- <-.
           apply (Forall_nth_error _ _ k (x, e)) in HF'; auto. cbn [fst] in HF'.
           split; auto. split; [lra|]. congruence.
    + rewrite Hn in Hn'. injection Hn' as <- <-.
      apply (Forall_nth_error _ _ k (x, e)) in HF; auto. cbn [fst] in HF.
      split; auto. split; [lra|]. congruence.
Qed.
