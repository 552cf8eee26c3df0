(** Proofs about stratigraphy tables. *)
From Coq Require Import String Ascii List ZArith Reals Bool Lra Lia Sorted.
From Verif Require Import Base Model_Time Model_Rng Model_Strat Spec_Strat Proofs_Base Proofs_Time.
Import ListNotations.
Open Scope R_scope.

Lemma Sorted_snoc {A} (P : A -> A -> Prop) l a b :
  Sorted P (l ++ [a]) -> P a b -> Sorted P ((l ++ [a]) ++ [b]).
Proof.
  intros H Hab. induction l as [|x l IH]; cbn [app] in *.
  - repeat constructor; auto.
  - inversion H; subst. constructor; [auto|].
    destruct l as [|y l]; cbn [app] in *; [constructor|].
    + inversion H3; auto.
    + constructor. inversion H3; auto.
Qed.

Lemma Sorted_nth {A} (P : A -> A -> Prop) l i a b :
  Sorted P l -> nth_error l i = Some a -> nth_error l (S i) = Some b -> P a b.
Proof.
  intros H. revert i. induction H as [|x l Hs IH Hd]; intros [|i] Ha Hb; cbn in Ha, Hb; try discriminate.
  - injection Ha as ->. destruct l as [|y l]; cbn in Hb; [discriminate|]. injection Hb as ->.
    inversion Hd; auto.
  - eauto.
Qed.

Section Groups.
  Context {A : Type} (lab : A -> string).

  Lemma key_eqb_true a b : key_eqb a b = true <-> a = b.
  Proof.
    destruct a as [s n], b as [s' n']. unfold key_eqb. cbn. rewrite andb_true_iff, String.eqb_eq, Nat.eqb_eq.
    split; [intros [-> ->]; auto|injection 1 as -> ->; auto].
  Qed.

  Lemma add_new k (x : A) gs : Forall (fun g => fst g <> k) gs -> add_to_group k x gs = gs ++ [(k, [x])].
  Proof.
    induction 1 as [|[k' l] gs H _ IH]; cbn [add_to_group app]; auto.
    destruct (key_eqb k k') eqn:E; [apply key_eqb_true in E; cbn in H; congruence|]. now rewrite IH.
  Qed.

  Lemma add_last k (x : A) gs g : Forall (fun g => fst g <> k) gs ->
    add_to_group k x (gs ++ [(k, g)]) = gs ++ [(k, g ++ [x])].
  Proof.
    induction 1 as [|[k' l] gs H _ IH]; cbn [add_to_group app].
    - destruct (key_eqb k k) eqn:E; auto. exfalso. rewrite <- not_true_iff_false in E.
      now apply E, key_eqb_true.
    - destruct (key_eqb k k') eqn:E; [apply key_eqb_true in E; cbn in H; congruence|]. now rewrite IH.
  Qed.

  Definition group_ok (kg : (string * nat) * list A) : Prop :=
    snd kg <> [] /\ Forall (fun x => lab x = fst (fst kg)) (snd kg).

  Lemma group_fold rows : forall p k g gs,
    Forall (fun g => (snd (fst g) < k)%nat) gs ->
    Forall group_ok (gs ++ [((p, k), g)]) ->
    Sorted (fun a b => fst (fst a) <> fst (fst b)) (gs ++ [((p, k), g)]) ->
    let out := fold_left (fun gs kx => add_to_group (fst kx) (snd kx) gs)
                 (combine (combine (map lab rows) (run_ids (Some p) k (map lab rows))) rows)
                 (gs ++ [((p, k), g)]) in
    concat (map snd out) = concat (map snd gs) ++ g ++ rows /\
    Forall group_ok out /\ Sorted (fun a b => fst (fst a) <> fst (fst b)) out.
  Proof.
    induction rows as [|x rows IH]; intros p k g gs Hlt Hok Hs; cbn [map run_ids combine fold_left].
    - rewrite map_app, concat_app. cbn. rewrite !app_nil_r. auto.
    - destruct (String.eqb_spec p (lab x)) as [E|E]; cbn [combine fold_left fst snd].
      + rewrite <- E. rewrite add_last.
        2:{ eapply Forall_impl; [|exact Hlt]. intros [[s n] l] Hn Hk. cbn in *. injection Hk as -> ->. lia. }
        specialize (IH p k (g ++ [x]) gs Hlt). cbv zeta in IH.
        replace (g ++ x :: rows) with ((g ++ [x]) ++ rows) by now rewrite <- app_assoc.
        apply IH.
        * apply Forall_app in Hok as [H1 H2]. apply Forall_app. split; auto. inversion H2; subst.
          constructor; auto. destruct H3 as [H3 H5]. split; cbn in *; [destruct g; discriminate|].
          apply Forall_app. auto.
        * clear -Hs. induction gs as [|a gs IHg]; cbn [app] in *; [repeat constructor|].
          inversion Hs; subst. constructor; auto. destruct gs; cbn [app] in *; inversion H2; constructor; auto.
      + rewrite add_new.
        2:{ apply Forall_app. split; [|constructor; [|constructor]].
            - eapply Forall_impl; [|exact Hlt]. intros [[s n] l] Hn Hk. cbn in *. injection Hk as -> ->. lia.
            - cbn. intros Hk. injection Hk as -> H. lia. }
        specialize (IH (lab x) (S k) [x] (gs ++ [((p, k), g)])). cbv zeta in IH.
        destruct IH as (I1 & I2 & I3).
        * apply Forall_app. split; [|constructor; [cbn; lia|constructor]].
          eapply Forall_impl; [|exact Hlt]. cbn. intros; lia.
        * apply Forall_app. split; auto. constructor; [|constructor]. split; cbn; [discriminate|auto].
        * apply Sorted_snoc; auto.
        * rewrite I1. split; auto. rewrite map_app, concat_app. cbn. rewrite app_nil_r, <- !app_assoc. auto.
  Qed.

  Lemma groupby_ok rows :
    let labels := map lab rows in
    let out := groupby (combine (combine labels (run_ids None 0 labels)) rows) in
    concat (map snd out) = rows /\ Forall group_ok out /\
    Sorted (fun a b => fst (fst a) <> fst (fst b)) out.
  Proof.
    destruct rows as [|x rows]; cbn [map run_ids combine]; unfold groupby; cbn [fold_left].
    - repeat split; constructor.
    - cbn [add_to_group fst snd].
      apply (group_fold rows (lab x) 1 [x] []); [constructor| |repeat constructor].
      constructor; [|constructor]. split; cbn; [discriminate|auto].
  Qed.
End Groups.

(** * Rows *)
Lemma row_label_spec thick_min t i e s :
  row_label thick_min i e s =
  if visible thick_min (t, i, e, s) then Some (step_label thick_min (t, i, e, s)) else None.
Proof.
  unfold row_label, visible, step_label. destruct (Rltb thick_min i), (Rltb thick_min e); cbn; auto;
    destruct s; cbn; auto.
Qed.

Lemma dropna_rows rnd thick_min tol after_age age steps :
  strat_rows rnd thick_min tol after_age age steps =
  let kept := filter (in_span rnd tol after_age age) steps in
  let rows := map (fun s => let '(t, i, e, src) := s in
                     mk_row (rnd t) (rnd i) (rnd e)
                       (if visible thick_min s then Some (step_label thick_min s) else None)) kept in
  if after_age then
    match rows with
    | [] => Err IndexError
    | r :: _ => Ok (mk_row (r_time r) 0 0 (Some "Formation age"%string) :: rows)
    end
  else Ok rows.
Proof.
  unfold strat_rows. cbv zeta.
  set (f := fun '(t, i, e, s) => mk_row (rnd t) (rnd i) (rnd e) (row_label thick_min i e s)).
  assert (Hm : forall l, map f l = map (fun s => let '(t, i, e, src) := s in
                     mk_row (rnd t) (rnd i) (rnd e)
                       (if visible thick_min s then Some (step_label thick_min s) else None)) l).
  { intros l. apply map_ext. intros [[[t i] e] s]. unfold f. now rewrite (row_label_spec _ t). }
  assert (Hf : filter (fun r => Rltb (r_time r) (age + rtol age tol)) (map f steps)
               = map f (filter (in_span rnd tol true age) steps)).
  { induction steps as [|[[[t i] e] s] l IH]; auto. cbn [map filter]. unfold in_span at 1, f at 1, rtol.
    cbn [r_time negb orb]. destruct (Rltb (rnd t) _); cbn [map]; [f_equal|]; exact IH. }
  destruct after_age.
  - rewrite Hf, Hm. reflexivity.
  - rewrite <- Hm. f_equal. f_equal. clear. induction steps as [|[[[t i] e] s] l IH]; auto.
    cbn [filter in_span negb orb]. congruence.
Qed.

Lemma dropna_labelled rnd thick_min steps :
  dropna (map (fun s => let '(t, i, e, src) := s in
                     mk_row (rnd t) (rnd i) (rnd e)
                       (if visible thick_min s then Some (step_label thick_min s) else None)) steps)
  = map (labelled rnd thick_min) (filter (visible thick_min) steps).
Proof.
  unfold dropna. induction steps as [|[[[t i] e] s] l IH]; auto. cbn [map flat_map filter r_label].
  rewrite IH. destruct (visible thick_min (t, i, e, s)); reflexivity.
Qed.

Lemma make_strat_unfold rnd thick_min tol after_age age steps :
  make_strat_col rnd thick_min tol after_age age steps =
  let kept := filter (in_span rnd tol after_age age) steps in
  if (after_age && match kept with [] => true | _ => false end)%bool then Err IndexError else
  let strat := merge_adjacent_strata
       (formation rnd after_age kept ++ map (labelled rnd thick_min) (filter (visible thick_min) kept)) in
  Ok (map (fun '((i, e, l, t), d) => mk_layer i e l t d (icepct i e))
      (combine strat (rev_cumsum (map (fun '(i, e, _, _) => i + e) strat)))).
Proof.
  unfold make_strat_col. rewrite dropna_rows. cbv zeta.
  set (kept := filter _ steps). unfold formation.
  destruct after_age; cbn [andb].
  - destruct kept as [|[[[t i] e] s] k] eqn:Ek; [reflexivity|].
    set (f := fun s0 : R * R * R * string => let '(t0, i0, e0, _) := s0 in _).
    cbn [map]. change (f (t, i, e, s) :: map f k) with (map f ((t, i, e, s) :: k)).
    change (r_time (f (t, i, e, s))) with (rnd t). cbn [bind].
    change (dropna (mk_row (rnd t) 0 0 (Some "Formation age"%string) :: map f ((t, i, e, s) :: k)))
      with ((0, 0, "Formation age"%string, rnd t) :: dropna (map f ((t, i, e, s) :: k))).
    unfold f. rewrite dropna_labelled. reflexivity.
  - cbn [bind]. rewrite dropna_labelled. reflexivity.
Qed.

Lemma cumsum_from_length l : forall a, length (cumsum_from a l) = length l.
Proof. induction l; intros; cbn; auto. Qed.
Lemma cumsum_from_nth l : forall a i, (i < length l)%nat ->
  nth_error (cumsum_from a l) i = Some (a + Rsum (firstn (S i) l)).
Proof.
  induction l as [|x l IH]; intros a i H; cbn [length] in H; [lia|].
  destruct i as [|i]; cbn [cumsum_from nth_error firstn].
  - rewrite Rsum_cons. unfold Rsum. cbn. f_equal. lra.
  - rewrite IH by lia. rewrite Rsum_cons. cbn [firstn]. f_equal. lra.
Qed.

Lemma rev_cumsum_length l : length (rev_cumsum l) = length l.
Proof. unfold rev_cumsum, cumsum. now rewrite rev_length, cumsum_from_length, rev_length. Qed.
Lemma rev_cumsum_nth l i : (i < length l)%nat ->
  nth_error (rev_cumsum l) i = Some (Rsum (skipn i l)).
Proof.
  intros H. unfold rev_cumsum, cumsum.
  rewrite nth_error_rev by (rewrite cumsum_from_length, rev_length; lia).
  rewrite cumsum_from_length, rev_length.
  rewrite cumsum_from_nth by (rewrite rev_length; lia).
  rewrite Rplus_0_l. f_equal.
  replace (S (length l - S i)) with (length l - i)%nat by lia.
  rewrite firstn_rev, Rsum_rev. do 2 f_equal. lia.
Qed.

Lemma nth_error_skipn_cons {A} (l : list A) i x : nth_error l i = Some x -> skipn i l = x :: skipn (S i) l.
Proof.
  revert i; induction l as [|y l IH]; intros [|i] H; cbn in H; try discriminate.
  - injection H as ->. reflexivity.
  - change (skipn (S i) (y :: l)) with (skipn i l). rewrite (IH _ H). reflexivity.
Qed.

Lemma mapped_combine_nth {A B C} (f : A * B -> C) l l' i c :
  nth_error (map f (combine l l')) i = Some c ->
  exists a b, nth_error l i = Some a /\ nth_error l' i = Some b /\ c = f (a, b).
Proof.
  rewrite nth_error_map, nth_error_combine. destruct (nth_error l i), (nth_error l' i); cbn; try discriminate.
  injection 1 as <-. eauto.
Qed.

Definition mk_out (strat : list (R * R * string * R)) : list layer :=
  map (fun '((i, e, l, t), d) => mk_layer i e l t d (icepct i e))
      (combine strat (rev_cumsum (map (fun '(i, e, _, _) => i + e) strat))).

Lemma mk_out_map strat :
  map (fun l => (l_ice l, l_ej l, l_label l, l_time l)) (mk_out strat) = strat.
Proof.
  unfold mk_out. rewrite map_map.
  assert (H : length strat = length (rev_cumsum (map (fun '(i, e, _, _) => i + e) strat)))
    by now rewrite rev_cumsum_length, map_length.
  rewrite <- (map_fst_combine _ _ H) at 3. apply map_ext. intros [[[[i e] l] t] d]. reflexivity.
Qed.

Lemma mk_out_depth strat i l : nth_error (mk_out strat) i = Some l ->
  l_depth l = Rsum (map (fun l => l_ice l + l_ej l) (skipn i (mk_out strat))) /\
  l_icepct l = icepct (l_ice l) (l_ej l).
Proof.
  intros H. pose proof H as H'. unfold mk_out in H. apply mapped_combine_nth in H as (a & d & Ha & Hd & ->).
  destruct a as [[[ic e] lb] t]. cbn. split; auto.
  rewrite rev_cumsum_nth in Hd by (rewrite map_length; apply nth_error_Some; congruence).
  injection Hd as <-. f_equal. rewrite !skipn_map.
  rewrite <- (mk_out_map strat) at 1. rewrite skipn_map, map_map.
  apply map_ext. intros []. reflexivity.
Qed.

(** * C44 *)
Lemma strat_ok_iff rnd thick_min tol after_age age steps :
  match make_strat_col rnd thick_min tol after_age age steps with
  | Ok _ => after_age = false \/ exists s, In s steps /\ in_span rnd tol true age s = true
  | Err e => e = IndexError /\ after_age = true /\ forall s, In s steps -> in_span rnd tol true age s = false
  end.
Proof.
  rewrite make_strat_unfold. cbv zeta. destruct after_age; cbn [andb]; [|now left].
  destruct (filter _ steps) as [|s k] eqn:E.
  - repeat split. intros s Hs. destruct (in_span rnd tol true age s) eqn:E'; auto.
    assert (In s []) as []. rewrite <- E. now apply filter_In.
  - right. exists s. apply filter_In. rewrite E. now left.
Qed.

Lemma strat_groups rnd thick_min tol after_age age steps out :
  make_strat_col rnd thick_min tol after_age age steps = Ok out ->
  let kept := filter (in_span rnd tol after_age age) steps in
  let rows := formation rnd after_age kept ++
              map (labelled rnd thick_min) (filter (visible thick_min) kept) in
  exists groups, concat groups = rows /\ Forall2 is_layer groups out /\
    Sorted (fun a b => l_label a <> l_label b) out.
Proof.
  rewrite make_strat_unfold. cbv zeta. set (kept := filter _ steps).
  set (rows := formation _ _ _ ++ _).
  destruct (after_age && _)%bool; [discriminate|]. injection 1 as <-. fold (mk_out (merge_adjacent_strata rows)).
  pose proof (groupby_ok (fun r : R * R * string * R => snd (fst r)) rows) as H. cbv zeta in H.
  unfold merge_adjacent_strata at 1 2.
  assert (Hl : map (fun '(_, _, l, _) => l) rows = map (fun r : R * R * string * R => snd (fst r)) rows)
    by (apply map_ext; intros [[[? ?] ?] ?]; reflexivity).
  rewrite Hl. set (gs := groupby _) in *. destruct H as (H1 & H2 & H3).
  exists (map snd gs). split; auto.
  set (f := fun '(k, g) => (Rsum (map (fun '(i, _, _, _) => i) g),
     Rsum (map (fun '(_, e, _, _) => e) g), last (map (fun '(_, _, l, _) => l) g) (fst k),
     last (map (fun '(_, _, _, t) => t) g) 0)) in *.
  assert (Hf : forall kg, group_ok (fun r : R * R * string * R => snd (fst r)) kg ->
            exists init r, snd kg = init ++ [r] /\
              f kg = (Rsum (map (fun r => fst (fst (fst r))) (snd kg)),
                      Rsum (map (fun r => snd (fst (fst r))) (snd kg)), fst (fst kg), snd r)).
  { intros [k g] [Hne Hlab]. cbn [fst snd] in *.
    destruct (exists_last Hne) as (init & r & Hg). exists init, r. split; auto.
    unfold f. subst g.
    assert (Hlast : forall (C : Type) (h : R * R * string * R -> C) d, last (map h (init ++ [r])) d = h r)
      by (intros; rewrite map_app; apply last_last).
    rewrite !Hlast. destruct r as [[[ri re] rl] rt]. cbn.
    apply Forall_app in Hlab as [_ Hlab]. pose proof (Forall_inv Hlab) as Hk. cbn in Hk. rewrite Hk.
    rewrite (map_ext (fun '(i, _, _, _) => i) (fun r : R * R * string * R => fst (fst (fst r))))
      by (intros [[[? ?] ?] ?]; reflexivity).
    rewrite (map_ext (fun '(_, e, _, _) => e) (fun r : R * R * string * R => snd (fst (fst r))))
      by (intros [[[? ?] ?] ?]; reflexivity).
    reflexivity. }
  pose proof (mk_out_map (map f gs)) as Hm. set (out := mk_out (map f gs)) in *. clearbody out.
  split.
  - clear -Hm H2 Hf. revert out Hm. induction H2 as [|kg gs Hkg Hgs IH]; intros [|l out] Hm; cbn in Hm; try discriminate;
      constructor; [|apply IH; now injection Hm].
    destruct (Hf kg Hkg) as (init & r & Hg & Hfk). injection Hm as Hl _. rewrite Hfk in Hl.
    injection Hl as A1 A2 A3 A4. destruct Hkg as [_ Hk]. unfold is_layer. rewrite A1, A2, A3, A4.
    repeat split; eauto.
  - clear -Hm H2 H3 Hf.
    assert (Hlabs : map l_label out = map (fun kg => fst (fst kg)) gs).
    { revert out Hm. induction H2 as [|kg gs Hkg Hgs IH]; intros [|l out] Hm; cbn in Hm; try discriminate; auto.
      cbn [map]. destruct (Hf kg Hkg) as (init & r & Hg & Hfk). injection Hm as Hl Hm. rewrite Hfk in Hl.
      injection Hl as _ _ -> _. f_equal. apply IH; auto. now inversion H3. }
    clear Hm Hf H2. revert out Hlabs. induction H3 as [|kg gs Hs IH Hd]; intros [|l out] Hl; cbn in Hl; try discriminate;
      constructor; [apply IH; now injection Hl|].
    injection Hl as Hl Hl'. destruct out as [|l2 out]; constructor. destruct gs as [|kg2 gs]; cbn in Hl'; [discriminate|].
    injection Hl' as Hl2 _. inversion Hd; subst. congruence.
Qed.

Lemma Rsum_concat {A} (h : A -> R) gs : Rsum (map h (concat gs)) = Rsum (map (fun g => Rsum (map h g)) gs).
Proof. induction gs; cbn [concat map]; auto. rewrite map_app, Rsum_app, Rsum_cons. congruence. Qed.

Lemma strat_totals rnd thick_min tol after_age age steps out :
  make_strat_col rnd thick_min tol after_age age steps = Ok out ->
  let kept := filter (fun s => in_span rnd tol after_age age s && visible thick_min s) steps in
  Rsum (map l_ice out) = Rsum (map (fun '(_, i, _, _) => rnd i) kept) /\
  Rsum (map l_ej out) = Rsum (map (fun '(_, _, e, _) => rnd e) kept).
Proof.
  intros H. pose proof (strat_groups _ _ _ _ _ _ _ H) as (gs & Hc & Hl & _). cbv zeta in Hc.
  rewrite filter_filter in Hc. cbv zeta. set (kept := filter _ steps) in *.
  assert (Hi : map l_ice out = map (fun g => Rsum (map (fun r => fst (fst (fst r))) g)) gs).
  { clear -Hl. induction Hl as [|g l gs out Hgl _ IH]; auto. cbn [map]. rewrite IH. f_equal. apply Hgl. }
  assert (He : map l_ej out = map (fun g => Rsum (map (fun r => snd (fst (fst r))) g)) gs).
  { clear -Hl. induction Hl as [|g l gs out Hgl _ IH]; auto. cbn [map]. rewrite IH. f_equal. apply Hgl. }
  rewrite Hi, He, <- !Rsum_concat, Hc, !map_app, !Rsum_app, !map_map.
  split.
  - replace (Rsum (map _ (formation _ _ _))) with 0.
    + rewrite Rplus_0_l. f_equal. apply map_ext. intros [[[t i] e] s]. reflexivity.
    + unfold formation. destruct after_age, (filter _ _) as [|[[[t i] e] s] ?]; unfold Rsum; cbn; lra.
  - replace (Rsum (map _ (formation _ _ _))) with 0.
    + rewrite Rplus_0_l. f_equal. apply map_ext. intros [[[t i] e] s]. reflexivity.
    + unfold formation. destruct after_age, (filter _ _) as [|[[[t i] e] s] ?]; unfold Rsum; cbn; lra.
Qed.

Lemma strat_formation rnd thick_min tol age steps out :
  make_strat_col rnd thick_min tol true age steps = Ok out ->
  (forall t i e s, In (t, i, e, s) steps -> s <> "Formation age"%string) ->
  exists before t i e s after l rest,
    steps = before ++ (t, i, e, s) :: after /\
    Forall (fun s => in_span rnd tol true age s = false) before /\
    in_span rnd tol true age (t, i, e, s) = true /\
    out = l :: rest /\
    l_label l = "Formation age"%string /\ l_ice l = 0 /\ l_ej l = 0 /\ l_time l = rnd t.
Proof.
  intros H Hn. pose proof (strat_groups _ _ _ _ _ _ _ H) as (gs & Hc & Hl & _). cbv zeta in Hc.
  pose proof (strat_ok_iff rnd thick_min tol true age steps) as Hok. rewrite H in Hok.
  destruct Hok as [Hok|(s0 & Hs0 & Hsp)]; [discriminate|].
  set (kept := filter (in_span rnd tol true age) steps) in *.
  assert (Hk : exists before t i e s after k', steps = before ++ (t, i, e, s) :: after /\
    Forall (fun s => in_span rnd tol true age s = false) before /\
    in_span rnd tol true age (t, i, e, s) = true /\ kept = (t, i, e, s) :: k').
  { unfold kept. clear -Hs0 Hsp. induction steps as [|x l IH]; [destruct Hs0|].
    destruct (in_span rnd tol true age x) eqn:Ex.
    - destruct x as [[[t i] e] s]. exists [], t, i, e, s, l. cbn [filter]. rewrite Ex. eexists. repeat split; auto.
    - destruct Hs0 as [-> |Hs0]; [congruence|].
      destruct (IH Hs0) as (b & t & i & e & s & a & k' & -> & Hb & Ht & He).
      exists (x :: b), t, i, e, s, a, k'. repeat split; auto. cbn [filter]. now rewrite Ex. }
  destruct Hk as (b & t & i & e & s & a & k' & Hst & Hb & Ht & Hk).
  rewrite Hk in Hc. unfold formation in Hc. rewrite <- Hk in Hc. cbn [app] in Hc.
  set (rows := map (labelled rnd thick_min) (filter (visible thick_min) kept)) in *.
  assert (Hr : Forall (fun r : R * R * string * R => snd (fst r) <> "Formation age"%string) rows).
  { apply Forall_forall. intros r Hr. apply in_map_iff in Hr as ([[[t1 i1] e1] s1] & <- & Hin).
    apply filter_In in Hin as [Hin _]. apply filter_In in Hin as [Hin _]. cbn [labelled fst snd step_label].
    destruct (Rltb thick_min e1); [|discriminate].
    destruct (String.eqb s1 ""); [discriminate|]. exact (Hn _ _ _ _ Hin). }
  inversion Hl as [Hg0 Ho0|g l gs' rest Hgl Hrest Hg0 Ho0]; subst gs out.
  - cbn in Hc. discriminate.
  - exists b, t, i, e, s, a, l, rest. repeat split; auto.
    all: destruct Hgl as (L1 & L2 & L3 & init & r & Hg & L4).
    all: destruct g as [|r0 g]; [destruct init; discriminate|]; cbn [concat app] in Hc; injection Hc as -> Hc.
    all: assert (Hlab : l_label l = "Formation age"%string) by (apply Forall_inv in L1; cbn in L1; congruence).
    all: auto.
    all: assert (Hgn : g = []).
    1,3,5: destruct g as [|r1 g]; auto; exfalso; apply Forall_inv_tail, Forall_inv in L1;
      cbn in Hc; destruct rows as [|r1' rows']; [discriminate|]; injection Hc as -> _;
      apply Forall_inv in Hr; congruence.
    all: subst g.
    + rewrite L2. unfold Rsum. cbn. lra.
    + rewrite L3. unfold Rsum. cbn. lra.
    + rewrite L4. destruct init as [|? [|? ?]]; cbn in Hg; [injection Hg as <-|discriminate..]. reflexivity.
Qed.

Lemma StronglySorted_app_inv {A} (P : A -> A -> Prop) l l' : StronglySorted P (l ++ l') ->
  StronglySorted P l /\ StronglySorted P l' /\ Forall (fun x => Forall (P x) l') l.
Proof.
  induction l as [|x l IH]; cbn [app]; intros H; [repeat split; auto; constructor|].
  inversion H; subst. apply IH in H2 as (A1 & A2 & A3). apply Forall_app in H3 as [B1 B2].
  repeat split; auto; constructor; auto.
Qed.

Lemma strat_youngest rnd thick_min tol after_age age steps out :
  make_strat_col rnd thick_min tol after_age age steps = Ok out ->
  StronglySorted (fun a b : R * R * R * string => rnd (fst (fst (fst b))) <= rnd (fst (fst (fst a)))) steps ->
  let kept := filter (in_span rnd tol after_age age) steps in
  let rows := formation rnd after_age kept ++
              map (labelled rnd thick_min) (filter (visible thick_min) kept) in
  exists groups, concat groups = rows /\
    Forall2 (fun g l => is_layer g l /\ In (l_time l) (map snd g) /\ Forall (fun r => l_time l <= snd r) g) groups out.
Proof.
  intros H Hs. pose proof (strat_groups _ _ _ _ _ _ _ H) as (gs & Hc & Hl & _). cbv zeta in *.
  exists gs. split; auto. set (kept := filter _ steps) in *. set (rows := formation _ _ _ ++ _) in *.
  assert (Hsr : StronglySorted (fun a b : R * R * string * R => snd b <= snd a) rows).
  { assert (Hsk : StronglySorted (fun a b : R * R * R * string => rnd (fst (fst (fst b))) <= rnd (fst (fst (fst a)))) kept).
    { unfold kept. clear -Hs. induction Hs as [|x l Hs IH Hf]; cbn [filter]; [constructor|].
      destruct (in_span _ _ _ _ x); auto. constructor; auto. rewrite Forall_forall in *. intros y Hy.
      apply filter_In in Hy as [Hy _]. auto. }
    assert (Hsv : StronglySorted (fun a b : R * R * string * R => snd b <= snd a)
                   (map (labelled rnd thick_min) (filter (visible thick_min) kept))).
    { clear -Hsk. induction Hsk as [|x l Hs IH Hf]; cbn [filter]; [constructor|].
      destruct (visible thick_min x); auto. cbn [map]. constructor; auto. rewrite Forall_forall in *.
      intros y Hy. apply in_map_iff in Hy as (z & <- & Hz). apply filter_In in Hz as [Hz _].
      specialize (Hf z Hz). destruct x as [[[? ?] ?] ?], z as [[[? ?] ?] ?]. cbn in *. exact Hf. }
    unfold rows, formation. destruct after_age; [|exact Hsv].
    destruct kept as [|[[[t i] e] s] k] eqn:Ek; [exact Hsv|]. cbn [app]. constructor; [exact Hsv|].
    apply Forall_forall. intros y Hy. apply in_map_iff in Hy as (z & <- & Hz). apply filter_In in Hz as [Hz _].
    inversion Hsk; subst. rewrite Forall_forall in *. destruct Hz as [<-|Hz]; [cbn; lra|].
    specialize (H3 z Hz). destruct z as [[[? ?] ?] ?]. cbn in *. exact H3. }
  rewrite <- Hc in Hsr. clear -Hl Hsr. induction Hl as [|g l gs out Hgl _ IH]; constructor; cbn [concat] in Hsr;
    apply StronglySorted_app_inv in Hsr as (S1 & S2 & _); auto.
  split; auto. destruct Hgl as (_ & _ & _ & init & r & -> & ->). split.
  - rewrite map_app. apply in_or_app. right. now left.
  - apply StronglySorted_app_inv in S1 as (_ & _ & S3). apply Forall_app. split.
    + eapply Forall_impl; [|exact S3]. intros a Ha. exact (Forall_inv Ha).
    + constructor; [lra|constructor].
Qed.

(** * C45 *)
Lemma strat_mk_out rnd thick_min tol after_age age steps out :
  make_strat_col rnd thick_min tol after_age age steps = Ok out -> exists st, out = mk_out st.
Proof.
  rewrite make_strat_unfold. cbv zeta. destruct (_ && _)%bool; [discriminate|]. injection 1 as <-.
  eexists. reflexivity.
Qed.

Lemma strat_depth rnd thick_min tol after_age age steps out i l :
  make_strat_col rnd thick_min tol after_age age steps = Ok out ->
  nth_error out i = Some l ->
  l_depth l = Rsum (map (fun l => l_ice l + l_ej l) (skipn i out)).
Proof.
  intros H Hi. destruct (strat_mk_out _ _ _ _ _ _ _ H) as [st ->]. now apply (mk_out_depth st).
Qed.

Lemma strat_nonneg rnd thick_min tol after_age age steps out :
  make_strat_col rnd thick_min tol after_age age steps = Ok out ->
  (forall x, 0 <= x -> 0 <= rnd x) ->
  Forall (fun '(_, i, e, _) => 0 <= i /\ 0 <= e) steps ->
  Forall (fun l => 0 <= l_ice l /\ 0 <= l_ej l) out.
Proof.
  intros H Hr Hs. pose proof (strat_groups _ _ _ _ _ _ _ H) as (gs & Hc & Hl & _). cbv zeta in Hc.
  set (kept := filter _ steps) in *. set (rows := formation _ _ _ ++ _) in *.
  assert (HF : Forall (fun r : R * R * string * R => 0 <= fst (fst (fst r)) /\ 0 <= snd (fst (fst r))) rows).
  { unfold rows. apply Forall_app. split.
    - unfold formation. destruct after_age, kept as [|[[[t i] e] s] ?]; repeat constructor; cbn; lra.
    - apply Forall_forall. intros r Hin. apply in_map_iff in Hin as ([[[t i] e] s] & <- & Hin).
      apply filter_In in Hin as [Hin _]. apply filter_In in Hin as [Hin _].
      rewrite Forall_forall in Hs. specialize (Hs _ Hin). cbn in *. split; apply Hr; tauto. }
  rewrite <- Hc in HF. clear -HF Hl. induction Hl as [|g l gs out Hgl _ IH]; constructor; cbn [concat] in HF;
    apply Forall_app in HF as [F1 F2]; auto.
  destruct Hgl as (_ & -> & -> & _). split; apply Rsum_nonneg; apply Forall_map;
    (eapply Forall_impl; [|exact F1]); cbn; tauto.
Qed.

Lemma strat_depth_steps rnd thick_min tol after_age age steps out :
  make_strat_col rnd thick_min tol after_age age steps = Ok out ->
  (forall i a b, nth_error out i = Some a -> nth_error out (S i) = Some b ->
     l_depth a - l_depth b = l_ice a + l_ej a) /\
  (forall a rest, out = a :: rest -> l_depth a = Rsum (map l_ice out) + Rsum (map l_ej out)) /\
  (forall init a, out = init ++ [a] -> l_depth a = l_ice a + l_ej a).
Proof.
  intros H. split; [|split].
  - intros i a b Ha Hb. rewrite (strat_depth _ _ _ _ _ _ _ _ _ H Ha), (strat_depth _ _ _ _ _ _ _ _ _ H Hb).
    rewrite (nth_error_skipn_cons out i a Ha). cbn [map]. rewrite Rsum_cons. lra.
  - intros a rest Ho. rewrite (strat_depth _ _ _ _ _ _ _ 0%nat a H) by (now rewrite Ho). cbn [skipn].
    clear. induction out; cbn [map]; rewrite ?Rsum_cons; unfold Rsum in *; cbn; try lra.
  - intros init a Ho. rewrite (strat_depth _ _ _ _ _ _ _ (length init) a H).
    + rewrite Ho, skipn_app, skipn_all, Nat.sub_diag. unfold Rsum. cbn. lra.
    + rewrite Ho, nth_error_app2, Nat.sub_diag; auto.
Qed.

Lemma round4_err x : Rabs (round4 x - x) <= 1 / 20000.
Proof.
  unfold round4. pose proof (rint_err (x * 10000)) as H.
  replace (IZR (rint (x * 10000)) / 10000 - x) with ((IZR (rint (x * 10000)) - x * 10000) * / 10000) by field.
  rewrite Rabs_mult. rewrite (Rabs_right (/ 10000)) by lra. lra.
Qed.
Lemma round4_mono x y : x <= y -> round4 x <= round4 y.
Proof.
  intros H. unfold round4. apply Rmult_le_compat_r; [lra|]. apply IZR_le, rint_mono. lra.
Qed.
Lemma round4_int z : round4 (IZR z) = IZR z.
Proof. unfold round4. rewrite <- mult_IZR, rint_int, mult_IZR. field. Qed.

Lemma strat_icepct rnd thick_min tol after_age age steps out :
  make_strat_col rnd thick_min tol after_age age steps = Ok out ->
  (forall x, 0 <= x -> 0 <= rnd x) ->
  Forall (fun '(_, i, e, _) => 0 <= i /\ 0 <= e) steps ->
  Forall (fun l => (l_icepct l = None <-> l_ice l = 0 /\ l_ej l = 0) /\
     forall p, l_icepct l = Some p ->
       0 <= p <= 100 /\ Rabs (p - 100 * (l_ice l / (l_ice l + l_ej l))) <= 1 / 20000) out.
Proof.
  intros H Hr Hs. pose proof (strat_nonneg _ _ _ _ _ _ _ H Hr Hs) as Hn.
  apply Forall_forall. intros l Hl. rewrite Forall_forall in Hn. specialize (Hn _ Hl) as [N1 N2].
  destruct (strat_mk_out _ _ _ _ _ _ _ H) as [st Ho]. rewrite Ho in Hl. apply In_nth_error in Hl as [i Hi].
  apply mk_out_depth in Hi as [_ ->]. unfold icepct.
  destruct (Reqb (l_ice l + l_ej l) 0) eqn:E.
  - apply Reqb_true in E. split; [split; auto; intros _; split; lra|discriminate].
  - apply Reqb_false in E. split; [split; [discriminate|intros [Ea Eb]; exfalso; apply E; rewrite Ea, Eb; ring]|].
    intros p Hp. injection Hp as <-.
    assert (P : 0 < l_ice l + l_ej l) by lra.
    assert (Hq : 100 * l_ice l / (l_ice l + l_ej l) = 100 * (l_ice l / (l_ice l + l_ej l))) by (field; lra).
    assert (Q : 0 <= l_ice l / (l_ice l + l_ej l) <= 1).
    { split; [apply Rmult_le_pos; [lra|left; now apply Rinv_0_lt_compat]|].
      apply Rmult_le_reg_r with (l_ice l + l_ej l); auto. unfold Rdiv. rewrite Rmult_assoc, Rinv_l; [lra|exact E]. }
    rewrite Hq. split; [|apply round4_err]. split.
    + apply Rle_trans with (round4 (IZR 0)); [rewrite round4_int; lra|apply round4_mono; lra].
    + apply Rle_trans with (round4 (IZR 100)); [apply round4_mono; lra|rewrite round4_int; lra].
Qed.
