From Coq Require Import List ZArith Reals Lia Lra Bool String.
From Verif Require Import Base Arith Model_Column Spec_Column Proofs_Base.
Import ListNotations.

(** * Arrays versus stacks, for any arithmetic *)
Section Generic.
  Context {T : Type} (A : arith T).

  Lemma odd_2k1 k : Nat.odd (S (2 * k)) = true.
  Proof. rewrite Nat.odd_succ. apply Nat.even_spec. now exists k. Qed.
  Lemma odd_2k k : Nat.odd (2 * k) = false.
  Proof. rewrite <- Nat.negb_even. replace (Nat.even (2*k)) with true; auto.
    symmetry; apply Nat.even_spec; now exists k. Qed.
  Lemma div2_2k1 k : Nat.div2 (S (2 * k)) = k.
  Proof. apply Nat.div2_succ_double. Qed.
  Lemma div2_2k k : Nat.div2 (2 * k) = k.
  Proof. apply Nat.div2_double. Qed.

  Lemma garden_loop_stack L : forall d depth eff ri re,
    garden_loop A (2 * List.length L) d depth eff
      (rev (map fst L) ++ ri) (rev (map snd L) ++ re)
    = Ok (rev (map fst (garden_stack A d depth eff L)) ++ ri).
  Proof.
    induction L as [|[x e] L IH]; intros; [reflexivity|].
    simpl List.length.
    replace (2 * S (List.length L)) with (S (S (2 * List.length L))) by lia.
    set (n := 2 * List.length L) in *. cbn [garden_loop garden_stack map fst snd rev].
    destruct (ltb A d depth) eqn:E1; [|reflexivity].
    assert (O1 : Nat.odd (S n) = true) by apply odd_2k1.
    assert (O2 : Nat.odd n = false) by apply odd_2k.
    assert (D1 : Nat.div2 (S n) = List.length L) by apply div2_2k1.
    assert (D2 : Nat.div2 n = List.length L) by apply div2_2k.
    rewrite O1, D1.
    assert (Lf : List.length (rev (map fst L)) = List.length L)
      by now rewrite rev_length, map_length.
    assert (Ls : List.length (rev (map snd L)) = List.length L)
      by now rewrite rev_length, map_length.
    rewrite <- !app_assoc. simpl app.
    rewrite <- Ls at 1. rewrite get_app_mid. cbn [bind].
    destruct (ltb A (add A d e) depth) eqn:E2.
    2:{ cbn [map fst rev]. rewrite <- app_assoc. reflexivity. }
    rewrite O2, D2.
    rewrite <- Lf at 1. rewrite get_app_mid. cbn [bind].
    rewrite <- Lf at 1. rewrite set_app_mid. cbn [bind].
    cbn [map fst rev]. rewrite <- app_assoc. simpl app.
    apply IH.
  Qed.

  Lemma garden_column_stack L ri re depth eff :
    garden_ice_column A (rev (map fst L) ++ ri) (rev (map snd L) ++ re)
      (Z.of_nat (List.length L) - 1) depth eff
    = Ok (rev (map fst (garden_stack A (zero A) depth eff L)) ++ ri).
  Proof.
    unfold garden_ice_column.
    replace (Z.to_nat (2 * (Z.of_nat (List.length L) - 1) + 2)) with (2 * List.length L) by lia.
    apply garden_loop_stack.
  Qed.

  Lemma garden_column_noop ice ej t depth eff :
    (t < 0)%Z -> garden_ice_column A ice ej t depth eff = Ok ice.
  Proof.
    intros. unfold garden_ice_column. replace (Z.to_nat (2 * t + 2)) with 0 by lia. reflexivity.
  Qed.

  Lemma garden_stack_snd L : forall d depth eff,
    map snd (garden_stack A d depth eff L) = map snd L.
  Proof.
    induction L as [|[x e] L IH]; intros; simpl; auto.
    destruct (ltb A d depth); auto. destruct (ltb A (add A d e) depth); auto.
    simpl. now rewrite IH.
  Qed.

  Lemma garden_stack_length L d depth eff :
    List.length (garden_stack A d depth eff L) = List.length L.
  Proof. rewrite <- (map_length snd), garden_stack_snd. apply map_length. Qed.

  Lemma erode_stack_snd L : forall depth, map snd (erode_stack A depth L) = map snd L.
  Proof.
    induction L as [|[x e] L IH]; intros; simpl; auto.
    destruct (ltb A (zero A) depth); auto. simpl. now rewrite IH.
  Qed.

  Lemma erode_loop_stack L : forall t base depth ri,
    (t > base)%Z ->
    erode_loop A (List.length L) t base depth (rev (map fst L) ++ ri)
    = Ok (rev (map fst (erode_stack A depth L)) ++ ri).
  Proof.
    induction L as [|[x e] L IH]; intros t base depth ri H; [reflexivity|].
    cbn [List.length erode_loop erode_stack map fst rev].
    destruct (ltb A (zero A) depth); [|reflexivity].
    replace (t >? base)%Z with true by (symmetry; apply Z.gtb_lt; lia).
    assert (Lf : List.length (rev (map fst L)) = List.length L)
      by now rewrite rev_length, map_length.
    rewrite <- !app_assoc. simpl app.
    rewrite <- Lf at 1. rewrite get_app_mid. cbn [bind].
    rewrite <- Lf at 1. rewrite set_app_mid. cbn [bind].
    cbn [map fst rev]. rewrite <- app_assoc. simpl app.
    now apply IH.
  Qed.

  Lemma last_above_app k base shield l r :
    last_above A k base shield (l ++ r)
    = last_above A (k + Z.of_nat (List.length l)) (last_above A k base shield l) shield r.
  Proof.
    revert k base; induction l as [|a l IH]; intros; cbn [app last_above List.length].
    - f_equal; lia.
    - rewrite IH. f_equal; lia.
  Qed.

  Lemma last_above_bound k base shield l :
    (base < k)%Z -> (last_above A k base shield l < k + Z.of_nat (List.length l))%Z.
  Proof.
    revert k base; induction l as [|a l IH]; intros; cbn [last_above List.length]; [lia|].
    specialize (IH (k + 1)%Z (if ltb A shield a then k else base)).
    destruct (ltb A shield a); lia.
  Qed.

  Lemma erode_column_stack L ri re depth shield :
    erode_ice_cannon A (rev (map fst L) ++ ri) (rev (map snd L) ++ re)
      (Z.of_nat (List.length L) - 1) depth shield
    = Ok (rev (map fst (erode_shielded A shield depth L)) ++ ri).
  Proof.
    unfold erode_ice_cannon.
    replace (Z.to_nat (Z.of_nat (List.length L) - 1 + 1)) with (List.length L) by lia.
    assert (Ls : List.length (rev (map snd L)) = List.length L)
      by now rewrite rev_length, map_length.
    rewrite firstn_app, Ls, Nat.sub_diag. simpl (firstn 0 re). rewrite app_nil_r.
    rewrite firstn_all2 by lia.
    destruct L as [|[x e] L].
    - reflexivity.
    - cbn [map snd rev].
      rewrite last_above_app. cbn [last_above].
      assert (Ls' : List.length (rev (map snd L)) = List.length L)
        by now rewrite rev_length, map_length.
      rewrite Ls'. cbn [erode_shielded].
      destruct (ltb A shield e) eqn:E.
      + cbn [List.length erode_loop].
        replace (Z.of_nat (S (List.length L)) - 1 >? 0 + Z.of_nat (List.length L))%Z with false
          by (symmetry; rewrite Z.gtb_ltb; apply Z.ltb_ge; lia).
        destruct (ltb A (zero A) depth); reflexivity.
      + apply erode_loop_stack.
        pose proof (last_above_bound 0 (-1) shield (rev (map snd L))).
        rewrite Ls' in H. cbn [List.length]. lia.
  Qed.

  Lemma erode_shielded_snd shield depth L :
    map snd (erode_shielded A shield depth L) = map snd L.
  Proof.
    destruct L as [|[x e] L]; auto. unfold erode_shielded.
    destruct (ltb A shield e); auto. apply erode_stack_snd.
  Qed.

  Lemma overturn_stack_snd co shield depth L :
    map snd (overturn_stack A co shield depth L) = map snd L.
  Proof. destruct co; [apply garden_stack_snd | apply erode_shielded_snd]. Qed.

  Lemma overturn_stack_length co shield depth L :
    List.length (overturn_stack A co shield depth L) = List.length L.
  Proof. rewrite <- (map_length snd), overturn_stack_snd. apply map_length. Qed.

  Lemma overturn_column_stack co L ri re depth shield :
    remove_ice_overturn A co shield (rev (map fst L) ++ ri) (rev (map snd L) ++ re)
      (Z.of_nat (List.length L) - 1) depth
    = Ok (rev (map fst (overturn_stack A co shield depth L)) ++ ri).
  Proof.
    destruct co; [apply garden_column_stack | apply erode_column_stack].
  Qed.

  (** One timestep on a full-length column is one step of the stack machine on
      the part already deposited, and leaves the rest alone. *)
  Lemma update_ice_col_step co shield L (e : event) ri re :
    update_ice_col A co shield
      (rev (map fst L) ++ ev_ice e :: ri) (rev (map snd L) ++ ev_ej e :: re)
      (Z.of_nat (List.length L)) (ev_overturn e) (ev_bsed_depth e) (ev_bsed_frac e)
    = Ok (rev (map fst (step A co shield L e)) ++ ri).
  Proof.
    unfold update_ice_col.
    rewrite garden_column_stack. cbn [bind].
    set (G := garden_stack A (zero A) (ev_bsed_depth e) (ev_bsed_frac e) L).
    assert (HG : map snd L = map snd G) by (symmetry; apply garden_stack_snd).
    assert (HL : List.length G = List.length L) by apply garden_stack_length.
    pose proof (overturn_column_stack co ((ev_ice e, ev_ej e) :: G) ri re (ev_overturn e) shield) as H.
    cbn [map fst snd rev List.length] in H. rewrite <- !app_assoc in H. simpl app in H.
    rewrite HL, <- HG in H.
    replace (Z.of_nat (S (List.length L)) - 1)%Z with (Z.of_nat (List.length L)) in H by lia.
    exact H.
  Qed.

  Lemma step_snd co shield L e : map snd (step A co shield L e) = ev_ej e :: map snd L.
  Proof. unfold step. rewrite overturn_stack_snd. simpl. now rewrite garden_stack_snd. Qed.

  Lemma step_length co shield L e : List.length (step A co shield L e) = S (List.length L).
  Proof. rewrite <- (map_length snd), step_snd. simpl. now rewrite map_length. Qed.

  (** One cold trap through all timesteps. *)
  Fixpoint run_column (co : bool) (shield : T) (t : nat) (ice ej : list T)
    (hist : list (T * T * T)) : result (list T) :=
    match hist with
    | [] => Ok ice
    | (o, bd, bf) :: r =>
      let* ice' := update_ice_col A co shield ice ej (Z.of_nat t) o bd bf in
      run_column co shield (S t) ice' ej r
    end.

  Lemma run_column_simulate co shield (evs : list event) : forall L,
    run_column co shield (List.length L)
      (rev (map fst L) ++ map ev_ice evs) (rev (map snd L) ++ map ev_ej evs)
      (map (fun e => (ev_overturn e, ev_bsed_depth e, ev_bsed_frac e)) evs)
    = Ok (rev (map fst (fold_left (step A co shield) evs L))).
  Proof.
    induction evs as [|e evs IH]; intros L; cbn [map run_column fold_left].
    - now rewrite app_nil_r.
    - rewrite update_ice_col_step. cbn [bind].
      rewrite <- IH. f_equal.
      + now rewrite step_length.
      + rewrite step_snd. cbn [rev]. now rewrite <- app_assoc.
  Qed.
End Generic.

(** * Dictionaries and independence of cold traps *)
Section Dict.
  Context {T : Type} (A : arith T).

  Lemma lookup_assign_same (d : @dict T) k v s :
    lookup d k = Ok s -> lookup (assign d k v) k = Ok v.
  Proof.
    induction d as [|[k' v'] d IH]; simpl; [discriminate|].
    destruct (String.eqb k k') eqn:E; simpl; rewrite E; auto.
  Qed.

  Lemma lookup_assign_other (d : @dict T) k k2 v :
    k <> k2 -> lookup (assign d k v) k2 = lookup d k2.
  Proof.
    intros H; induction d as [|[k' v'] d IH]; simpl; auto.
    destruct (String.eqb k k') eqn:E; simpl; auto.
    - apply String.eqb_eq in E; subst. destruct (String.eqb k2 k') eqn:E2; auto.
      apply String.eqb_eq in E2; congruence.
    - destruct (String.eqb k2 k'); auto.
  Qed.

  Lemma keys_assign (d : @dict T) k v : map fst (assign d k v) = map fst d.
  Proof.
    induction d as [|[k' v'] d IH]; simpl; auto.
    destruct (String.eqb k k'); simpl; congruence.
  Qed.

  Lemma update_coldtraps_keys co sh bd bf t o : forall names i d d',
    update_coldtraps A co sh bd bf t o i names d = Ok d' -> map fst d' = map fst d.
  Proof.
    induction names as [|c names IH]; simpl; intros i d d' H.
    - congruence.
    - destruct (lookup d c); try discriminate; simpl in H.
      destruct (get2 bd t i); try discriminate; simpl in H.
      destruct (get2 bf t i); try discriminate; simpl in H.
      destruct (update_ice_col A co sh (s_ice a) (s_ej a) (Z.of_nat t) o a0 a1);
        try discriminate; simpl in H.
      apply IH in H. now rewrite keys_assign in H.
  Qed.

  (** Effect of the inner loop on one cold trap. *)
  Lemma update_coldtraps_other co sh bd bf t o c : forall names i d d',
    ~ In c names ->
    update_coldtraps A co sh bd bf t o i names d = Ok d' ->
    lookup d' c = lookup d c.
  Proof.
    induction names as [|c' names IH]; simpl; intros i d d' Hn H.
    - congruence.
    - destruct (lookup d c') as [s|] eqn:El; try discriminate; simpl in H.
      destruct (get2 bd t i); try discriminate; simpl in H.
      destruct (get2 bf t i); try discriminate; simpl in H.
      destruct (update_ice_col A co sh (s_ice s) (s_ej s) (Z.of_nat t) o a a0);
        try discriminate; simpl in H.
      apply IH in H; [|tauto]. rewrite H. apply lookup_assign_other. tauto.
  Qed.

  Lemma update_coldtraps_at co sh bd bf t o c : forall names i d d' j s,
    NoDup names -> nth_error names j = Some c ->
    update_coldtraps A co sh bd bf t o i names d = Ok d' ->
    lookup d c = Ok s ->
    exists b f ice', get2 bd t (i + j) = Ok b /\ get2 bf t (i + j) = Ok f /\
      update_ice_col A co sh (s_ice s) (s_ej s) (Z.of_nat t) o b f = Ok ice' /\
      lookup d' c = Ok (mk_strat ice' (s_ej s) (s_src s)).
  Proof.
    induction names as [|c' names IH]; simpl; intros i d d' j s HN Hj H Hl.
    - destruct j; discriminate.
    - inversion HN as [|? ? Hni HN']; subst.
      destruct (lookup d c') as [s'|] eqn:El; try discriminate; simpl in H.
      destruct (get2 bd t i) as [b|] eqn:Eb; try discriminate; simpl in H.
      destruct (get2 bf t i) as [f|] eqn:Ef; try discriminate; simpl in H.
      destruct (update_ice_col A co sh (s_ice s') (s_ej s') (Z.of_nat t) o b f) as [ice'|] eqn:Eu;
        try discriminate; simpl in H.
      destruct j as [|j]; simpl in Hj.
      + injection Hj as <-. rewrite El in Hl; injection Hl as <-.
        exists b, f, ice'. rewrite Nat.add_0_r. repeat split; auto.
        apply (update_coldtraps_other co sh bd bf t o c') in H; auto.
        rewrite H. eapply lookup_assign_same; eauto.
      + destruct (IH (S i) _ _ j s HN' Hj H) as (b' & f' & ice'' & H1 & H2 & H3 & H4).
        * rewrite lookup_assign_other; auto.
          intros ->. apply Hni. eapply nth_error_In; eauto.
        * exists b', f', ice''. replace (i + S j) with (S i + j) by lia. auto.
  Qed.

  (** The history seen by cold trap [j]: overturn, and its column of the
      ballistic sedimentation arrays, from time [t] on. *)
  Fixpoint history (bd bf : list (list T)) (j t : nat) (overturn : list T)
    : result (list (T * T * T)) :=
    match overturn with
    | [] => Ok []
    | o :: r =>
      let* b := get2 bd t j in
      let* f := get2 bf t j in
      let* h := history bd bf j (S t) r in
      Ok ((o, b, f) :: h)
    end.

  Lemma update_times_at co sh bd bf names c j : forall ov t d d' s,
    NoDup names -> nth_error names j = Some c ->
    update_times A co sh bd bf names t ov d = Ok d' ->
    lookup d c = Ok s ->
    exists h ice', history bd bf j t ov = Ok h /\
      run_column A co sh t (s_ice s) (s_ej s) h = Ok ice' /\
      lookup d' c = Ok (mk_strat ice' (s_ej s) (s_src s)).
  Proof.
    induction ov as [|o ov IH]; simpl; intros t d d' s HN Hj H Hl.
    - injection H as <-. exists [], (s_ice s). repeat split; auto. rewrite Hl. now destruct s.
    - destruct (update_coldtraps A co sh bd bf t o 0 names d) as [d1|] eqn:E1; try discriminate.
      simpl in H.
      destruct (update_coldtraps_at co sh bd bf t o c names 0 d d1 j s HN Hj E1 Hl)
        as (b & f & ice1 & Hb & Hf & Hu & Hl1). simpl in Hb, Hf.
      destruct (IH (S t) d1 d' _ HN Hj H Hl1) as (h & ice' & Hh & Hr & Hl').
      exists ((o, b, f) :: h), ice'. rewrite Hb, Hf, Hh. simpl.
      repeat split; auto. rewrite Hu. simpl. exact Hr.
  Qed.
End Dict.
