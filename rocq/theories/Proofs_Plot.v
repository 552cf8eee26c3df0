(** Proofs about plotted columns and Monte Carlo totals. *)
From Coq Require Import String Ascii List ZArith Reals Bool Lra Lia Sorted Permutation.
From Verif Require Import Base Model_Time Model_Strat Model_Plot Spec_Strat Spec_Plot Proofs_Base
  Proofs_Time Proofs_Strat.
Import ListNotations.
Open Scope R_scope.

(** * Merging *)
Definition agg (g : list prow) : prow :=
  mk_prow (Rsum (map p_ice g)) (Rsum (map p_ej g)) (last (map p_label g) None)
          (last (map p_time g) 0) (last (map p_depth g) 0).

Fixpoint chunk (cur : option (string * list prow)) (rows : list prow) : list (list prow) :=
  let close := match cur with Some (_, g) => [g] | None => [] end in
  match rows with
  | [] => close
  | r :: rest =>
    match p_label r with
    | None => close ++ chunk None rest
    | Some l =>
      match cur with
      | Some (p, g) => if String.eqb p l then chunk (Some (p, g ++ [r])) rest
                       else g :: chunk (Some (l, [r])) rest
      | None => chunk (Some (l, [r])) rest
      end
    end
  end.

Definition keyed_rows (prev : option string) (k : nat) (rows : list prow) :=
  flat_map (fun '(k, r) => match p_label r with
                           | Some l => [((l, k), r)]
                           | None => []
                           end) (combine (prun_ids prev k (map p_label rows)) rows).

Lemma keyed_chunk rows :
  (forall k gs, Forall (fun g : (string * nat) * list prow => (snd (fst g) <= k)%nat) gs ->
     map snd (fold_left (fun gs kx => add_to_group (fst kx) (snd kx) gs) (keyed_rows None k rows) gs)
     = map snd gs ++ chunk None rows) /\
  (forall p k g gs, Forall (fun g : (string * nat) * list prow => (snd (fst g) < k)%nat) gs ->
     map snd (fold_left (fun gs kx => add_to_group (fst kx) (snd kx) gs) (keyed_rows (Some p) k rows)
                        (gs ++ [((p, k), g)]))
     = map snd gs ++ chunk (Some (p, g)) rows).
Proof.
  induction rows as [|r rows [IH1 IH2]].
  - split.
    + intros. cbn. now rewrite app_nil_r.
    + intros. cbn. now rewrite map_app.
  - split.
    + intros k gs H. unfold keyed_rows. cbn [map prun_ids combine flat_map chunk].
      destruct (p_label r) as [l|].
      * cbn [app fold_left fst snd]. rewrite add_new.
        2:{ eapply Forall_impl; [|exact H]. intros [[s n] g] Hn Hk. cbn in *. injection Hk as -> ->. lia. }
        apply (IH2 l (S k) [r] gs). eapply Forall_impl; [|exact H]. cbn. intros; lia.
      * cbn [app]. apply IH1. eapply Forall_impl; [|exact H]. cbn. intros; lia.
    + intros p k g gs H. unfold keyed_rows. cbn [map prun_ids combine flat_map chunk].
      destruct (p_label r) as [l|].
      * destruct (String.eqb_spec p l) as [<-|E]; cbn [app fold_left fst snd].
        -- rewrite add_last.
           2:{ eapply Forall_impl; [|exact H]. intros [[s n] g'] Hn Hk. cbn in *. injection Hk as -> ->. lia. }
           apply (IH2 p k (g ++ [r]) gs H).
        -- rewrite add_new.
           2:{ apply Forall_app. split; [|constructor; [|constructor]].
               - eapply Forall_impl; [|exact H]. intros [[s n] g'] Hn Hk. cbn in *. injection Hk as -> ->. lia.
               - cbn. intros Hk. injection Hk as -> Hk. lia. }
           pose proof (IH2 l (S k) [r] (gs ++ [((p, k), g)])) as I. unfold keyed_rows in I. rewrite I.
           ++ rewrite map_app. cbn. now rewrite <- app_assoc.
           ++ apply Forall_app. split; [|constructor; [cbn; lia|constructor]].
              eapply Forall_impl; [|exact H]. cbn. intros; lia.
      * cbn [app].
        pose proof (IH1 (S k) (gs ++ [((p, k), g)])) as I. unfold keyed_rows in I. rewrite I.
        -- rewrite map_app. cbn. now rewrite <- app_assoc.
        -- apply Forall_app. split; [|constructor; [cbn; lia|constructor]].
           eapply Forall_impl; [|exact H]. cbn. intros; lia.
Qed.

Lemma merge_chunk rows : merge_strata rows = map agg (chunk None rows).
Proof.
  pose proof (proj1 (keyed_chunk rows) 0%nat [] (Forall_nil _)) as H. cbn [map app] in H.
  rewrite <- H, map_map. unfold merge_strata, groupby, keyed_rows, agg.
  apply map_ext. intros [k g]. reflexivity.
Qed.

(** A group with one label, not empty. *)
Definition uniform (p : string) (g : list prow) : Prop :=
  g <> [] /\ Forall (fun r => p_label r = Some p) g.

Lemma uniform_snoc p g r : uniform p g -> p_label r = Some p -> uniform p (g ++ [r]).
Proof.
  intros [A B] H. split; [destruct g; discriminate|]. apply Forall_app. auto.
Qed.
Lemma uniform_one r l : p_label r = Some l -> uniform l [r].
Proof. split; [discriminate|auto]. Qed.

Lemma agg_label p g : uniform p g -> p_label (agg g) = Some p.
Proof.
  intros [A B]. destruct (exists_last A) as (i & r & ->). cbn. rewrite map_app. cbn. rewrite last_last.
  apply Forall_app in B as [_ B]. now inversion B.
Qed.

Definition cur_rows (cur : option (string * list prow)) : list prow :=
  match cur with Some (_, g) => g | None => [] end.
Definition cur_ok (cur : option (string * list prow)) : Prop :=
  match cur with Some (p, g) => uniform p g | None => True end.

Definition labelled_row (r : prow) : bool := match p_label r with Some _ => true | None => false end.

(** The groups cut up the labelled rows. *)
Lemma chunk_concat rows : forall cur, concat (chunk cur rows) = cur_rows cur ++ filter labelled_row rows.
Proof.
  induction rows as [|r rows IH]; intros cur.
  - destruct cur as [[p g]|]; cbn; now rewrite ?app_nil_r.
  - cbn [chunk filter]. unfold labelled_row at 1. destruct (p_label r) as [l|] eqn:E.
    + destruct cur as [[p g]|].
      * destruct (String.eqb p l); cbn [concat]; rewrite IH; cbn; now rewrite <- ?app_assoc.
      * now rewrite IH.
    + rewrite concat_app, IH. destruct cur as [[p g]|]; cbn; now rewrite ?app_nil_r.
Qed.

Lemma chunk_uniform rows : forall cur, cur_ok cur -> Forall (fun g => exists p, uniform p g) (chunk cur rows).
Proof.
  induction rows as [|r rows IH]; intros cur H.
  - destruct cur as [[p g]|]; cbn; eauto.
  - cbn [chunk]. destruct (p_label r) as [l|] eqn:E.
    + destruct cur as [[p g]|].
      * destruct (String.eqb_spec p l) as [<-|N].
        -- apply IH. now apply uniform_snoc.
        -- constructor; [exists p; exact H|]. apply IH. now apply uniform_one.
      * apply IH. now apply uniform_one.
    + destruct cur as [[p g]|]; cbn [app]; [constructor; [exists p; exact H|]|]; now apply IH.
Qed.

(** Totals of the rows with labels of one kind. *)
Definition lab_is (P : string -> bool) (r : prow) : bool :=
  match p_label r with Some l => P l | None => false end.

Lemma merge_total (f : prow -> R) P rows : (forall g, f (agg g) = Rsum (map f g)) ->
  Rsum (map f (filter (lab_is P) (merge_strata rows))) = Rsum (map f (filter (lab_is P) rows)).
Proof.
  intros Hf. rewrite merge_chunk.
  pose proof (chunk_uniform rows None I) as U. pose proof (chunk_concat rows None) as C. cbn [cur_rows app] in C.
  assert (E : filter (lab_is P) rows = filter (lab_is P) (filter labelled_row rows)).
  { clear. induction rows as [|r rows IH]; auto. cbn [filter].
    destruct (labelled_row r) eqn:L; [cbn [filter]; now rewrite IH|].
    unfold labelled_row in L. unfold lab_is at 1. destruct (p_label r); [discriminate|exact IH]. }
  rewrite E, <- C. clear E C. induction U as [|g gs [p Hp] _ IH]; [reflexivity|].
  cbn [map concat filter]. rewrite filter_app, map_app, Rsum_app, <- IH.
  unfold lab_is at 1. rewrite (agg_label p g Hp).
  assert (G : filter (lab_is P) g = if P p then g else []).
  { destruct Hp as [_ Hp]. clear -Hp. induction Hp as [|r g Hr _ IHg]; [now destruct (P p)|].
    cbn [filter]. unfold lab_is at 1. rewrite Hr, IHg. now destruct (P p). }
  rewrite G. destruct (P p); cbn [map Rsum fold_right]; [rewrite Hf; unfold Rsum; reflexivity|].
  unfold Rsum. cbn. lra.
Qed.

(** Neighbouring groups differ when every row is labelled. *)
Lemma chunk_adjacent rows : forall cur, cur_ok cur -> Forall (fun r => labelled_row r = true) rows ->
  Sorted (fun a b => p_label a <> p_label b) (map agg (chunk cur rows)) /\
  match cur with
  | Some (p, _) => exists g gs, chunk cur rows = g :: gs /\ uniform p g
  | None => match rows with [] => True
            | r :: _ => exists g gs, chunk cur rows = g :: gs /\ exists l, p_label r = Some l /\ uniform l g
            end
  end.
Proof.
  induction rows as [|r rows IH]; intros cur H L.
  - destruct cur as [[p g]|]; cbn; split; auto; try (repeat constructor). exists g, []. auto.
  - inversion L as [|? ? L1 L2]; subst. unfold labelled_row in L1. cbn [chunk].
    destruct (p_label r) as [l|] eqn:E; [|discriminate].
    destruct cur as [[p g]|].
    + destruct (String.eqb_spec p l) as [<-|N].
      * apply (IH (Some (p, g ++ [r]))); auto. now apply uniform_snoc.
      * destruct (IH (Some (l, [r])) (uniform_one _ _ E) L2) as (S1 & g' & gs' & E' & U').
        split.
        -- cbn [map]. constructor; auto. rewrite E'. cbn [map]. constructor.
           rewrite (agg_label p g H), (agg_label l g' U'). congruence.
        -- exists g, (chunk (Some (l, [r])) rows). auto.
    + destruct (IH (Some (l, [r])) (uniform_one _ _ E) L2) as (S1 & g' & gs' & E' & U').
      split; auto. exists g', gs'. split; auto. eauto.
Qed.

Lemma agg_one r : agg [r] = r.
Proof. destruct r. unfold agg, Rsum. cbn. now rewrite !Rplus_0_r. Qed.

(** Rows whose neighbours have another label, or none, are left alone. *)
Definition apart (a b : prow) : Prop := p_label a <> p_label b \/ p_label a = None.

Lemma chunk_apart rows : forall cur,
  Sorted apart rows ->
  match cur with
  | Some (p, g) => exists r, g = [r] /\ p_label r = Some p /\ HdRel apart r rows
  | None => True
  end ->
  map agg (chunk cur rows) = cur_rows cur ++ filter labelled_row rows.
Proof.
  induction rows as [|r rows IH]; intros cur S H.
  - destruct cur as [[p g]|]; auto. destruct H as (r & -> & _ & _). cbn. now rewrite agg_one.
  - inversion S as [|? ? S1 S2]; subst. cbn [chunk filter]. unfold labelled_row at 1.
    destruct (p_label r) as [l|] eqn:E.
    + assert (X : map agg (chunk (Some (l, [r])) rows) = r :: filter labelled_row rows).
      { apply (IH (Some (l, [r]))); auto. exists r. auto. }
      destruct cur as [[p g]|]; [|exact X].
      destruct H as (r0 & -> & E0 & Hd). inversion Hd as [|? ? A]; subst.
      destruct (String.eqb_spec p l) as [<-|N].
      * exfalso. destruct A as [A|A]; congruence.
      * cbn [map]. rewrite agg_one, X. reflexivity.
    + assert (X : map agg (chunk None rows) = filter labelled_row rows) by (apply (IH None); auto).
      rewrite map_app, X. destruct cur as [[p g]|]; auto.
      destruct H as (r0 & -> & _ & _). cbn. now rewrite agg_one.
Qed.

(** When only rows of one label stand beside their like, the other rows are left alone. *)
Lemma chunk_filter o rows : forall cur,
  Forall (fun r => labelled_row r = true) rows ->
  Sorted (fun a b => p_label a = p_label b -> p_label a = Some o) rows ->
  match cur with
  | Some (p, g) => uniform p g /\ (p <> o -> exists r, g = [r] /\
       HdRel (fun a b => p_label a = p_label b -> p_label a = Some o) r rows)
  | None => True
  end ->
  filter (lab_is (fun l => negb (String.eqb l o))) (map agg (chunk cur rows)) =
  filter (lab_is (fun l => negb (String.eqb l o))) (cur_rows cur ++ rows).
Proof.
  set (P := lab_is _).
  assert (Pu : forall p g, uniform p g -> (p <> o -> exists r, g = [r]) ->
                 filter P [agg g] = filter P g).
  { intros p g U H. destruct (String.eqb_spec p o) as [->|N].
    - cbn [filter]. unfold P at 1, lab_is. rewrite (agg_label _ _ U), String.eqb_refl. cbn [negb].
      destruct U as [_ U]. clear -U. induction U as [|r g Hr _ IH]; auto.
      cbn [filter]. unfold P at 1, lab_is. rewrite Hr, String.eqb_refl. exact IH.
    - destruct (H N) as [r ->]. now rewrite agg_one. }
  induction rows as [|r rows IH]; intros cur L S H.
  - destruct cur as [[p g]|]; auto. cbn [chunk map cur_rows]. rewrite app_nil_r.
    destruct H as [U H]. apply (Pu p); auto. intros N. destruct (H N) as (r & E & _). eauto.
  - inversion L as [|? ? L1 L2]; subst. inversion S as [|? ? S1 S2]; subst.
    unfold labelled_row in L1. cbn [chunk]. destruct (p_label r) as [l|] eqn:E; [|discriminate].
    assert (X : filter P (map agg (chunk (Some (l, [r])) rows)) = filter P ([r] ++ rows)).
    { apply (IH (Some (l, [r]))); auto. split; [now apply uniform_one|]. intros _. exists r. auto. }
    destruct cur as [[p g]|]; [|exact X]. destruct H as [U H].
    destruct (String.eqb_spec p l) as [<-|N].
    + destruct (String.eqb_spec p o) as [->|No].
      * rewrite IH; auto.
        -- cbn [cur_rows]. now rewrite <- app_assoc.
        -- split; [now apply uniform_snoc|]. intros C. now destruct C.
      * exfalso. destruct (H No) as (r0 & -> & Hd). inversion Hd as [|? ? A]; subst.
        destruct U as [_ U]. inversion U; subst.
        assert (p_label r0 = Some o) by (apply A; congruence). congruence.
    + cbn [map]. change (agg g :: ?t) with ([agg g] ++ t). rewrite filter_app, X. cbn [cur_rows].
      rewrite (filter_app P g). change (r :: rows) with ([r] ++ rows) at 1. f_equal.
      apply (Pu p); auto. intros No. destruct (H No) as (r0 & E0 & _). eauto.
Qed.

(** * The clean-up *)
Fixpoint relabel (m : R) (strat : list layer) : list prow :=
  match strat with
  | [] => []
  | l :: above =>
    mk_prow (l_ice l) (l_ej l)
      (Some (if Rltb (l_depth l - top_of above) m then "Other"%string else l_label l))
      (l_time l) (l_depth l) :: relabel m above
  end.

Lemma thick_cons a r : thicknesses (a :: r) = (a - hd 0 r) :: thicknesses r.
Proof.
  unfold thicknesses. cbn [app skipn]. destruct r as [|b r]; cbn [app combine map hd skipn].
  - f_equal. lra.
  - f_equal. lra.
Qed.

Lemma relabel_ok m strat :
  map (fun '(l, t) => mk_prow (l_ice l) (l_ej l)
         (Some (if Rltb t m then "Other"%string else l_label l)) (l_time l) (l_depth l))
      (combine strat (thicknesses (map l_depth strat))) = relabel m strat.
Proof.
  induction strat as [|l above IH]; auto. cbn [map]. rewrite thick_cons. cbn [combine map relabel].
  rewrite IH. f_equal. f_equal. f_equal. now destruct above.
Qed.

Definition blank (r : prow) : prow :=
  if is_other r then mk_prow (p_ice r) (p_ej r) None (p_time r) (p_depth r) else r.
Definition finish (r : prow) : layer :=
  mk_layer (p_ice r) (p_ej r) (match p_label r with Some l => l | None => EmptyString end)
           (p_time r) (p_depth r) (pct (p_ice r) (p_ej r)).

Lemma merge_nonempty rows : rows <> [] -> Forall (fun r => labelled_row r = true) rows -> merge_strata rows <> [].
Proof.
  intros N L E. rewrite merge_chunk in E.
  destruct (chunk_adjacent rows None I L) as [_ H]. destruct rows as [|r rows]; [congruence|].
  destruct H as (g & gs & H & _). rewrite H in E. discriminate.
Qed.

Lemma relabel_labelled m strat : Forall (fun r => labelled_row r = true) (relabel m strat).
Proof. induction strat; constructor; auto. Qed.

Lemma clean_up_cases m strat :
  clean_up_strat_col m strat =
  match strat with
  | [] => Ok []
  | _ =>
    let rows := merge_strata (relabel m strat) in
    match rows with
    | [r] => if is_other r then Err KeyError else Ok (map finish (merge_strata (map blank rows)))
    | _ => Ok (map finish (merge_strata (map blank rows)))
    end
  end.
Proof.
  destruct strat as [|l0 above]; auto. unfold clean_up_strat_col. rewrite relabel_ok. cbv zeta.
  pose proof (merge_nonempty (relabel m (l0 :: above)) ltac:(discriminate) (relabel_labelled m _)) as N.
  set (rows := merge_strata _) in *. clearbody rows.
  assert (B : forall others : list (nat * prow), (forall i r, In (i, r) others -> (i - 1 < length rows)%nat) ->
            exists b, mapM (fun '(i, _) => let* r := get rows (i - 1) in Ok (p_label r)) others = Ok b).
  { induction others as [|[i r] others IH]; intros H; [exists []; reflexivity|].
    destruct IH as [b Hb]; [intros; eapply H; right; eassumption|].
    cbn [mapM]. destruct (nth_error rows (i - 1)) as [x|] eqn:Ex.
    - assert (Eg : get rows (i - 1) = Ok x) by (unfold get; now rewrite Ex). rewrite Eg.
      cbn [bind]. rewrite Hb. cbn. eauto.
    - exfalso. apply nth_error_None in Ex. specialize (H i r (or_introl eq_refl)). lia. }
  set (others := filter (fun '(_, r) => is_other r) (combine (seq 0 (length rows)) rows)).
  assert (O : forall i r, In (i, r) others -> (i < length rows)%nat).
  { intros i r Hi. apply filter_In in Hi as [Hi _]. apply in_combine_l, in_seq in Hi. lia. }
  destruct rows as [|r0 rows]; [congruence|]. cbn [get nth_error bind].
  destruct (is_other r0) eqn:E0.
  - destruct rows as [|r1 rows]; [reflexivity|]. cbn [get nth_error bind].
    destruct (B (filter (fun '(i, _) => negb (i =? 0)%nat) others)) as [b ->].
    { intros i r Hi. apply filter_In in Hi as [Hi _]. apply O in Hi. lia. }
    cbn [bind list_extend assign_labels]. reflexivity.
  - cbn [bind]. destruct (B others) as [b ->].
    { intros i r Hi. apply O in Hi. lia. }
    cbn [bind list_extend assign_labels]. destruct rows; reflexivity.
Qed.

Definition kept_row (l : layer) : prow :=
  mk_prow (l_ice l) (l_ej l) (Some (l_label l)) (l_time l) (l_depth l).
Notation not_other := (lab_is (fun l => negb (String.eqb l "Other"))).

Lemma relabel_kept m strat : Forall (fun l => l_label l <> "Other"%string) strat ->
  filter not_other (relabel m strat) = map kept_row (thick_layers m strat).
Proof.
  induction 1 as [|l above Hl _ IH]; auto. cbn [relabel filter thick_layers].
  destruct (Rleb m (l_depth l - top_of above)) eqn:E.
  - apply Rleb_true in E. rewrite (proj2 (Rltb_false _ _)) by lra.
    unfold lab_is at 1. cbn [p_label]. destruct (String.eqb_spec (l_label l) "Other"); [contradiction|].
    cbn [negb map]. now rewrite IH.
  - apply Rleb_false in E. rewrite (proj2 (Rltb_true _ _)) by lra.
    unfold lab_is at 1. cbn [p_label]. exact IH.
Qed.

Lemma blank_filter rows : filter labelled_row (map blank rows) =
  filter not_other rows.
Proof.
  induction rows as [|r rows IH]; auto. cbn [map filter]. rewrite IH.
  assert (A : labelled_row (blank r) = not_other r /\ (not_other r = true -> blank r = r)).
  { unfold blank, is_other, lab_is, labelled_row. destruct (p_label r) as [l|] eqn:E.
    - destruct (String.eqb l "Other"); cbn [p_label negb]; rewrite ?E; auto. split; [auto|discriminate].
    - rewrite E. auto. }
  destruct A as [A B]. rewrite A. destruct (not_other r); [rewrite B|]; auto.
Qed.

Lemma blank_apart rows : Sorted (fun a b => p_label a <> p_label b) rows -> Sorted apart (map blank rows).
Proof.
  induction 1 as [|r rows S IH H]; [constructor|]. cbn [map]. constructor; auto.
  destruct H as [|b rows H]; cbn [map]; constructor. unfold apart, blank, is_other.
  destruct (p_label r) as [l|] eqn:E; [|rewrite E; auto].
  destruct (String.eqb_spec l "Other"); cbn [p_label]; auto. left. rewrite E.
  destruct (p_label b) as [l'|] eqn:E'; [|rewrite E'; discriminate].
  destruct (String.eqb_spec l' "Other"); cbn [p_label]; [discriminate|]. now rewrite E'.
Qed.

(** The second merge only drops rows. *)
Lemma merge_blank rows : Forall (fun r => labelled_row r = true) rows ->
  merge_strata (map blank (merge_strata rows)) = filter not_other (merge_strata rows).
Proof.
  intros L. rewrite (merge_chunk (map blank _)).
  rewrite (chunk_apart (map blank (merge_strata rows)) None); auto.
  - cbn [cur_rows app]. apply blank_filter.
  - apply blank_apart. rewrite merge_chunk. now apply chunk_adjacent.
Qed.

Lemma clean_up_out m strat out : clean_up_strat_col m strat = Ok out ->
  out = map finish (filter not_other (merge_strata (relabel m strat))).
Proof.
  rewrite clean_up_cases. destruct strat as [|l0 above]; [injection 1 as <-; reflexivity|]. cbv zeta.
  rewrite <- (merge_blank _ (relabel_labelled m (l0 :: above))).
  destruct (merge_strata (relabel m (l0 :: above))) as [|r [|r' rows]]; try (injection 1 as <-; reflexivity).
  destruct (is_other r); [discriminate|]. injection 1 as <-. reflexivity.
Qed.

Lemma relabel_adjacent m strat : Sorted (fun a b => l_label a <> l_label b) strat ->
  Sorted (fun a b => p_label a = p_label b -> p_label a = Some "Other"%string) (relabel m strat).
Proof.
  induction 1 as [|l strat S IH H]; [constructor|]. cbn [relabel]. constructor; auto.
  destruct H as [|b strat H]; cbn [relabel]; constructor. cbn [p_label].
  destruct (Rltb _ m); auto. destruct (Rltb _ m); congruence.
Qed.

Lemma finish_same l : same_layer l (finish (kept_row l)).
Proof.
  unfold same_layer, finish, kept_row, pct. cbn.
  destruct (Reqb (l_ice l + l_ej l) 0) eqn:E.
  - apply Reqb_true in E. repeat split; auto. intros; contradiction.
  - apply Reqb_false in E. repeat split; auto. intros; contradiction.
Qed.

Lemma clean_up_rows m strat out :
  clean_up_strat_col m strat = Ok out ->
  Forall (fun l => l_label l <> "Other"%string) strat ->
  Sorted (fun a b => l_label a <> l_label b) strat ->
  Forall2 same_layer (thick_layers m strat) out.
Proof.
  intros H N S. apply clean_up_out in H. subst out. rewrite merge_chunk.
  rewrite (chunk_filter "Other" (relabel m strat) None); auto using relabel_labelled, relabel_adjacent.
  cbn [cur_rows app]. rewrite relabel_kept by auto. rewrite map_map.
  induction (thick_layers m strat); constructor; auto. apply finish_same.
Qed.

Lemma clean_up_totals m strat out :
  clean_up_strat_col m strat = Ok out ->
  Forall (fun l => l_label l <> "Other"%string) strat ->
  Rsum (map l_ice out) = Rsum (map l_ice (thick_layers m strat)) /\
  Rsum (map l_ej out) = Rsum (map l_ej (thick_layers m strat)).
Proof.
  intros H N. apply clean_up_out in H. subst out. rewrite !map_map. split.
  - change (map (fun x => l_ice (finish x))) with (map p_ice). rewrite merge_total by reflexivity.
    rewrite relabel_kept by auto. now rewrite map_map.
  - change (map (fun x => l_ej (finish x))) with (map p_ej). rewrite merge_total by reflexivity.
    rewrite relabel_kept by auto. now rewrite map_map.
Qed.

Lemma clean_up_errors m strat :
  Forall (fun l => l_label l <> "Other"%string) strat ->
  match clean_up_strat_col m strat with
  | Ok _ => strat = [] \/ thick_layers m strat <> []
  | Err e => e = KeyError /\ strat <> [] /\ thick_layers m strat = []
  end.
Proof.
  intros N. rewrite clean_up_cases. destruct strat as [|l0 above]; auto. cbv zeta.
  pose proof (relabel_kept m _ N) as K. set (strat := l0 :: above) in *.
  assert (Ns : strat <> []) by discriminate. clearbody strat. clear l0 above.
  pose proof (relabel_labelled m strat) as L.
  destruct (chunk_adjacent (relabel m strat) None I L) as [A _]. rewrite <- merge_chunk in A.
  assert (Cc : concat (chunk None (relabel m strat)) = relabel m strat).
  { rewrite chunk_concat. cbn [cur_rows app]. clear -L. induction L as [|r rows Hr _ IH]; auto.
    cbn [filter]. now rewrite Hr, IH. }
  pose proof (chunk_uniform (relabel m strat) None I) as U.
  (* all thin *)
  assert (T : thick_layers m strat = [] -> exists r, merge_strata (relabel m strat) = [r] /\ is_other r = true).
  { intros T. rewrite T in K. cbn [map] in K.
    assert (Ho : Forall (fun r => p_label r = Some "Other"%string) (relabel m strat)).
    { clear -K L. revert K. induction L as [|r rows Hr _ IH]; intros K; constructor.
      - cbn [filter] in K. destruct (not_other r) eqn:E; [discriminate|].
        unfold lab_is in E. unfold labelled_row in Hr. destruct (p_label r); [|discriminate].
        apply negb_false_iff, String.eqb_eq in E. now subst.
      - apply IH. cbn [filter] in K. now destruct (not_other r). }
    assert (G : Forall (fun g => uniform "Other" g) (chunk None (relabel m strat))).
    { rewrite <- Cc in Ho. clear -Ho U. revert Ho. induction U as [|g gs [p [Hn Hp]] _ IH]; intros Ho; constructor.
      - cbn [concat] in Ho. apply Forall_app in Ho as [Ho _]. split; auto.
      - apply IH. cbn [concat] in Ho. now apply Forall_app in Ho. }
    rewrite merge_chunk in *. destruct (chunk None (relabel m strat)) as [|g [|g' gs]] eqn:Ec.
    - destruct strat; [congruence|discriminate].
    - exists (agg g). split; auto. unfold is_other. inversion G; subst. now rewrite (agg_label "Other").
    - exfalso. inversion G as [|? ? G1 G2]; subst. inversion G2 as [|? ? G3 _]; subst.
      cbn [map] in A. inversion A as [|? ? _ A2]; subst. inversion A2 as [|? ? A3]; subst.
      rewrite (agg_label _ _ G1), (agg_label _ _ G3) in A3. congruence. }
  assert (T' : forall r, merge_strata (relabel m strat) = [r] -> is_other r = true -> thick_layers m strat = []).
  { intros r Er Eo. rewrite merge_chunk in Er. destruct (chunk None (relabel m strat)) as [|g [|g' gs]] eqn:Ec; try discriminate.
    injection Er as Er. inversion U as [|? ? [p Hp] _]; subst.
    unfold is_other in Eo. rewrite (agg_label _ _ Hp) in Eo. apply String.eqb_eq in Eo. subst p.
    cbn in Cc. rewrite app_nil_r in Cc. subst g. destruct Hp as [_ Hp].
    assert (filter not_other (relabel m strat) = []).
    { clear -Hp. induction Hp as [|r rows Hr _ IH]; auto. cbn [filter]. unfold lab_is at 1. rewrite Hr. exact IH. }
    rewrite H in K. now destruct (thick_layers m strat). }
  destruct (merge_strata (relabel m strat)) as [|r [|r' rows]] eqn:Em.
  - right. intros E. destruct (T E) as (x & Ex & _). discriminate.
  - destruct (is_other r) eqn:Eo.
    + repeat split; auto. apply (T' r); auto.
    + right. intros E. destruct (T E) as (x & Ex & Ex'). injection Ex as ->. congruence.
  - right. intros E. destruct (T E) as (x & Ex & _). discriminate.
Qed.

(** * The tables of a run *)
Lemma step_label_P (P : string -> Prop) thick_min s : P "Ice"%string -> P "Minor source(s)"%string ->
  snd s = ""%string \/ P (snd s) -> P (step_label thick_min s).
Proof.
  destruct s as [[[t i] e] src]. cbn. intros H1 H2 H3. destruct (Rltb thick_min e); auto.
  destruct (String.eqb src "") eqn:Q; auto. apply String.eqb_neq in Q. tauto.
Qed.

Lemma strat_rest_named (P : string -> Prop) rnd thick_min tol age steps out :
  make_strat_col rnd thick_min tol true age steps = Ok out ->
  P "Ice"%string -> P "Minor source(s)"%string -> Forall (fun s => snd s = ""%string \/ P (snd s)) steps ->
  ~ P "Formation age"%string ->
  exists s kept l rest,
    filter (in_span rnd tol true age) steps = s :: kept /\ out = l :: rest /\
    l_label l = "Formation age"%string /\ l_ice l = 0 /\ l_ej l = 0 /\
    l_time l = rnd (fst (fst (fst s))) /\
    Forall (fun l => P (l_label l)) rest /\
    Forall (fun l => exists s', In s' (s :: kept) /\ l_time l = rnd (fst (fst (fst s')))) rest.
Proof.
  intros H P1 P2 P3 NP. pose proof (strat_groups _ _ _ _ _ _ _ H) as G. cbv zeta in G.
  pose proof (strat_ok_iff rnd thick_min tol true age steps) as K. rewrite H in K.
  destruct K as [K|(s0 & K1 & K2)]; [discriminate|].
  set (kept := filter (in_span rnd tol true age) steps) in *.
  destruct kept as [|s kept'] eqn:Ek.
  { exfalso. assert (In s0 kept) by (apply filter_In; auto). rewrite Ek in H0. contradiction. }
  assert (Pk : Forall (fun s => snd s = ""%string \/ P (snd s)) (s :: kept')).
  { rewrite <- Ek. apply Forall_forall. intros x Hx. apply filter_In in Hx as [Hx _].
    rewrite Forall_forall in P3. auto. }
  exists s, kept'. destruct G as (groups & Gc & Gl & _).
  destruct s as [[[t i] e] src]. cbn [formation app] in Gc.
  set (rows := map (labelled rnd thick_min) (filter (visible thick_min) ((t, i, e, src) :: kept'))) in *.
  assert (Hr : Forall (fun r => P (snd (fst r)) /\
             exists s', In s' ((t, i, e, src) :: kept') /\ snd r = rnd (fst (fst (fst s')))) rows).
  { unfold rows. apply Forall_forall. intros r Hr. apply in_map_iff in Hr as (s' & <- & Hs').
    apply filter_In in Hs' as [Hs' _]. split.
    - destruct s' as [[[t' i'] e'] src'] eqn:Es. cbn [labelled fst snd]. rewrite <- Es.
      apply step_label_P; auto. rewrite Es. rewrite Forall_forall in Pk. apply (Pk _ Hs').
    - exists s'. split; auto. destruct s' as [[[? ?] ?] ?]. reflexivity. }
  clearbody rows. clear K1 K2 H P3 Pk Ek kept.
  destruct groups as [|g groups]; [discriminate|].
  inversion Gl as [|? l ? rest Gl1 Gl2]; subst. exists l, rest. split; auto. split; auto.
  destruct Gl1 as (L1 & L2 & L3 & init & r & L4 & L5).
  destruct g as [|f g]; [destruct init; discriminate|]. cbn [concat app] in Gc. injection Gc as -> Gc.
  inversion L1 as [|? ? La Lb]; subst. cbn [fst snd] in La.
  assert (g = []).
  { destruct g as [|r' g]; auto. exfalso. inversion Lb as [|? ? Lb1 _]; subst.
    inversion Hr as [|? ? [Hr1 _] _]; subst. rewrite Lb1, <- La in Hr1. contradiction. }
  subst g. cbn [app] in Hr.
  destruct init as [|? [|? ?]]; try discriminate. injection L4 as <-. cbn in L5.
  cbn in L2, L3. rewrite Rplus_0_r in L2, L3.
  assert (Q : Forall (fun l => P (l_label l) /\ exists s', In s' ((t, i, e, src) :: kept') /\
                l_time l = rnd (fst (fst (fst s')))) rest).
  { clear -Gl2 Hr. induction Gl2 as [|g l groups rest G _ IH]; constructor.
    - destruct G as (A1 & _ & _ & init & r & -> & A2). apply Forall_app in A1 as [_ A1].
      inversion A1 as [|? ? A3 _]; subst. cbn [concat] in Hr. apply Forall_app in Hr as [Hr _].
      apply Forall_app in Hr as [_ Hr]. inversion Hr as [|? ? [B1 B2] _]; subst.
      rewrite <- A3, A2. auto.
    - apply IH. cbn [concat] in Hr. now apply Forall_app in Hr. }
  repeat split; auto; eapply Forall_impl; try exact Q; cbn; tauto.
Qed.

Lemma strat_rest (P : string -> Prop) rnd thick_min tol age steps out :
  make_strat_col rnd thick_min tol true age steps = Ok out ->
  P "Ice"%string -> P "Minor source(s)"%string -> Forall (fun s => P (snd s)) steps ->
  ~ P "Formation age"%string ->
  exists s kept l rest,
    filter (in_span rnd tol true age) steps = s :: kept /\ out = l :: rest /\
    l_label l = "Formation age"%string /\ l_ice l = 0 /\ l_ej l = 0 /\
    l_time l = rnd (fst (fst (fst s))) /\
    Forall (fun l => P (l_label l)) rest /\
    Forall (fun l => exists s', In s' (s :: kept) /\ l_time l = rnd (fst (fst (fst s')))) rest.
Proof.
  intros H P1 P2 P3 NP. apply strat_rest_named with (thick_min := thick_min) (age := age); auto.
  eapply Forall_impl; [|exact P3]. cbn. auto.
Qed.

(** In a table, a layer is as thick as its ice and ejecta. *)
Lemma table_thick rnd thick_min tol aa age steps out pre l above :
  make_strat_col rnd thick_min tol aa age steps = Ok out -> out = pre ++ l :: above ->
  l_depth l - top_of above = l_ice l + l_ej l.
Proof.
  intros H E. destruct (strat_depth_steps _ _ _ _ _ _ _ H) as (A & _ & C).
  destruct above as [|a above]; cbn [top_of].
  - rewrite (C pre l E). lra.
  - apply (A (length pre) l a).
    + subst out. rewrite nth_error_app2 by lia. now rewrite Nat.sub_diag.
    + subst out. rewrite nth_error_app2 by lia. now replace (S (length pre) - length pre)%nat with 1%nat by lia.
Qed.

Lemma table_thick_layers rnd thick_min tol aa age steps out m pre rest :
  make_strat_col rnd thick_min tol aa age steps = Ok out -> out = pre ++ rest ->
  thick_layers m rest = filter (fun l => Rleb m (l_ice l + l_ej l)) rest.
Proof.
  intros H. revert pre. induction rest as [|l above IH]; intros pre E; auto.
  cbn [thick_layers filter]. rewrite (table_thick _ _ _ _ _ _ _ _ _ _ H E).
  rewrite (IH (pre ++ [l])) by now rewrite <- app_assoc. reflexivity.
Qed.

Lemma Sorted_tl {A} (Q : A -> A -> Prop) a l : Sorted Q (a :: l) -> Sorted Q l.
Proof. now inversion 1. Qed.

Lemma filter_all {A} (p : A -> bool) l : Forall (fun x => p x = true) l -> filter p l = l.
Proof. induction 1 as [|x l H _ IH]; auto. cbn. now rewrite H, IH. Qed.
Lemma filter_none {A} (p : A -> bool) l : Forall (fun x => p x = false) l -> filter p l = [].
Proof. induction 1 as [|x l H _ IH]; auto. cbn. now rewrite H. Qed.

(** The formation row is told from the rest by its label. *)
Lemma split_formation l rest :
  l_label l = "Formation age"%string -> Forall (fun l => l_label l <> "Formation age"%string) rest ->
  filter (fun l => String.eqb (l_label l) "Formation age") (l :: rest) = [l] /\
  filter (fun l => negb (String.eqb (l_label l) "Formation age")) (l :: rest) = rest.
Proof.
  intros E F. cbn [filter]. rewrite E, String.eqb_refl. cbn [negb]. split.
  - f_equal. apply filter_none. eapply Forall_impl; [|exact F]. cbn. intros x Hx. now apply String.eqb_neq.
  - apply filter_all. eapply Forall_impl; [|exact F]. cbn. intros x Hx. apply negb_true_iff. now apply String.eqb_neq.
Qed.

Lemma plot_run rnd thick_min tol age steps table m :
  make_strat_col rnd thick_min tol true age steps = Ok table ->
  Forall (fun s => snd s <> "Formation age"%string /\ snd s <> "Other"%string) steps ->
  let big := filter (fun l => Rleb m (l_ice l + l_ej l)) (tl table) in
  match plot_column m table with
  | Ok (t, out) => hd_error (map l_time table) = Some t /\ Forall2 same_layer big out /\
                   (tl table = [] \/ big <> [])
  | Err e => e = KeyError /\ tl table <> [] /\ big = []
  end.
Proof.
  intros H N. pose proof H as H'.
  destruct (strat_rest (fun s => s <> "Formation age" /\ s <> "Other")%string rnd thick_min tol age steps table)
    as (s & kept & l & rest & K1 & -> & K3 & _ & _ & K4 & K5 & _); auto.
  { split; discriminate. } { split; discriminate. } { intros [X _]. now apply X. }
  cbn [tl map hd_error]. cbv zeta.
  assert (F : Forall (fun l => l_label l <> "Formation age"%string) rest)
    by (eapply Forall_impl; [|exact K5]; cbn; tauto).
  assert (O : Forall (fun l => l_label l <> "Other"%string) rest)
    by (eapply Forall_impl; [|exact K5]; cbn; tauto).
  unfold plot_column. destruct (split_formation l rest K3 F) as [-> ->].
  rewrite <- (table_thick_layers _ _ _ _ _ _ _ m [l] rest H' eq_refl).
  cbn [get nth_error bind].
  pose proof (clean_up_errors m rest O) as E.
  destruct (clean_up_strat_col m rest) as [out|e] eqn:Ec; cbn [bind]; auto.
  split; auto. split; auto. apply (clean_up_rows m rest out Ec O).
  destruct (strat_groups _ _ _ _ _ _ _ H') as (_ & _ & _ & S). now apply Sorted_tl in S.
Qed.
