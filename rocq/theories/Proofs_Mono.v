(** Columns respond monotonically to what is delivered and removed. *)
From Coq Require Import String List ZArith Reals Lia Lra Bool.
From Verif Require Import Base Arith Model_Column Model_Time Model_Geo Model_Crater Model_Ice Model_Rng Model_Strat
  Model_Melt Model_Main Spec_Column Spec_Time Spec_Ice Spec_Strat Spec_Melt Spec_Main Spec_Mono Proofs_Base Proofs_Column
  Proofs_ColumnR Proofs_ColumnP Proofs_Ice Proofs_Rng Proofs_Strat Proofs_Bsed Proofs_Main.
Import ListNotations.
Open Scope R_scope.

(** Layer by layer: no less ice under no less ejecta. *)
Definition lay_le (p q : R * R) : Prop := 0 <= fst p <= fst q /\ snd p <= snd q.
Definition stack_le := Forall2 lay_le.

Lemma stack_le_trans a b c : stack_le a b -> stack_le b c -> stack_le a c.
Proof.
  intros H. revert c. induction H as [|x y a b [Hx Hy] H IH]; intros c K; inversion K as [|? z ? ? [Hz Hw] K']; subst; constructor.
  - split; lra.
  - now apply IH.
Qed.
Lemma stack_le_nonneg a b : stack_le a b -> Forall (fun l => 0 <= fst l) a.
Proof. induction 1 as [|x y a b [Hx _] H IH]; constructor; auto. lra. Qed.
Lemma stack_le_nonneg2 a b : stack_le a b -> Forall (fun l => 0 <= fst l) b.
Proof. induction 1 as [|x y a b [Hx _] H IH]; constructor; auto. lra. Qed.
Lemma stack_le_refl a : Forall (fun l => 0 <= fst l) a -> stack_le a a.
Proof. induction 1; constructor; auto. split; lra. Qed.

(** ** Gardening *)
Lemma garden_layer x depth d1 eff : d1 < depth ->
  (if Rltb depth (d1 + x * eff) then x - (depth - d1) else x - x * eff)
  = Rmax (x * (1 - eff)) (x - (depth - d1)).
Proof.
  intros H. rcase depth (d1 + x * eff) E; unfold Rmax; destruct (Rle_dec (x * (1 - eff)) (x - (depth - d1))); lra.
Qed.

Lemma garden_cons d depth eff x e L :
  garden_stack exactR d depth eff ((x, e) :: L) =
  if Rltb d depth then
    if Rltb (d + e) depth then
      let x' := Rmax (x * (1 - eff)) (x - (depth - (d + e))) in
      (x', e) :: garden_stack exactR (d + e + x') depth eff L
    else (x, e) :: L
  else (x, e) :: L.
Proof.
  cbn [garden_stack]. change (ltb exactR) with Rltb. cbn [add sub mul store exactR].
  rcase d depth E; auto. rcase (d + e) depth E2; auto. cbv zeta.
  rewrite <- garden_layer by assumption. destruct (Rltb depth (d + e + x * eff)); reflexivity.
Qed.

Lemma garden_less eff : forall L d depth, 0 <= eff <= 1 -> Forall (fun l => 0 <= fst l) L ->
  stack_le (garden_stack exactR d depth eff L) L.
Proof.
  induction L as [|[x e] L IH]; intros d depth He HF; [constructor|].
  pose proof (stack_le_refl _ HF) as Z. inversion HF as [|? ? Hx HF']; subst. cbn [fst] in Hx.
  rewrite garden_cons. rcase d depth A; auto. rcase (d + e) depth B; auto. cbv zeta.
  constructor; [|now apply IH]. split; cbn [fst snd]; [|lra]. split.
  - eapply Rle_trans; [|apply Rmax_l]. nra.
  - apply Rmax_lub; nra.
Qed.

Lemma garden_mono eff eff2 : forall L L2 d d2 depth depth2,
  stack_le L L2 -> 0 <= eff2 <= eff -> eff <= 1 -> d <= d2 -> depth2 <= depth ->
  stack_le (garden_stack exactR d depth eff L) (garden_stack exactR d2 depth2 eff2 L2).
Proof.
  induction L as [|[x e] L IH]; intros L2 d d2 depth depth2 H He He1 Hd Hp; inversion H as [|? [x2 e2] ? L2' [Hx He2] H']; subst; [constructor|].
  cbn [fst snd] in *.
  assert (Z : stack_le (garden_stack exactR d depth eff ((x, e) :: L)) ((x2, e2) :: L2')).
  { eapply stack_le_trans; [apply garden_less; [lra|]|exact H]. eapply stack_le_nonneg; eauto. }
  revert Z. rewrite !garden_cons. cbv zeta. intros Z.
  destruct (Rltb d2 depth2) eqn:A2; [apply Rltb_true in A2|exact Z].
  destruct (Rltb (d2 + e2) depth2) eqn:B2; [apply Rltb_true in B2|exact Z]. clear Z.
  rewrite (proj2 (Rltb_true d depth)) by lra. rewrite (proj2 (Rltb_true (d + e) depth)) by lra.
  assert (M : Rmax (x * (1 - eff)) (x - (depth - (d + e))) <= Rmax (x2 * (1 - eff2)) (x2 - (depth2 - (d2 + e2)))).
  { apply Rmax_lub; [eapply Rle_trans; [|apply Rmax_l]; nra|eapply Rle_trans; [|apply Rmax_r]; lra]. }
  constructor.
  - split; cbn [fst snd]; [|lra]. split; [|exact M]. eapply Rle_trans; [|apply Rmax_l]. nra.
  - apply IH; auto. lra.
Qed.

Lemma garden_start L L2 depth depth2 eff eff2 : stack_le L L2 -> 0 <= eff2 <= eff -> eff <= 1 -> depth2 <= Rmax 0 depth ->
  stack_le (garden_stack exactR (zero exactR) depth eff L) (garden_stack exactR (zero exactR) depth2 eff2 L2).
Proof.
  intros H He He1 Hd. cbn [zero exactR]. destruct (Rle_lt_dec depth2 0) as [Z|Z].
  - assert (E : garden_stack exactR 0 depth2 eff2 L2 = L2).
    { destruct L2 as [|[x e] L2]; [reflexivity|]. rewrite garden_cons. rcase 0 depth2 A; [lra|reflexivity]. }
    rewrite E. eapply stack_le_trans; [apply garden_less; [lra|]|exact H]. eapply stack_le_nonneg; eauto.
  - apply garden_mono; auto; [lra|]. unfold Rmax in Hd. destruct (Rle_dec 0 depth); lra.
Qed.

(** ** Erosion *)
Lemma erode_cons depth x e L :
  erode_stack exactR depth ((x, e) :: L) =
  if Rltb 0 depth then ((if Rltb x depth then 0 else x - depth), e) :: erode_stack exactR (depth - x) L
  else (x, e) :: L.
Proof. reflexivity. Qed.

Lemma erode_less : forall L depth, Forall (fun l => 0 <= fst l) L -> stack_le (erode_stack exactR depth L) L.
Proof.
  induction L as [|[x e] L IH]; intros depth HF; [constructor|].
  pose proof (stack_le_refl _ HF) as Z. inversion HF as [|? ? Hx HF']; subst. cbn [fst] in Hx.
  rewrite erode_cons. rcase 0 depth A; auto.
  constructor; [|now apply IH]. split; cbn [fst snd]; [|lra]. rcase x depth B; lra.
Qed.

Lemma erode_mono : forall L L2 depth depth2,
  stack_le L L2 -> depth2 <= depth -> stack_le (erode_stack exactR depth L) (erode_stack exactR depth2 L2).
Proof.
  induction L as [|[x e] L IH]; intros L2 depth depth2 H Hp; inversion H as [|? [x2 e2] ? L2' [Hx He2] H']; subst; [constructor|].
  cbn [fst snd] in *.
  assert (Z : stack_le (erode_stack exactR depth ((x, e) :: L)) ((x2, e2) :: L2')).
  { eapply stack_le_trans; [apply erode_less|exact H]. eapply stack_le_nonneg; eauto. }
  revert Z. rewrite !erode_cons. intros Z.
  destruct (Rltb 0 depth2) eqn:A2; [apply Rltb_true in A2|exact Z]. clear Z.
  rewrite (proj2 (Rltb_true 0 depth)) by lra. constructor.
  - split; cbn [fst snd]; [|lra]. rcase x depth B; rcase x2 depth2 C; lra.
  - apply IH; auto. lra.
Qed.

Lemma shielded_mono sh sh2 depth depth2 L L2 :
  stack_le L L2 -> depth2 <= depth -> sh2 <= sh ->
  stack_le (erode_shielded exactR sh depth L) (erode_shielded exactR sh2 depth2 L2).
Proof.
  intros H Hp Hs. pose proof H as H0. destruct H as [|[x e] [x2 e2] L L2 [Hx He] H]; [constructor|].
  cbn [fst snd] in *. unfold erode_shielded. change (ltb exactR) with Rltb.
  destruct (Rltb sh e) eqn:A; [apply Rltb_true in A|].
  - rewrite (proj2 (Rltb_true sh2 e2)) by lra. exact H0.
  - destruct (Rltb sh2 e2); [|now apply erode_mono].
    eapply stack_le_trans; [apply erode_less|exact H0]. eapply stack_le_nonneg; eauto.
Qed.

(** ** Steps *)
Lemma step_mono co sh sh2 L L2 e e2 : stack_le L L2 -> sh2 <= sh -> event_le e e2 ->
  stack_le (step exactR co sh L e) (step exactR co sh2 L2 e2).
Proof.
  intros H Hs (H1 & H2 & H3 & H4 & H5 & H6). unfold step.
  assert (K : stack_le ((ev_ice e, ev_ej e) :: garden_stack exactR (zero exactR) (ev_bsed_depth e) (ev_bsed_frac e) L)
                ((ev_ice e2, ev_ej e2) :: garden_stack exactR (zero exactR) (ev_bsed_depth e2) (ev_bsed_frac e2) L2)).
  { constructor; [split; cbn [fst snd]; lra|]. now apply garden_start. }
  unfold overturn_stack. destruct co.
  - apply garden_mono; auto; cbn [one exactR]; lra.
  - now apply shielded_mono.
Qed.

Lemma fold_mono co sh sh2 : forall evs evs2 L L2, sh2 <= sh -> stack_le L L2 -> Forall2 event_le evs evs2 ->
  stack_le (fold_left (step exactR co sh) evs L) (fold_left (step exactR co sh2) evs2 L2).
Proof.
  induction evs as [|e evs IH]; intros evs2 L L2 Hs H K; inversion K; subst; cbn [fold_left]; auto.
  apply IH; auto. now apply step_mono.
Qed.

Lemma simulate_mono co sh sh2 evs evs2 : sh2 <= sh -> Forall2 event_le evs evs2 ->
  stack_le (simulate exactR co sh evs) (simulate exactR co sh2 evs2).
Proof. intros Hs H. apply fold_mono; auto. constructor. Qed.

Lemma Forall2_len {A B} (P : A -> B -> Prop) a b : Forall2 P a b -> length a = length b.
Proof. induction 1; cbn; congruence. Qed.
Lemma Forall2_rev {A B} (P : A -> B -> Prop) a b : Forall2 P a b -> Forall2 P (rev a) (rev b).
Proof. induction 1; cbn [rev]; [constructor|]. apply Forall2_app; auto. Qed.

Lemma stack_le_ice L L2 : stack_le L L2 -> Forall2 (fun a b => 0 <= a <= b) (ice_of L) (ice_of L2).
Proof.
  intros H. unfold ice_of. apply Forall2_rev. induction H as [|p q L L2 [Hx _] H IH]; cbn [map]; constructor; auto.
Qed.

(** ** Arrays *)
Definition events_of (ice ej : list R) (h : list (R * R * R)) : list (@event R) :=
  map (fun '(i, e, (o, b, f)) => mk_event i e b f o) (combine (combine ice ej) h).

Lemma events_ice ice ej h : length ice = length h -> length ej = length h ->
  map ev_ice (events_of ice ej h) = ice /\ map ev_ej (events_of ice ej h) = ej /\
  map (fun e => (ev_overturn e, ev_bsed_depth e, ev_bsed_frac e)) (events_of ice ej h) = h.
Proof.
  revert ej h. induction ice as [|i ice IH]; intros [|e ej] [|[[o b] f] h] H1 H2; cbn in *; try discriminate; auto.
  injection H1 as H1. injection H2 as H2. destruct (IH ej h H1 H2) as (A & B & C).
  unfold events_of in *. repeat split; f_equal; auto.
Qed.

Lemma history_length {T} (bd bf : list (list T)) j : forall ov t h, history bd bf j t ov = Ok h -> length h = length ov.
Proof.
  induction ov as [|o ov IH]; intros t h H; cbn [history] in H; [now injection H as <-|].
  destruct (get2 bd t j); [|discriminate]. destruct (get2 bf t j); [|discriminate].
  destruct (history bd bf j (S t) ov) eqn:E; [|discriminate]. cbn [bind] in H. injection H as <-. cbn. f_equal. eauto.
Qed.

Lemma history_le bd bf bd2 bf2 j : forall ov ov2 t h h2,
  Forall2 (fun a b => b <= a) ov ov2 ->
  (forall k a b a2 b2, get2 bd k j = Ok a -> get2 bf k j = Ok b -> get2 bd2 k j = Ok a2 -> get2 bf2 k j = Ok b2 ->
     a2 <= Rmax 0 a /\ 0 <= b2 <= b /\ b <= 1) ->
  history bd bf j t ov = Ok h -> history bd2 bf2 j t ov2 = Ok h2 ->
  Forall2 (fun '(o, b, f) '(o2, b2, f2) => o2 <= o /\ b2 <= Rmax 0 b /\ 0 <= f2 <= f /\ f <= 1) h h2.
Proof.
  induction ov as [|o ov IH]; intros ov2 t h h2 HF HB H H2; inversion HF as [|? o2 ? ov2' Ho HF']; subst; cbn [history] in H, H2.
  - injection H as <-. injection H2 as <-. constructor.
  - destruct (get2 bd t j) as [b|] eqn:Q1; [|discriminate]. destruct (get2 bf t j) as [f|] eqn:Q2; [|discriminate].
    destruct (history bd bf j (S t) ov) as [h'|] eqn:Q3; [|discriminate].
    destruct (get2 bd2 t j) as [b2|] eqn:Q4; [|discriminate]. destruct (get2 bf2 t j) as [f2|] eqn:Q5; [|discriminate].
    destruct (history bd2 bf2 j (S t) ov2') as [h2'|] eqn:Q6; [|discriminate].
    cbn [bind] in H, H2. injection H as <-. injection H2 as <-. constructor; [|eapply IH; eauto].
    destruct (HB t b f b2 f2 Q1 Q2 Q4 Q5) as (X & Y & Z). auto.
Qed.

Lemma events_le : forall ice ice2 ej ej2 h h2,
  Forall2 (fun a b => 0 <= a <= b) ice ice2 -> Forall2 Rle ej ej2 ->
  Forall2 (fun '(o, b, f) '(o2, b2, f2) => o2 <= o /\ b2 <= Rmax 0 b /\ 0 <= f2 <= f /\ f <= 1) h h2 ->
  Forall2 event_le (events_of ice ej h) (events_of ice2 ej2 h2).
Proof.
  intros ice ice2 ej ej2 h h2 H. revert ej ej2 h h2.
  induction H as [|i i2 ice ice2 Hi H IH]; intros ej ej2 h h2 He Hh; [constructor|].
  inversion He as [|e e2 ej' ej2' Hee He']; subst; [constructor|].
  inversion Hh as [|[[o b] f] [[o2 b2] f2] h' h2' Q Hh']; subst; [constructor|].
  unfold events_of in *. cbn [combine map]. constructor; [|now apply IH].
  unfold event_le. cbn [ev_ice ev_ej ev_bsed_depth ev_bsed_frac ev_overturn]. tauto.
Qed.

Lemma update_mono co sh sh2 names j c d d2 s s2 ov ov2 bd bf bd2 bf2 e e2 :
  NoDup names -> nth_error names j = Some c -> sh2 <= sh ->
  lookup d c = Ok s -> lookup d2 c = Ok s2 ->
  length (s_ice s) = length ov -> length (s_ej s) = length ov ->
  Forall2 (fun a b => 0 <= a <= b) (s_ice s) (s_ice s2) -> Forall2 Rle (s_ej s) (s_ej s2) ->
  Forall2 (fun a b => b <= a) ov ov2 ->
  (forall k a b a2 b2, get2 bd k j = Ok a -> get2 bf k j = Ok b -> get2 bd2 k j = Ok a2 -> get2 bf2 k j = Ok b2 ->
     a2 <= Rmax 0 a /\ 0 <= b2 <= b /\ b <= 1) ->
  update_strat_cols exactR co sh names d ov bd bf = Ok e ->
  update_strat_cols exactR co sh2 names d2 ov2 bd2 bf2 = Ok e2 ->
  exists i i2, lookup e c = Ok (mk_strat i (s_ej s) (s_src s)) /\ lookup e2 c = Ok (mk_strat i2 (s_ej s2) (s_src s2)) /\
    Forall2 (fun a b => 0 <= a <= b) i i2.
Proof.
  intros HN Hj Hs Hl Hl2 L1 L2 Hi He Ho HB H H2. unfold update_strat_cols in *.
  destruct (update_times_at exactR co sh bd bf names c j ov 0 d e s HN Hj H Hl) as (h & i & Hh & Hr & Hle).
  destruct (update_times_at exactR co sh2 bd2 bf2 names c j ov2 0 d2 e2 s2 HN Hj H2 Hl2) as (h2 & i2 & Hh2 & Hr2 & Hle2).
  exists i, i2.
  split; auto. split; auto.
  pose proof (history_length _ _ _ _ _ _ Hh) as K1. pose proof (history_length _ _ _ _ _ _ Hh2) as K2.
  pose proof (Forall2_len _ _ _ Ho) as K3. pose proof (Forall2_len _ _ _ Hi) as K4. pose proof (Forall2_len _ _ _ He) as K5.
  destruct (events_ice (s_ice s) (s_ej s) h) as (A1 & A2 & A3); [lia|lia|].
  destruct (events_ice (s_ice s2) (s_ej s2) h2) as (B1 & B2 & B3); [lia|lia|].
  pose proof (run_column_simulate exactR co sh (events_of (s_ice s) (s_ej s) h) []) as S1.
  pose proof (run_column_simulate exactR co sh2 (events_of (s_ice s2) (s_ej s2) h2) []) as S2.
  cbn [List.length map rev app] in S1, S2. rewrite A1, A2, A3 in S1. rewrite B1, B2, B3 in S2.
  rewrite S1 in Hr. rewrite S2 in Hr2. injection Hr as <-. injection Hr2 as <-.
  apply stack_le_ice. apply (simulate_mono co sh sh2); auto. apply events_le; auto.
  eapply history_le; eauto.
Qed.

(** ** Two runs *)
Lemma rates_loop c sun volc rate present ppf r diams prob : forall counts u k,
  stochastic_loop (with_rates c sun volc rate present) ppf r diams prob counts u k
  = stochastic_loop c ppf r diams prob counts u k.
Proof.
  induction counts as [|n counts IH]; intros u k; [reflexivity|]. cbn [stochastic_loop]. cbv zeta. unfold rbind.
  destruct (choice diams n prob u k) as [[ds k1]|]; [|reflexivity]. cbn [bind].
  change (get_random_hydrated_craters (with_rates c sun volc rate present)) with (get_random_hydrated_craters c).
  destruct (get_random_hydrated_craters c (length ds) u k1) as [[hyd k2]|]; [|reflexivity]. cbn [bind].
  change (get_random_impactor_speeds (with_rates c sun volc rate present)) with (get_random_impactor_speeds c).
  destruct (get_random_impactor_speeds c ppf (length (mask ds hyd)) u k2) as [[sp k3]|]; [|reflexivity]. cbn [bind].
  change (ice_large_craters (with_rates c sun volc rate present)) with (ice_large_craters c).
  unfold lift. destruct (ice_large_craters c (mask ds hyd) sp r) as [m|]; [|reflexivity]. cbn [bind].
  rewrite IH. reflexivity.
Qed.

Lemma rates_stoch c sun volc rate present ppf time r u k :
  get_stochastic_thickness (with_rates c sun volc rate present) ppf time r u k = get_stochastic_thickness c ppf time r u k.
Proof.
  unfold get_stochastic_thickness, get_ice_stochastic, rbind, lift.
  change (get_crater_pop (with_rates c sun volc rate present)) with (get_crater_pop c).
  destruct (get_crater_pop c time r) as [[[diams nt] prob]|]; [|reflexivity]. cbn [bind].
  destruct (probabilistic_round nt u k) as [[counts k1]|]; [|reflexivity]. cbn [bind].
  rewrite rates_loop. reflexivity.
Qed.

Lemma rates_impact c sun volc rate present ppf tol df time u k :
  get_impact_ice (with_rates c sun volc rate present) ppf tol df time u k = get_impact_ice c ppf tol df time u k.
Proof.
  unfold get_impact_ice, rbind. cbv zeta.
  change (get_micrometeorite_ice (with_rates c sun volc rate present)) with (get_micrometeorite_ice c).
  unfold lift. destruct (get_micrometeorite_ice c time) as [mm|]; [|reflexivity]. cbn [bind].
  change (get_small_impactor_ice (with_rates c sun volc rate present)) with (get_small_impactor_ice c).
  destruct (get_small_impactor_ice c time) as [si|]; [|reflexivity]. cbn [bind].
  change (get_small_simple_crater_ice (with_rates c sun volc rate present)) with (get_small_simple_crater_ice c).
  destruct (get_small_simple_crater_ice c time) as [ssc|]; [|reflexivity]. cbn [bind].
  rewrite rates_stoch. destruct (get_stochastic_thickness c ppf time "d" u k) as [[l k1]|]; [|reflexivity]. cbn [bind].
  rewrite rates_stoch. reflexivity.
Qed.
Lemma rates_comet c sun volc rate present ppf tol df time u k :
  get_impact_ice (get_comet_cfg (with_rates c sun volc rate present)) ppf tol df time u k
  = get_impact_ice (get_comet_cfg c) ppf tol df time u k.
Proof. exact (rates_impact (get_comet_cfg c) sun volc rate present ppf tol df time u k). Qed.

Lemma vadd_mono a b a2 b2 : Forall2 (fun x y => 0 <= x <= y) a a2 -> Forall2 (fun x y => 0 <= x <= y) b b2 ->
  Forall2 (fun x y => 0 <= x <= y) (vadd a b) (vadd a2 b2).
Proof.
  intros H. revert b b2. induction H as [|x y a a2 Hx H IH]; intros b b2 K; [constructor|].
  inversion K as [|z w b' b2' Hz K']; subst; [constructor|]. unfold vadd in *. cbn [combine map].
  constructor; [lra|now apply IH].
Qed.
Lemma le_same a : Forall (fun x => 0 <= x) a -> Forall2 (fun x y => 0 <= x <= y) a a.
Proof. induction 1; constructor; auto. lra. Qed.

Lemma thickness_mono c ms ms2 ts ts2 : sane c -> Forall2 (fun x y => 0 <= x <= y) ms ms2 ->
  mapM (get_ice_thickness c) ms = Ok ts -> mapM (get_ice_thickness c) ms2 = Ok ts2 ->
  Forall2 (fun x y => 0 <= x <= y) ts ts2.
Proof.
  intros Hs H. revert ts ts2. induction H as [|x y ms ms2 Hx H IH]; intros ts ts2 E F; cbn [mapM] in E, F.
  - injection E as <-. injection F as <-. constructor.
  - unfold get_ice_thickness in E at 1. unfold get_ice_thickness in F at 1. rewrite (s_species _ Hs) in E, F.
    cbn [String.eqb Ascii.eqb Bool.eqb bind] in E, F.
    destruct (mapM (get_ice_thickness c) ms) as [ts'|]; [|discriminate].
    destruct (mapM (get_ice_thickness c) ms2) as [ts2'|]; [|discriminate]. cbn [bind] in E, F.
    injection E as <-. injection F as <-. constructor; auto.
    destruct Hs. pose proof (Rinv_0_lt_compat _ s_area). pose proof (Rinv_0_lt_compat _ s_dens).
    unfold Rdiv. rewrite !Rmult_assoc. assert (0 < hop_effcy c * (/ ice_density c * / area_H2O c)) by (repeat apply Rmult_lt_0_compat; auto).
    set (q := hop_effcy c * _) in *. nra.
Qed.

Lemma volc_mono c sun volc rate present time v v2 : sane c -> volc_sane c -> volc_total_vol c <= volc ->
  get_volcanic_ice c time = Ok v -> get_volcanic_ice (with_rates c sun volc rate present) time = Ok v2 ->
  Forall2 (fun x y => 0 <= x <= y) v v2.
Proof.
  intros Hs Hv Hvol E F. unfold get_volcanic_ice in E, F. destruct Hv as (Hm & P1 & P2 & P3 & P4 & P5 & _).
  change (volc_mode (with_rates c sun volc rate present)) with (volc_mode c) in F. rewrite Hm in E, F.
  cbn [String.eqb Ascii.eqb Bool.eqb bind] in E, F.
  change (get_ice_thickness (with_rates c sun volc rate present)) with (get_ice_thickness c) in F.
  eapply thickness_mono; [exact Hs| |exact E|exact F].
  unfold volcanic_ice_head. apply Forall2_nth_error. rewrite !map_length. split; auto.
  intros i x y Hx Hy. rewrite nth_error_map in Hx, Hy. destruct (nth_error time i) as [t|]; [|discriminate].
  cbn [option_map] in Hx, Hy.
  assert (Q : forall a b : R, Some a = Some b -> a = b) by congruence. apply Q in Hx, Hy. subst x y.
  change (volc_early (with_rates c sun volc rate present)) with (volc_early c).
  change (volc_late (with_rates c sun volc rate present)) with (volc_late c). cbv zeta.
  assert (T : 0 <= volc_ice_total c <= volc_ice_total (with_rates c sun volc rate present)).
  { unfold volc_ice_total. cbn [volc_total_vol volc_magma_density volc_ice_ppm with_rates].
    assert (0 <= volc_magma_density c * volc_ice_ppm c * (1 / 1000000)) by (repeat apply Rmult_le_pos; lra).
    set (m := volc_magma_density c) in *. set (p := volc_ice_ppm c) in *. split.
    - repeat apply Rmult_le_pos; lra.
    - rewrite !Rmult_assoc. apply Rmult_le_compat_r; [|lra]. rewrite <- Rmult_assoc. assumption. }
  assert (E1' : 0 <= volc_rate_early c <= volc_rate_early (with_rates c sun volc rate present)).
  { unfold volc_rate_early. cbn [volc_early_pct timestep with_rates]. destruct Hs. rewrite !Rmult_assoc.
    assert (0 <= volc_early_pct c * timestep c) by (apply Rmult_le_pos; auto). nra. }
  assert (E2' : 0 <= volc_rate_late c <= volc_rate_late (with_rates c sun volc rate present)).
  { unfold volc_rate_late. cbn [volc_late_pct timestep with_rates]. destruct Hs. rewrite !Rmult_assoc.
    assert (0 <= volc_late_pct c * timestep c) by (apply Rmult_le_pos; auto). nra. }
  destruct (in_epoch (volc_late c) t), (in_epoch (volc_early c) t); lra.
Qed.

Lemma solar_mono c sun volc rate present table time s s2 :
  sane c -> sun_sane (with_rates c sun volc rate present) table -> (solar_wind_on c = true -> sun = true) ->
  get_solar_wind_ice c table time = Ok s -> get_solar_wind_ice (with_rates c sun volc rate present) table time = Ok s2 ->
  Forall2 (fun x y => 0 <= x <= y) s s2.
Proof.
  intros Hs Hsun Hon E F. assert (Hs2 : sane (with_rates c sun volc rate present)) by (destruct Hs; constructor; assumption).
  destruct (solar_ok _ table time Hs2 Hsun) as (s2' & F' & L & P). rewrite F in F'.
  assert (s2' = s2) by congruence. subst s2'. clear F'.
  destruct (solar_wind_on c) eqn:On.
  - rewrite (Hon eq_refl) in F. assert (G : get_solar_wind_ice (with_rates c true volc rate present) table time = get_solar_wind_ice c table time).
    { unfold get_solar_wind_ice. rewrite On. reflexivity. }
    rewrite G, E in F. injection F as <-. now apply le_same.
  - unfold get_solar_wind_ice in E. rewrite On in E.
    assert (Q : map (fun _ : R => 0) time = s) by congruence. subst s. clear E F.
    apply Forall2_nth_error. rewrite map_length. split; auto. intros i x y Hx Hy. rewrite nth_error_map in Hx.
    destruct (nth_error time i); [|discriminate]. cbn in Hx.
    assert (x = 0) by congruence. subst x. pose proof (Forall_nth_error _ _ _ _ P Hy). cbv beta in *. lra.
Qed.

Lemma polar_mono c sun volc rate present ppf tol table df time u k p k1 p2 k2 :
  sane c -> sun_sane c table -> sun_sane (with_rates c sun volc rate present) table -> (solar_wind_on c = true -> sun = true) ->
  ppf_support ppf -> draws u -> time <> [] ->
  get_polar_ice c ppf tol table df time u k = Ok (p, k1) ->
  get_polar_ice (with_rates c sun volc rate present) ppf tol table df time u k = Ok (p2, k2) ->
  Forall2 (fun x y => 0 <= x <= y) p p2 /\ k2 = k1.
Proof.
  intros Hs Hsun Hsun2 Hon Hp Hu Hn E F. unfold get_polar_ice in E, F. cbv zeta in E, F.
  apply rbind_ok in E as (imp & j1 & A1 & E). apply rbind_ok in E as (com & j2 & A2 & E).
  apply rbind_ok in E as (sw & j3 & A3 & E). apply lift_ok in A3 as [A3 ->]. apply ret_ok in E as [-> ->].
  apply rbind_ok in F as (imp' & j1' & B1 & F). apply rbind_ok in F as (com' & j2' & B2 & F). rewrite rates_impact in B1. rewrite rates_comet in B2.
  apply rbind_ok in F as (sw' & j3' & B3 & F). apply lift_ok in B3 as [B3 ->]. apply ret_ok in F as [-> ->].
  rewrite A1 in B1. assert (imp' = imp /\ j1' = j1) as [-> ->] by (split; congruence).
  rewrite A2 in B2. assert (com' = com /\ j2' = j2) as [-> ->] by (split; congruence). split; auto.
  change (comets_on (with_rates c sun volc rate present)) with (comets_on c).
  destruct (impact_ice_ok c ppf tol df time Hs Hp Hn u k Hu) as (? & ? & Q & L1 & P1). rewrite A1 in Q.
  assert (x = imp) by congruence. subst x.
  destruct (impact_ice_ok (get_comet_cfg c) ppf tol df time (sane_comet _ Hs) Hp Hn u j1 Hu) as (? & ? & Q' & L2 & P2). rewrite A2 in Q'.
  assert (x = com) by congruence. subst x.
  pose proof (solar_mono c sun volc rate present table time sw sw' Hs Hsun2 Hon A3 B3) as S3.
  destruct (comets_on c); repeat apply vadd_mono; auto using le_same.
Qed.

(** A second configuration that only delivers more. *)
Lemma ice_mono_gen c c2 ppf tol table bhop bhop2 names df time u k r k1 r2 k2 :
  hop_moores c2 = hop_moores c -> hop_effcy c2 = hop_effcy c -> use_volc_dep c2 = use_volc_dep c -> volc_dep_effcy c2 = volc_dep_effcy c ->
  sane c -> sun_sane c table -> volc_sane c ->
  (forall p k1 p2 k2, get_polar_ice c ppf tol table df time u k = Ok (p, k1) -> get_polar_ice c2 ppf tol table df time u k = Ok (p2, k2) ->
     Forall2 (fun x y => 0 <= x <= y) p p2 /\ k2 = k1) ->
  (forall v v2, get_volcanic_ice c time = Ok v -> get_volcanic_ice c2 time = Ok v2 -> Forall2 (fun x y => 0 <= x <= y) v v2) ->
  (hop_moores c = true -> forall n, In n names -> exists h h2, bhop n = Some h /\ bhop2 n = Some h2 /\ 0 <= h <= h2) ->
  ppf_support ppf -> draws u -> time <> [] ->
  get_ice_cols_time c ppf tol table bhop names df time u k = Ok (r, k1) ->
  get_ice_cols_time c2 ppf tol table bhop2 names df time u k = Ok (r2, k2) ->
  k2 = k1 /\ length r = length time /\ length r2 = length time /\
  forall i j x x2, cell_is r i j x -> cell_is r2 i j x2 -> 0 <= x <= x2.
Proof.
  intros Em Ee Eu Ed Hs Hsun Hv Hpol Hvol Hh Hp Hu Hn E F.
  unfold get_ice_cols_time in E, F.
  apply rbind_ok in E as (p & j1 & A1 & E). apply rbind_ok in E as (v & j2 & A2 & E).
  apply lift_ok in A2 as [A2 ->]. apply lift_ok in E as [E ->].
  apply rbind_ok in F as (p2 & j1' & B1 & F). apply rbind_ok in F as (v2 & j2' & B2 & F).
  apply lift_ok in B2 as [B2 ->]. apply lift_ok in F as [F ->].
  destruct (Hpol p j1 p2 j1' A1 B1) as [P ->].
  pose proof (Hvol v v2 A2 B2) as V.
  destruct (polar_ok c ppf tol table df time Hs Hsun Hp Hn u k Hu) as (p' & kp & Q & LP & _). rewrite A1 in Q.
  assert (p' = p) by congruence. subst p'. clear Q.
  destruct (volc_ok c time Hs Hv) as (v' & Q & LV & _). rewrite A2 in Q. assert (v' = v) by congruence. subst v'. clear Q.
  apply Forall2_nth_error in P as [P1 P2]. apply Forall2_nth_error in V as [V1 V2].
  destruct (distribute_spec c bhop names p v) as (r' & Q & LR & D); [congruence| |].
  { intros M n Hin. destruct (Hh M n Hin) as (h & ? & ? & _). eauto. }
  rewrite E in Q. assert (r' = r) by congruence. subst r'. clear Q.
  destruct (distribute_spec c2 bhop2 names p2 v2) as (r' & Q & LR2 & D2); [congruence| |].
  { intros M n Hin. rewrite Em in M. destruct (Hh M n Hin) as (? & h & ? & ? & _). eauto. }
  rewrite F in Q. assert (r' = r2) by congruence. subst r'. clear Q.
  split; auto. split; [congruence|]. split; [congruence|].
  intros i j x x2 (row & X1 & X2) (row2 & Y1 & Y2).
  assert (Li : (i < length p)%nat) by (rewrite <- LR; apply nth_error_Some; congruence).
  destruct (nth_error p i) as [pi|] eqn:Q1; [|apply nth_error_None in Q1; lia].
  destruct (nth_error v i) as [vi|] eqn:Q2; [|apply nth_error_None in Q2; lia].
  destruct (nth_error p2 i) as [pi2|] eqn:Q3; [|apply nth_error_None in Q3; lia].
  destruct (nth_error v2 i) as [vi2|] eqn:Q4; [|apply nth_error_None in Q4; lia].
  destruct (nth_error names j) as [n|] eqn:Q5.
  - destruct (D i j pi vi n Q1 Q2 Q5) as (row' & x' & Z1 & _ & Z2 & Z3).
    destruct (D2 i j pi2 vi2 n Q3 Q4 Q5) as (row2' & x2' & W1 & _ & W2 & W3).
    rewrite X1 in Z1. injection Z1 as <-. rewrite X2 in Z2. injection Z2 as <-.
    rewrite Y1 in W1. injection W1 as <-. rewrite Y2 in W2. injection W2 as <-.
    cbv zeta in Z3, W3. rewrite Z3, W3.
    rewrite Em, Ee, Eu, Ed.
    pose proof (P2 i pi pi2 Q1 Q3) as HP. pose proof (V2 i vi vi2 Q2 Q4) as HV.
    assert (H0 : 0 < / hop_effcy c) by (destruct Hs; now apply Rinv_0_lt_compat).
    assert (Hd0 : 0 <= volc_dep_effcy c / hop_effcy c) by (destruct Hv as (_ & _ & _ & _ & _ & _ & ?); apply Rmult_le_pos; lra).
    assert (HH : 0 <= (if hop_moores c then match bhop n with Some h => h / hop_effcy c | None => 0 end else 1)
                 <= (if hop_moores c then match bhop2 n with Some h => h / hop_effcy c | None => 0 end else 1)).
    { destruct (hop_moores c); [|lra]. destruct (Hh eq_refl n (nth_error_In _ _ Q5)) as (h & h2 & -> & -> & ?).
      unfold Rdiv. nra. }
    set (g := if hop_moores c then match bhop n with Some h => h / hop_effcy c | None => 0 end else 1) in *.
    set (g2 := if hop_moores c then match bhop2 n with Some h => h / hop_effcy c | None => 0 end else 1) in *.
    set (dp := volc_dep_effcy c / hop_effcy c) in *. clear - HP HV HH Hd0.
    destruct (use_volc_dep c).
    + assert (g * pi <= g2 * pi2) by (apply Rmult_le_compat; lra).
      assert (vi * dp <= vi2 * dp) by (apply Rmult_le_compat_r; lra).
      assert (0 <= g * pi) by (apply Rmult_le_pos; lra). assert (0 <= vi * dp) by (apply Rmult_le_pos; lra). lra.
    + assert (g * (pi + vi) <= g2 * (pi2 + vi2)) by (apply Rmult_le_compat; lra).
      assert (0 <= g * (pi + vi)) by (apply Rmult_le_pos; lra). lra.
  - exfalso. apply nth_error_None in Q5.
    destruct (ice_cols_ok c ppf tol table bhop names df time Hs Hsun Hv Hp Hn) with (u := u) (k := k) as (rr & kk & G1 & _ & G2); auto.
    { intros M n Hin. destruct (Hh M n Hin) as (h & ? & ? & _ & ?). exists h. split; auto. lra. }
    unfold get_ice_cols_time, rbind, lift in G1. rewrite A1 in G1. cbn [bind] in G1. rewrite A2 in G1. cbn [bind] in G1.
    rewrite E in G1. cbn [bind] in G1. assert (rr = r) by congruence. subst rr.
    destruct (Forall_nth_error _ _ _ _ G2 X1) as [G3 _]. apply nth_error_None in Q5.
    assert ((j < length row)%nat) by (apply nth_error_Some; congruence).
    apply nth_error_None in Q5. lia.
Qed.

Lemma ice_mono c sun volc rate present ppf tol table bhop bhop2 names df time u k r k1 r2 k2 :
  sane c -> sun_sane c table -> sun_sane (with_rates c sun volc rate present) table -> (solar_wind_on c = true -> sun = true) ->
  volc_sane c -> volc_total_vol c <= volc ->
  (hop_moores c = true -> forall n, In n names -> exists h h2, bhop n = Some h /\ bhop2 n = Some h2 /\ 0 <= h <= h2) ->
  ppf_support ppf -> draws u -> time <> [] ->
  get_ice_cols_time c ppf tol table bhop names df time u k = Ok (r, k1) ->
  get_ice_cols_time (with_rates c sun volc rate present) ppf tol table bhop2 names df time u k = Ok (r2, k2) ->
  k2 = k1 /\ length r = length time /\ length r2 = length time /\
  forall i j x x2, cell_is r i j x -> cell_is r2 i j x2 -> 0 <= x <= x2.
Proof.
  intros Hs Hsun Hsun2 Hon Hv Hvol Hh Hp Hu Hn E F.
  apply (ice_mono_gen c (with_rates c sun volc rate present) ppf tol table bhop bhop2 names df time u k r k1 r2 k2); auto.
  - intros. eapply polar_mono; eauto.
  - intros. eapply volc_mono; eauto.
Qed.

Lemma overturn_mono c sun volc rate present time :
  0 <= timestep c -> 0 <= overturn_slope c -> rate <= ice_erosion_rate c -> present <= overturn_present c ->
  Forall2 (fun a b => b <= a) (overturn_depth_time c time) (overturn_depth_time (with_rates c sun volc rate present) time).
Proof.
  intros Ht Hs Hr Hp. induction time as [|t time IH].
  - unfold overturn_depth_time. cbn [costello with_rates]. destruct (costello c); constructor.
  - unfold overturn_depth_time, overturn_depth_costello_time in *.
    cbn [costello with_rates overturn_present overturn_slope overturn_t0 ice_erosion_rate timestep] in *.
    destruct (costello c); cbn [map]; constructor; auto.
    + cbv zeta. rcase (overturn_t0 c) t A; [|lra]. assert (0 <= overturn_slope c * (t - overturn_t0 c)) by (apply Rmult_le_pos; lra). nra.
    + assert (0 <= timestep c / 10000000) by lra. nra.
Qed.

Lemma column_cell {A} (m : list (list A)) j col i x : column m j = Ok col -> nth_error col i = Some x -> cell_is m i j x.
Proof.
  intros H Hx. destruct (column_nth _ _ _ H) as [L N]. specialize (N i). destruct (nth_error m i) as [row|] eqn:E.
  - destruct N as (v & V1 & V2). assert (v = x) by congruence. subst v. exists row. auto.
  - apply nth_error_None in E. rewrite <- L in E. apply nth_error_None in E. congruence.
Qed.

Lemma steps_total_mono (f : R -> R) thick span : (forall x y, x <= y -> f x <= f y) -> f 0 = 0 ->
  (forall t i e s i2 e2 s2, span (t, i, e, s) = span (t, i2, e2, s2)) ->
  forall time ice ice2 ej src, Forall2 (fun x y => 0 <= x <= y) ice ice2 ->
  Rsum (map (fun '(_, i, _, _) => f i)
     (filter (fun s => span s && visible thick s) (combine (combine (combine time ice) ej) src)))
  <= Rsum (map (fun '(_, i, _, _) => f i)
     (filter (fun s => span s && visible thick s) (combine (combine (combine time ice2) ej) src))).
Proof.
  intros M Z Sp time ice ice2 ej src H. revert time ej src.
  induction H as [|x y ice ice2 Hx H IH]; intros time ej src; [destruct time; cbn; lra|].
  destruct time as [|t time]; [cbn; lra|]. destruct ej as [|e ej]; [cbn; lra|]. destruct src as [|s src]; [cbn; lra|].
  cbn [combine filter]. specialize (IH time ej src). rewrite (Sp t x e s y e s).
  assert (V : visible thick (t, x, e, s) = true -> visible thick (t, y, e, s) = true).
  { cbn. destruct (Rltb thick e); [rewrite !orb_true_r; auto|]. rewrite !orb_false_r. rewrite !Rltb_true. lra. }
  assert (P : 0 <= f y) by (rewrite <- Z; apply M; lra). assert (Q : f x <= f y) by (apply M; lra).
  destruct (span (t, y, e, s)); cbn [andb]; [|exact IH].
  destruct (visible thick (t, x, e, s)).
  - rewrite (V eq_refl). cbn [map]. rewrite !Rsum_cons. lra.
  - destruct (visible thick (t, y, e, s)); cbn [map]; rewrite ?Rsum_cons; lra.
Qed.

Lemma main_mono_gen c i2 b hop ppf sort craters basins u k out k1 out2 k2 :
  let c2 := with_settings c i2 b hop in
  ice_sane c -> bsed_sane c -> ppf_support ppf -> sorts_by_age sort -> draws u ->
  NoDup (r_names c) -> NoDup (map w_name (craters ++ basins)) -> keeps_order (r_rnd c) ->
  get_crater_basin_list c2 = get_crater_basin_list c -> crat i2 = crat (r_i c) -> costello i2 = costello (r_i c) ->
  (forall df time j ice l ice2 l2, time <> [] ->
     get_ice_cols_time (r_i c) ppf (r_tol c) (r_lum c) (r_bhop c) (r_names c) df time u j = Ok (ice, l) ->
     get_ice_cols_time i2 ppf (r_tol c) (r_lum c) hop (r_names c) df time u j = Ok (ice2, l2) ->
     l2 = l /\ length ice = length time /\ length ice2 = length time /\
     forall i j x x2, cell_is ice i j x -> cell_is ice2 i j x2 -> 0 <= x <= x2) ->
  (forall time, Forall2 (fun a b => b <= a) (overturn_depth_time (r_i c) time) (overturn_depth_time i2 time)) ->
  (b = r_bsed c \/ bsed_on b = false) ->
  main c ppf sort craters basins u k = Ok (out, k1) -> main c2 ppf sort craters basins u k = Ok (out2, k2) ->
  o_time out <> [] ->
  no_less_ice out out2 /\ k2 = k1.
Proof.
  intros c2 Hi Hb Hp Hs Hu N Nr Hk Hlist Hcrat Hcost Hice Hover HB H K Ne.
  apply main_ok in H as (time & df & j1 & dists & d0 & bd & bf & d1 & H1 & H2 & H3 & H4 & H5 & H6 & H7).
  apply main_ok in K as (time2 & df2 & j2 & dists2 & e0 & bd2 & bf2 & e1 & K1 & K2 & K3 & K4 & K5 & K6 & K7).
  change (r_rnd c2) with (r_rnd c) in K1. change (r_start c2) with (r_start c) in K1.
  change (r_end c2) with (r_end c) in K1. change (r_step c2) with (r_step c) in K1.
  rewrite H1 in K1. assert (time2 = time) by congruence. subst time2. clear K1.
  rewrite Hlist in K2. rewrite H2 in K2.
  assert (df2 = df /\ j2 = j1) as [-> ->] by (split; congruence). clear K2.
  change (r_names c2) with (r_names c) in *. change (r_ejthr c2) with (r_ejthr c) in K3.
  change (r_basinthr c2) with (r_basinthr c) in K3. rewrite H3 in K3.
  assert (dists2 = dists) by congruence. subst dists2. clear K3.
  pose proof (list_nodup _ _ _ _ _ _ _ _ _ Hs H2 Nr) as Nd.
  destruct (format_ok c d1 time df out N Nd H7) as (Et & F1 & F2 & _ & F). 
  destruct (format_ok c2 e1 time df out2 N Nd K7) as (Et2 & G1 & G2 & _ & G).
  change (r_names c2) with (r_names c) in *. rewrite Et in *.
  destruct (dists_ok _ _ _ _ _ ltac:(rewrite site_names; exact Nd) H3) as (Ld & Fd & Rd).
  assert (Ld' : length dists = length (map site_of df)) by now rewrite map_length in *.
  destruct (init_ok c ppf time df dists u j1 d0 k1 N H4) as (ej & src & ice & I1 & I2 & I3 & I4).
  destruct (init_ok c2 ppf time df dists u j1 e0 k2 N K4) as (ej2 & src2 & ice2 & J1 & J2 & J3 & J4).
  change (r_i c2) with i2 in *. rewrite Hcrat in *. rewrite Hcost in K6. change (r_min c2) with (r_min c) in *.
  change (r_tol c2) with (r_tol c) in *. change (r_names c2) with (r_names c) in *.
  rewrite I1 in J1. assert (ej2 = ej /\ src2 = src) as [-> ->] by (split; congruence). clear J1.
  destruct Hi as [Si Su Sv Sh].
  destruct (Hice _ _ _ _ _ _ _ Ne I2 J2) as (-> & Li & Li2 & Cells).
  split; auto.
  destruct (bsed_run c time (map site_of df) dists Hb Ne Ld' Fd Rd) as (bd' & bf' & B1 & Lb1 & Lb2 & _ & _ & B2).
  rewrite H5 in B1. assert (bf' = bf) by congruence. subst bf'. assert (bd' = bd) by congruence. subst bd'. clear B1.
  assert (Hsed : forall t j a f a2 f2, get2 (map (map or_zero) bd) t j = Ok a -> get2 (map (map or_zero) bf) t j = Ok f ->
    get2 (map (map or_zero) bd2) t j = Ok a2 -> get2 (map (map or_zero) bf2) t j = Ok f2 ->
    a2 <= Rmax 0 a /\ 0 <= f2 <= f /\ f <= 1).
  { intros t j a f a2 f2 Q1 Q2 Q3 Q4.
    assert (Ff : 0 <= f <= 1).
    { unfold get2, bind in Q2. destruct (get _ t) as [row|] eqn:Er in Q2; [|discriminate]. apply get_Ok in Er, Q2.
      pose proof (Forall_nth_error _ _ _ _ B2 Er) as B3. exact (Forall_nth_error _ _ _ _ B3 Q2). }
    destruct HB as [->|Off].
    - change (r_bsed c2) with (r_bsed c) in K5. change (r_melt c2) with (r_melt c) in K5.
      change (r_min c2) with (r_min c) in K5. change (r_tol c2) with (r_tol c) in K5.
      rewrite H5 in K5. assert (bd2 = bd /\ bf2 = bf) as [-> ->] by (split; congruence).
      rewrite Q1 in Q3. rewrite Q2 in Q4. assert (a2 = a) by congruence. assert (f2 = f) by congruence. subst.
      pose proof (Rmax_r 0 a). lra.
    - change (r_bsed c2) with b in K5.
      destruct (bsed_off (crat (r_i c)) b (r_melt c2) (r_min c2) (r_tol c2) (length (r_names c)) time (map site_of df) dists Off) as (z & E & _ & Fz).
      change (get_bsed_depth (crat (r_i c)) b (r_melt c2) (r_min c2) (r_tol c2) (length (r_names c)) time (map site_of df) dists = Ok (bd2, bf2)) in K5.
      rewrite E in K5. assert (bd2 = z /\ bf2 = z) as [-> ->] by (split; congruence).
      assert (Z0 : forall v, get2 (map (map or_zero) z) t j = Ok v -> v = 0).
      { intros v Hv. unfold get2, bind in Hv. destruct (get _ t) as [row|] eqn:Er in Hv; [|discriminate]. apply get_Ok in Er, Hv.
        rewrite nth_error_map in Er. destruct (nth_error z t) as [r0|] eqn:Ez; [|discriminate]. cbn [option_map] in Er.
        assert (map or_zero r0 = row) by congruence. subst row. rewrite (Forall_nth_error _ _ _ _ Fz Ez) in Hv.
        apply nth_error_In in Hv. apply in_map_iff in Hv as (o & <- & Ho). apply repeat_spec in Ho. now subst o. }
      apply Z0 in Q3, Q4. subst. pose proof (Rmax_l 0 a). lra. }
  assert (Over : Forall2 (fun a b => b <= a) (overturn_depth_time (r_i c) time) (overturn_depth_time i2 time)) by apply Hover.
  assert (Lo : length (overturn_depth_time (r_i c) time) = length time).
  { unfold overturn_depth_time, overturn_depth_costello_time. destruct (costello (r_i c)); apply map_length. }
  assert (Col : forall j n, nth_error (r_names c) j = Some n -> exists x y s x2,
    column ej j = Ok y /\ lookup d0 n = Ok (mk_strat x y s) /\ lookup e0 n = Ok (mk_strat x2 y s) /\
    Forall2 (fun a b => 0 <= a <= b) x x2 /\ length x = length time /\ length y = length time).
  { intros j n Hj. destruct (I4 j n Hj) as (x & y & s & X1 & X2 & X3 & X4). destruct (J4 j n Hj) as (x2 & y2 & s2 & Y1 & Y2 & Y3 & Y4).
    rewrite X2 in Y2. assert (y2 = y) by congruence. subst y2. rewrite X3 in Y3. assert (s2 = s) by congruence. subst s2.
    destruct (column_nth _ _ _ X1) as [L1 _]. destruct (column_nth _ _ _ Y1) as [L2 _]. destruct (column_nth _ _ _ X2) as [L3 _].
    destruct (ejecta_shape (crat (r_i c)) (r_min c) (r_tol c) (length (r_names c)) time (map site_of df) dists Ne Ld' Fd) as (ej' & src' & E1' & Le & _ & _).
    rewrite I1 in E1'. assert (ej' = ej) by congruence. subst ej'.
    exists x, y, s, x2. repeat (split; [assumption|]). split; [|split; congruence].
    apply Forall2_nth_error. split; [congruence|]. intros i p q Hp' Hq. apply (Cells i j); eapply column_cell; eauto. }
  assert (Fin : forall j n, nth_error (r_names c) j = Some n -> exists x x2 y s,
    lookup d1 n = Ok (mk_strat x y s) /\ lookup e1 n = Ok (mk_strat x2 y s) /\ Forall2 (fun a b => 0 <= a <= b) x x2).
  { intros j n Hj. destruct (Col j n Hj) as (x & y & s & x2 & C0 & C1 & C2 & C3 & C4 & C5).
    destruct (update_mono (costello (r_i c)) (r_shield c) (r_shield c) (r_names c) j n d0 e0 (mk_strat x y s) (mk_strat x2 y s)
      (overturn_depth_time (r_i c) time) (overturn_depth_time i2 time) (map (map or_zero) bd) (map (map or_zero) bf)
      (map (map or_zero) bd2) (map (map or_zero) bf2) d1 e1) as (r & r2 & R1 & R2 & R3); auto; cbn [s_ice s_ej].
    - lra.
    - congruence.
    - congruence.
    - clear. induction y; constructor; auto. lra.
    - intros t a f a2 f2. apply Hsed.
    - exists r, r2, y, s. auto. }
  unfold no_less_ice. split; [congruence|]. split; [congruence|]. split; [congruence|].
  assert (At : forall V (l : list (string * V)) n v, map fst l = r_names c -> In (n, v) l ->
    exists j, nth_error (r_names c) j = Some n /\ nth_error l j = Some (n, v)).
  { intros V l n v Hm Hin. apply In_nth_error in Hin as [j Hj]. exists j. split; auto. rewrite <- Hm, nth_error_map, Hj. reflexivity. }
  assert (Uniq : forall j j' n, nth_error (r_names c) j = Some n -> nth_error (r_names c) j' = Some n -> j = j').
  { intros j j' n Q1 Q2. rewrite NoDup_nth_error in N. apply N; [apply nth_error_Some; congruence|congruence]. }
  split.
  - intros n x x2 Hx Hx2. destruct (At _ _ _ _ F2 Hx) as (j & A1 & A2). destruct (At _ _ _ _ G2 Hx2) as (j' & A1' & A2').
    rewrite (Uniq j' j n A1' A1) in A2'. destruct (Fin j n A1) as (y & y2 & e & s & D1 & D2 & D3).
    destruct (F j n A1) as (r & s' & l & _ & _ & P1 & _ & _ & P2 & _). rewrite D1 in P1.
    destruct (G j n A1) as (r2 & s2' & l2 & _ & _ & P3 & _ & _ & P4 & _). rewrite D2 in P3.
    rewrite P2 in A2. rewrite P4 in A2'. 
    assert (s_ice s' = x) by congruence. assert (s_ice s2' = x2) by congruence.
    assert (y = x) by (assert (mk_strat y e s = s') by congruence; subst; reflexivity).
    assert (y2 = x2) by (assert (mk_strat y2 e s = s2') by congruence; subst; reflexivity). subst.
    clear -D3. induction D3; constructor; auto. lra.
  - intros n l l2 Hl Hl2. destruct (At _ _ _ _ F1 Hl) as (j & A1 & A2). destruct (At _ _ _ _ G1 Hl2) as (j' & A1' & A2').
    rewrite (Uniq j' j n A1' A1) in A2'. destruct (Fin j n A1) as (y & y2 & e & s & D1 & D2 & D3).
    destruct (F j n A1) as (r & s' & l' & M1 & M2 & P1 & P2 & P3 & _). rewrite D1 in P1.
    destruct (G j n A1) as (r2 & s2' & l2' & M3 & M4 & Q1 & Q2 & Q3 & _). rewrite D2 in Q1.
    assert (l' = l) by congruence. assert (l2' = l2) by congruence.
    assert (s' = mk_strat y e s) by congruence. assert (s2' = mk_strat y2 e s) by congruence. subst l' l2' s' s2'.
    assert (r2 = r).
    { assert (W : forall (q : list (crater info)), NoDup (names_of q) -> In r q -> In r2 q -> r2 = r).
      { clear -M2 M4. induction q as [|a q IH]; intros Nq X1 X2; [destruct X1|]. unfold names_of in *. cbn [map] in Nq.
        inversion Nq as [|? ? Na Nq']; subst. destruct X1 as [->|X1], X2 as [->|X2]; auto; exfalso; apply Na; apply in_map_iff; eauto. }
      apply (W df); auto. }
    subst r2.
    destruct (strat_totals _ _ _ _ _ _ _ P2) as [T1 _]. destruct (strat_totals _ _ _ _ _ _ _ Q2) as [T2 _].
    rewrite T1, T2. destruct Hk as [Hk1 Hk0]. unfold steps_of. cbn [s_ice s_ej s_src].
    apply (steps_total_mono (r_rnd c) (r_min c) (in_span (r_rnd c) (r_tol c) (r_after_age c) (c_age r))); auto.
Qed.

Lemma main_mono c sun volc rate present b hop ppf sort craters basins u k out k1 out2 k2 :
  let i2 := with_rates (r_i c) sun volc rate present in
  let c2 := with_settings c i2 b hop in
  ice_sane c -> bsed_sane c -> ppf_support ppf -> sorts_by_age sort -> draws u ->
  NoDup (r_names c) -> NoDup (map w_name (craters ++ basins)) -> keeps_order (r_rnd c) ->
  sun_sane i2 (r_lum c) -> (solar_wind_on (r_i c) = true -> sun = true) -> volc_total_vol (r_i c) <= volc ->
  rate <= ice_erosion_rate (r_i c) -> present <= overturn_present (r_i c) -> 0 <= overturn_slope (r_i c) ->
  (b = r_bsed c \/ bsed_on b = false) ->
  (hop_moores (r_i c) = true -> forall n, In n (r_names c) ->
     exists h h2, r_bhop c n = Some h /\ hop n = Some h2 /\ h <= h2) ->
  main c ppf sort craters basins u k = Ok (out, k1) -> main c2 ppf sort craters basins u k = Ok (out2, k2) ->
  o_time out <> [] ->
  no_less_ice out out2 /\ k2 = k1.
Proof.
  intros i2 c2 Hi Hb Hp Hs Hu N Nr Hk Hsun Hon Hvol Hrate Hpres Hslope HB Hhop H K Ne.
  apply (main_mono_gen c i2 b hop ppf sort craters basins u k out k1 out2 k2); auto; destruct Hi as [Si Su Sv Sh].
  - intros df time j ice l ice2 l2 Nt A B.
    apply (ice_mono (r_i c) sun volc rate present ppf (r_tol c) (r_lum c) (r_bhop c) hop (r_names c) df time u j ice l ice2 l2); auto.
    intros M n Hin. destruct (Hhop M n Hin) as (h & h2 & P & Q & C). exists h, h2. destruct (Sh M n Hin) as (h' & P' & ?).
    rewrite P in P'. assert (h' = h) by congruence. subst h'. auto.
  - intros time. apply overturn_mono; auto. apply Si.
Qed.

Lemma column_mono co sh names j c d d2 evs evs2 src src2 bd bf bd2 bf2 e e2 :
  NoDup names -> nth_error names j = Some c ->
  lookup d c = Ok (mk_strat (map ev_ice evs) (map ev_ej evs) src) ->
  lookup d2 c = Ok (mk_strat (map ev_ice evs2) (map ev_ej evs2) src2) ->
  (forall t v, nth_error evs t = Some v -> get2 bd t j = Ok (ev_bsed_depth v) /\ get2 bf t j = Ok (ev_bsed_frac v)) ->
  (forall t v, nth_error evs2 t = Some v -> get2 bd2 t j = Ok (ev_bsed_depth v) /\ get2 bf2 t j = Ok (ev_bsed_frac v)) ->
  Forall2 event_le evs evs2 ->
  update_strat_cols exactR co sh names d (map ev_overturn evs) bd bf = Ok e ->
  update_strat_cols exactR co sh names d2 (map ev_overturn evs2) bd2 bf2 = Ok e2 ->
  exists ice ice2, lookup e c = Ok (mk_strat ice (map ev_ej evs) src) /\
    lookup e2 c = Ok (mk_strat ice2 (map ev_ej evs2) src2) /\
    Forall2 (fun x x2 => 0 <= x <= x2) ice ice2.
Proof.
  intros N Hj H1 H2 B1 B2 HF U1 U2.
  exists (ice_of (simulate exactR co sh evs)), (ice_of (simulate exactR co sh evs2)).
  split; [eapply update_is_simulation; eauto|]. split; [eapply update_is_simulation; eauto|].
  apply stack_le_ice, simulate_mono; auto. lra.
Qed.

Lemma column_case o x : 1 < o < 3 -> x = 2 - (o - 1) ->
  update_strat_cols exactR true 1 ["A"%string] [("A"%string, mk_strat [2] [1] [""%string])] [o] [[0]] [[0]]
  = Ok [("A"%string, mk_strat [x] [1] [""%string])].
Proof.
  intros H ->. cbv -[Rltb Rplus Rmult Rminus IZR Ropp].
  rewrite (proj2 (Rltb_true 0 o)) by lra. rewrite (proj2 (Rltb_true (0 + 1) o)) by lra.
  rewrite (proj2 (Rltb_true o (0 + 1 + 2 * 1))) by lra. replace (o - (0 + 1)) with (o - 1) by lra. reflexivity.
Qed.
