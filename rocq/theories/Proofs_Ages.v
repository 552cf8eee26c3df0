(** Proofs about the figures of ages. *)
From Coq Require Import String List ZArith Reals Lia Lra Bool Permutation Sorted.
From Verif Require Import Base Model_Time Model_Geo Model_Crater Model_Ice Model_Rng Model_Strat Model_Main Model_Basin Model_Ages
  Spec_Time Spec_Geo Spec_Ice Spec_Main Spec_Basin Spec_Ages
  Proofs_Base Proofs_Time Proofs_Geo Proofs_Ice Proofs_Rng Proofs_Main Proofs_Basin.
Import ListNotations.
Open Scope R_scope.

(** ** Sorting of bars *)
Lemma bar_leb_true a b : bar_leb a b = true <-> below a b.
Proof.
  unfold bar_leb, below. rewrite orb_true_iff, andb_true_iff, Rltb_true, Rleb_true. unfold Reqb.
  destruct (Req_EM_T (b_age a) (b_age b)); intuition; discriminate.
Qed.
Lemma bar_leb_false a b : bar_leb a b = false -> below b a.
Proof.
  intros H. destruct (Rtotal_order (b_age a) (b_age b)) as [L|[E|G]].
  - assert (bar_leb a b = true) by (apply bar_leb_true; left; exact L). congruence.
  - destruct (Rle_lt_dec (b_upp a) (b_upp b)) as [U|U].
    + assert (bar_leb a b = true) by (apply bar_leb_true; right; auto). congruence.
    + right. split; [auto|lra].
  - now left.
Qed.
Lemma below_trans a b d : below a b -> below b d -> below a d.
Proof. unfold below. lra. Qed.
Lemma insert_bar_perm a l : Permutation (insert_bar a l) (a :: l).
Proof.
  induction l as [|b l IH]; cbn [insert_bar]; [reflexivity|]. destruct (bar_leb a b); [reflexivity|].
  rewrite IH. apply perm_swap.
Qed.
Lemma sort_bars_perm l : Permutation (sort_bars l) l.
Proof. induction l as [|a l IH]; cbn [sort_bars fold_right]; [reflexivity|]. fold (sort_bars l). rewrite insert_bar_perm. now apply perm_skip. Qed.
Lemma insert_bar_sorted a l : StronglySorted below l -> StronglySorted below (insert_bar a l).
Proof.
  induction 1 as [|b l S IH F]; cbn [insert_bar]; [repeat constructor|].
  destruct (bar_leb a b) eqn:E.
  - apply bar_leb_true in E. constructor; [constructor; auto|]. constructor; [auto|].
    eapply Forall_impl; [|exact F]. intros d. now apply below_trans.
  - apply bar_leb_false in E. constructor; [auto|]. eapply Permutation_Forall; [symmetry; apply insert_bar_perm|]. constructor; auto.
Qed.
Lemma sort_bars_sorted l : StronglySorted below (sort_bars l).
Proof. induction l as [|a l IH]; cbn [sort_bars fold_right]; [constructor|]. now apply insert_bar_sorted. Qed.

(** ** The names *)
Section Names.
  Variable c : rcfg.

  (** Ejecta of the row [r] at the cold trap [n] of the list [df]. *)
  Definition onto (df : list (crater info)) (r : crater info) (n : string) : R :=
    match filter (fun d => String.eqb (d_name (c_rest d)) n) df with [dst] => ejecta_at c dst r | _ => 0 end.
  Definition label (df : list (crater info)) (r : crater info) : string :=
    if existsb (fun n => Rltb 0 (onto df r n)) (r_names c) && d_basin (c_rest r) then append "*" (d_name (c_rest r)) else d_name (c_rest r).
  Definition the_bar (df : list (crater info)) (r : crater info) : bar :=
    mk_bar (label df r) (c_age r / 1000000000) (c_low r / 1000000000) (c_upp r / 1000000000).

  Lemma filter_site df n : filter (fun s => String.eqb (s_name s) n) (map site_of df) = map site_of (filter (fun d => String.eqb (d_name (c_rest d)) n) df).
  Proof. induction df as [|a df IH]; [reflexivity|]. cbn [map filter site_of s_name]. destruct (String.eqb _ n); cbn [map]; rewrite IH; reflexivity. Qed.

  Lemma onto_dist df r n o : NoDup (names_of df) -> 0 <= d_rad (c_rest r) ->
    coldtrap_dist (r_ejthr c) (r_basinthr c) (map site_of df) (site_of r) n = Ok o ->
    get_ejecta_thickness (crat (r_i c)) o (s_rad (site_of r)) = onto df r n.
  Proof.
    intros N R0 Eo. unfold onto. unfold coldtrap_dist in Eo. rewrite filter_site in Eo.
    pose proof (filter_name_unique (fun d => d_name (c_rest d)) n df N) as F.
    destruct (filter (fun d => String.eqb (d_name (c_rest d)) n) df) as [|dst [|? ?]]; [| |destruct F]; cbn [map] in Eo.
    - destruct (String.eqb _ n) in Eo; assert (o = None) by congruence; subst o; apply thick_none.
    - destruct F as [Hd F2]. unfold ejecta_at. cbn [site_of s_name s_lon s_lat s_plon s_plat s_rad s_basin] in *.
      rewrite F2. cbv zeta. destruct (String.eqb _ n); [assert (o = None) by congruence; subst o; apply thick_none|].
      unfold default_rp in Eo. set (d := gc_dist 1737400 _ _ _ _) in *. unfold below_limit, ej_limit in Eo.
      cbn [site_of s_basin s_rad] in Eo. set (reach := if d_basin (c_rest r) then r_basinthr c else r_ejthr c) in *. cbv zeta in Eo.
      destruct (Rltb (d_rad (c_rest r)) d) eqn:Er; cbn [andb] in *; [|assert (o = None) by congruence; subst o; apply thick_none].
      apply Rltb_true in Er. assert (Z : Rleb d 0 = false) by (apply Rleb_false; lra). rewrite Z in Eo.
      destruct (Rltb reach 0); cbn [orb] in *; [assert (o = Some d) by congruence; subst o; reflexivity|].
      destruct (Rltb d _); [assert (o = Some d) by congruence; subst o; reflexivity|assert (o = None) by congruence; subst o; apply thick_none].
  Qed.

  Lemma thick_rows df dists : NoDup (names_of df) -> Forall (fun r => 0 <= d_rad (c_rest r)) df ->
    get_coldtrap_dists (r_ejthr c) (r_basinthr c) (r_names c) (map site_of df) = Ok dists ->
    get_ejecta_thickness_matrix (crat (r_i c)) (map s_rad (map site_of df)) dists = map (fun r => map (onto df r) (r_names c)) df.
  Proof.
    intros N F. unfold get_coldtrap_dists. unfold get_ejecta_thickness_matrix.
    assert (G : forall l ds, Forall (fun r => 0 <= d_rad (c_rest r)) l ->
      mapM (fun s => mapM (coldtrap_dist (r_ejthr c) (r_basinthr c) (map site_of df) s) (r_names c)) (map site_of l) = Ok ds ->
      map (fun '(r, row) => map (fun d => get_ejecta_thickness (crat (r_i c)) d r) row) (combine (map s_rad (map site_of l)) ds)
      = map (fun r => map (onto df r) (r_names c)) l).
    { induction l as [|r l IH]; intros ds Fl E; cbn [map mapM] in E.
      - assert (ds = []) by congruence. subst ds. reflexivity.
      - inversion Fl as [|? ? Fr Fl']; subst. destruct (mapM _ (r_names c)) as [row|] eqn:Er in E; [|discriminate]. cbn [bind] in E.
        destruct (mapM _ (map site_of l)) as [ds'|] eqn:El in E; [|discriminate]. cbn [bind] in E.
        assert (ds = row :: ds') by congruence. subst ds. cbn [map combine]. rewrite (IH ds' Fl' El). f_equal.
        clear - Er N Fr. revert row Er. induction (r_names c) as [|n ns IHn]; intros row Er; cbn [mapM] in Er.
        + assert (row = []) by congruence. subst row. reflexivity.
        + destruct (coldtrap_dist _ _ _ _ n) as [o|] eqn:Eo in Er; [|discriminate]. cbn [bind] in Er.
          destruct (mapM _ ns) as [row'|] eqn:En in Er; [|discriminate]. cbn [bind] in Er.
          assert (row = o :: row') by congruence. subst row. cbn [map]. rewrite (IHn row' En). f_equal. now apply onto_dist. }
    intros E. apply G; auto.
  Qed.

  Lemma existsb_map {A B} (f : A -> B) p l : existsb p (map f l) = existsb (fun x => p (f x)) l.
  Proof. induction l as [|a l IH]; cbn [map existsb]; [reflexivity|now rewrite IH]. Qed.
  Lemma names_rows df : r_names c <> [] -> forall l,
    mapM (fun '(r, t) => star_name r t) (combine l (map (fun r => map (onto df r) (r_names c)) l)) = Ok (map (label df) l).
  Proof.
    intros Ne. induction l as [|r l IH]; [reflexivity|]. cbn [map combine mapM].
    assert (star_name r (map (onto df r) (r_names c)) = Ok (label df r)) as ->.
    { unfold star_name, label. rewrite existsb_map. destruct (r_names c); [congruence|reflexivity]. }
    cbn [bind]. rewrite IH. reflexivity.
  Qed.
  Lemma combine_self {A B} (f : A -> B) l : combine l (map f l) = map (fun x => (x, f x)) l.
  Proof. induction l as [|a l IH]; cbn [map combine]; [reflexivity|now rewrite IH]. Qed.
  Lemma snd_filter_map {A B} (g : A -> bool * B) (p : bool * B -> bool) l :
    map snd (filter p (map g l)) = map (fun x => snd (g x)) (filter (fun x => p (g x)) l).
  Proof. induction l as [|a l IH]; [reflexivity|]. cbn [map filter]. destruct (p (g a)); cbn [map]; now rewrite IH. Qed.

  (** The figure in one piece. *)
  Lemma bars_form df : NoDup (names_of df) -> Forall (fun r => 0 <= d_rad (c_rest r)) df -> r_names c <> [] ->
    let dc := map (the_bar df) (filter (fun r => negb (d_basin (c_rest r))) df) in
    let db := map (the_bar df) (filter (fun r => d_basin (c_rest r)) df) in
    crater_basin_bars c df =
      let* nec := basin_age db "*Nectaris" in
      let* imb := basin_age db "Imbrium" in
      Ok ([("pNe.", (45 / 10, nec)); ("Ne.", (nec, imb)); ("Im.", (imb, 32 / 10)); ("Era.", (32 / 10, 11 / 10))]%string, sort_bars dc, sort_bars db).
  Proof.
    intros N F Ne dc db. unfold crater_basin_bars.
    destruct (dists_total (r_ejthr c) (r_basinthr c) (r_names c) (map site_of df) ltac:(rewrite site_names; exact N)) as (dists & E & _).
    rewrite E. cbn [bind]. rewrite (thick_rows df dists N F E). rewrite (names_rows df Ne). cbn [bind].
    rewrite combine_self, map_map, !snd_filter_map. reflexivity.
  Qed.
End Names.

(** ** Lines and rows *)
Definition tagged (craters basins : list raw) : list (bool * raw) := map (pair false) craters ++ map (pair true) basins.
Definition row_for (c : rcfg) (t : bool * raw) (r : crater info) : Prop :=
  d_basin (c_rest r) = fst t /\ d_name (c_rest r) = w_name (snd t) /\ d_rad (c_rest r) = w_diam (snd t) * 1000 / 2 /\
  d_lon (c_rest r) = w_lon (snd t) /\ d_lat (c_rest r) = w_lat (snd t) /\
  d_plon (c_rest r) = w_psr_lon (snd t) /\ d_plat (c_rest r) = w_psr_lat (snd t) /\
  c_low r = w_low (snd t) * 1000000000 /\ c_upp r = w_upp (snd t) * 1000000000 /\ age_for c (snd t) (c_age r / 1000000000).

Lemma drawn_age c ppf (x : crater info) w v : ppf_support ppf -> 0 <= v < 1 -> (0 < r_step c)%Z ->
  0 <= w_low w -> 0 <= w_upp w -> 0 < w_low w + w_upp w ->
  c_low x = w_low w * 1000000000 -> c_upp x = w_upp w * 1000000000 -> c_age x = w_age w * 1000000000 ->
  age_for c w (new_age (IZR (r_step c)) x (ppf (trunc_a x) (Some (trunc_b x)) v) / 1000000000).
Proof.
  intros Hp Hv Hst A1 A2 A3 E1' E2' E3'. assert (Tst : 0 < IZR (r_step c)) by (apply (IZR_lt 0); auto).
  destruct (round_to_ts_spec (c_age x + age_sig x * ppf (trunc_a x) (Some (trunc_b x)) v) (IZR (r_step c)) Tst) as (Z1 & Z2 & _).
  assert (Sup : c_age x - c_low x <= c_age x + age_sig x * ppf (trunc_a x) (Some (trunc_b x)) v <= c_age x + c_upp x).
  { apply (age_support x); try lra. eexists. split; [|reflexivity]. apply (Hp (trunc_a x) (Some (trunc_b x)) v Hv).
    unfold trunc_a, trunc_b. assert (0 < age_sig x) by (unfold age_sig; lra).
    apply Rmult_le_compat_r; [left; now apply Rinv_0_lt_compat|lra]. }
  unfold new_age. split.
  - destruct Z1 as [z Hz]. exists z. rewrite Hz. field.
  - unfold Rabs in Z2. destruct (Rcase_abs _) in Z2; lra.
Qed.

Lemma Forall2_map_combine {A B C} (P : A -> C -> Prop) (f : B -> C) (g : A -> B) l : (forall a, In a l -> P a (f (g a))) ->
  Forall2 P l (map f (map g l)).
Proof. induction l as [|a l IH]; intros H; cbn [map]; constructor; [apply H; now left|apply IH; intros; apply H; now right]. Qed.

Lemma list_tagged c ppf sort craters basins u k df k1 : sorts_by_age sort -> ppf_support ppf -> draws u -> (0 < r_step c)%Z ->
  spread (craters ++ basins) -> get_crater_basin_list c ppf sort craters basins u k = Ok (df, k1) ->
  exists rows, Permutation df rows /\ Forall2 (row_for c) (tagged craters basins) rows /\
    map (fun r => c_age r / 1000000000) rows = map (fun '(j, w) => age_from c ppf w (u (k + length basins + j)%nat)) (combine (seq 0 (length (craters ++ basins))) (craters ++ basins)).
Proof.
  intros Hs Hp Hu Hst HF H. apply list_ok in H as (icy & us & Li & Lu & Eu & P); auto. cbv zeta in Lu, P, Eu.
  eexists. split; [exact P|]. clear P. split; cycle 1.
  { rewrite Eu. set (s0 := (k + length basins)%nat). clearbody s0. clear - Li.
    assert (G : forall df0 ws, Forall2 (fun w r => exists b i, r = read_row b i w) ws df0 -> forall m,
      map (fun r => c_age r / 1000000000) (map (fun '(r, v) => set_age r (new_age (IZR (r_step c)) r (ppf (trunc_a r) (Some (trunc_b r)) v))) (combine df0 (map u (seq (s0 + m) (length df0)))))
      = map (fun '(j, w) => age_from c ppf w (u (s0 + j)%nat)) (combine (seq m (length ws)) ws)).
    { induction 1 as [|w r ws df0 (b & i & ->) _ IH]; intros m; [reflexivity|]. cbn [length seq map combine]. rewrite plus_n_Sm. rewrite IH. reflexivity. }
    rewrite <- (Nat.add_0_r s0) at 1. apply G. apply Forall2_app.
    - induction craters as [|w l IH]; cbn [map]; constructor; eauto.
    - revert icy Li. induction basins as [|w l IH]; intros [|i icy] Li; try discriminate; cbn [map combine]; [constructor|constructor; [eauto|apply IH; now injection Li]]. }
  assert (Fv : Forall (fun v => 0 <= v < 1) us) by (rewrite Eu; apply Forall_forall; intros v I; apply in_map_iff in I as (i & <- & _); apply Hu).
  clear Eu. unfold tagged.
  assert (G : forall ts df0, Forall2 (fun t r => exists i, r = read_row (fst t) i (snd t)) ts df0 -> spread (map snd ts) ->
    forall us, length us = length df0 -> Forall (fun v => 0 <= v < 1) us ->
    Forall2 (row_for c) ts (map (fun '(r, v) => set_age r (new_age (IZR (r_step c)) r (ppf (trunc_a r) (Some (trunc_b r)) v))) (combine df0 us))).
  { clear - Hp Hst. induction 1 as [|t r ts df0 (i & ->) _ IH]; intros Sp us L Fv; [constructor|].
    destruct us as [|v us]; [discriminate|]. inversion Fv; subst. cbn [map] in Sp. inversion Sp as [|? ? (A1 & A2 & A3) Sp']; subst.
    cbn [combine map]. constructor; [|apply IH; auto].
    unfold row_for. set (x := read_row (fst t) i (snd t)).
    split; [reflexivity|]. split; [reflexivity|]. split; [reflexivity|]. split; [reflexivity|]. split; [reflexivity|]. split; [reflexivity|]. split; [reflexivity|]. split; [reflexivity|]. split; [reflexivity|].
    change (c_age (set_age x ?a)) with a. apply drawn_age; auto. }
  apply G; auto.
  - apply Forall2_app.
    + clear. induction craters as [|w l IH]; cbn [map]; constructor; [exists "no"%string; reflexivity|exact IH].
    + clear - Li. revert icy Li. induction basins as [|w l IH]; intros [|i icy] Li; try discriminate; cbn [map combine]; constructor; [exists i; reflexivity|apply IH; now injection Li].
  - rewrite map_app, !map_map. cbn [snd]. rewrite !map_id. exact HF.
Qed.

Lemma ejecta_row c craters basins df d dst w r : d_basin (c_rest r) = true -> row_for c (true, w) r -> (exists b, row_for c (b, d) dst) -> In dst df -> In d (craters ++ basins) ->
  ejecta_at c dst r = ejecta_at c (read_row false "no" d) (read_row true "no" w).
Proof.
  intros B Rw (b & Rd) _ _. unfold row_for in *. cbn [fst snd] in *.
  destruct Rw as (_ & W1 & W2 & W3 & W4 & _). destruct Rd as (_ & D1 & _ & _ & _ & D5 & D6 & _).
  unfold ejecta_at. rewrite B, W1, W2, W3, W4, D1, D5, D6. reflexivity.
Qed.

Lemma Forall2_in_r {A B} (P : A -> B -> Prop) l l' b : Forall2 P l l' -> In b l' -> exists a, In a l /\ P a b.
Proof. induction 1 as [|x y l l' H _ IH]; intros I; [destruct I|]. destruct I as [<-|I]; [exists x; split; [now left|auto]|]. destruct (IH I) as (a & Ia & Pa). exists a. split; [now right|auto]. Qed.
Lemma Forall2_in_l {A B} (P : A -> B -> Prop) l l' a : Forall2 P l l' -> In a l -> exists b, In b l' /\ P a b.
Proof. induction 1 as [|x y l l' H _ IH]; intros I; [destruct I|]. destruct I as [<-|I]; [exists y; split; [now left|auto]|]. destruct (IH I) as (b & Ib & Pb). exists b. split; [now right|auto]. Qed.
Lemma tagged_in craters basins b w : In (b, w) (tagged craters basins) -> In w (craters ++ basins).
Proof.
  intros I. apply in_app_iff in I. apply in_or_app. destruct I as [I|I]; apply in_map_iff in I as (x & E & I); inversion E; subst; auto.
Qed.
Lemma in_tagged craters basins w : In w (craters ++ basins) -> exists b, In (b, w) (tagged craters basins).
Proof. intros I. apply in_app_iff in I as [I|I]; [exists false|exists true]; apply in_or_app; [left|right]; now apply in_map. Qed.

Lemma label_star c craters basins df rows w r : NoDup (names_of df) -> Permutation df rows ->
  Forall2 (row_for c) (tagged craters basins) rows -> row_for c (true, w) r ->
  throws c craters basins w /\ label c df r = append "*" (w_name w) \/ ~ throws c craters basins w /\ label c df r = w_name w.
Proof.
  intros N P F Rw. assert (B := proj1 Rw). cbn [fst] in B. assert (W := proj1 (proj2 Rw)). cbn [snd] in W.
  unfold label. rewrite B, W, andb_true_r. destruct (existsb _ (r_names c)) eqn:E; [left|right]; (split; [|reflexivity]).
  - apply existsb_exists in E as (n & In_ & Pn). apply Rltb_true in Pn. unfold onto in Pn.
    pose proof (filter_name_unique (fun d => d_name (c_rest d)) n df N) as U.
    destruct (filter (fun d => String.eqb (d_name (c_rest d)) n) df) as [|dst [|? ?]]; [lra| |lra]. destruct U as [Hd Nd].
    assert (Hd' : In dst rows) by (eapply Permutation_in; eauto).
    destruct (Forall2_in_r _ _ _ _ F Hd') as ([b d] & Id & Rd). apply tagged_in in Id.
    exists d. split; [auto|]. assert (Ed : w_name d = n) by (rewrite <- Nd; symmetry; apply Rd). split; [congruence|].
    rewrite <- (ejecta_row c craters basins df d dst w r); eauto.
  - intros (d & Id & In_ & Pd). destruct (in_tagged _ _ _ Id) as (b & Ib). destruct (Forall2_in_l _ _ _ _ F Ib) as (dst & Hd' & Rd).
    assert (Hd : In dst df) by (eapply Permutation_in; [symmetry|]; eauto).
    assert (X : existsb (fun n => Rltb 0 (onto c df r n)) (r_names c) = true); [|congruence].
    apply existsb_exists. exists (w_name d). split; [auto|]. apply Rltb_true. unfold onto.
    assert (Nd : d_name (c_rest dst) = w_name d) by (apply Rd).
    assert (Fu : filter (fun d0 => String.eqb (d_name (c_rest d0)) (w_name d)) df = [dst]).
    { pose proof (filter_name_unique (fun d => d_name (c_rest d)) (w_name d) df N) as U.
      assert (I : In dst (filter (fun d0 => String.eqb (d_name (c_rest d0)) (w_name d)) df)) by (apply filter_In; split; [auto|now apply String.eqb_eq]).
      destruct (filter _ df) as [|x [|? ?]]; [destruct I| |destruct U]. destruct I as [->|[]]. reflexivity. }
    rewrite Fu. rewrite (ejecta_row c craters basins df d dst w r); eauto.
Qed.

Lemma label_crater c df r : d_basin (c_rest r) = false -> label c df r = d_name (c_rest r).
Proof. intros B. unfold label. now rewrite B, andb_false_r. Qed.

Lemma perm_filter {A} (p : A -> bool) l l' : Permutation l l' -> Permutation (filter p l) (filter p l').
Proof.
  induction 1; cbn [filter]; [reflexivity| | |etransitivity; eauto].
  - destruct (p x); [now apply perm_skip|assumption].
  - destruct (p x), (p y); try reflexivity. apply perm_swap.
Qed.

Lemma rows_split c craters basins rows : Forall2 (row_for c) (tagged craters basins) rows ->
  Forall2 (fun w r => row_for c (false, w) r) craters (filter (fun r => negb (d_basin (c_rest r))) rows) /\
  Forall2 (fun w r => row_for c (true, w) r) basins (filter (fun r => d_basin (c_rest r)) rows).
Proof.
  unfold tagged. intros F. apply Forall2_app_inv_l in F as (r1 & r2 & F1 & F2 & ->). rewrite !filter_app.
  assert (A : forall b (l : list raw) rs, Forall2 (row_for c) (map (pair b) l) rs ->
    Forall2 (fun w r => row_for c (b, w) r) l rs /\ Forall (fun r => d_basin (c_rest r) = b) rs).
  { intros b l. induction l as [|w l IH]; intros rs F; cbn [map] in F; inversion F; subst; [split; constructor|].
    destruct (IH _ H3). split; constructor; auto. apply H1. }
  destruct (A _ _ _ F1) as [A1 A2]. destruct (A _ _ _ F2) as [B1 B2].
  assert (K : forall (p : crater info -> bool) l, Forall (fun r => p r = true) l -> filter p l = l).
  { intros p l Hl. induction Hl; cbn [filter]; [reflexivity|]. rewrite H. now f_equal. }
  assert (D : forall (p : crater info -> bool) l, Forall (fun r => p r = false) l -> filter p l = []).
  { intros p l Hl. induction Hl; cbn [filter]; [reflexivity|]. now rewrite H. }
  split.
  - rewrite K, D, app_nil_r; [exact A1| |]; eapply Forall_impl; [|exact B2| |exact A2]; cbn; intros r ->; reflexivity.
  - rewrite D, K; [exact B1| |]; [exact B2|exact A2].
Qed.

Lemma row_bar c w r b name : row_for c (b, w) r -> forall df, label c df r = name -> bar_of c w name (the_bar c df r).
Proof.
  unfold row_for. cbn [fst snd]. intros (_ & _ & _ & _ & _ & _ & _ & L & U & A) df E. constructor; cbn [the_bar b_name b_age b_low b_upp]; auto.
  - rewrite L. field.
  - rewrite U. field.
Qed.

Lemma Forall2_map_r {A B C} (P : A -> C -> Prop) (f : B -> C) l l' : Forall2 (fun a b => P a (f b)) l l' -> Forall2 P l (map f l').
Proof. induction 1; cbn [map]; constructor; auto. Qed.
Lemma Forall2_imp {A B} (P Q : A -> B -> Prop) l l' : (forall a b, P a b -> Q a b) -> Forall2 P l l' -> Forall2 Q l l'.
Proof. intros H. induction 1; constructor; auto. Qed.

(** The panels for any list that a run can have. *)
Lemma filter_partition_rows c craters basins rows : Forall2 (row_for c) (tagged craters basins) rows ->
  filter (fun r => negb (d_basin (c_rest r))) rows ++ filter (fun r => d_basin (c_rest r)) rows = rows.
Proof.
  unfold tagged. intros F. apply Forall2_app_inv_l in F as (r1 & r2 & F1 & F2 & ->). rewrite !filter_app.
  assert (A : forall b (l : list raw) rs, Forall2 (row_for c) (map (pair b) l) rs -> Forall (fun r => d_basin (c_rest r) = b) rs).
  { intros b l. induction l as [|w l IH]; intros rs F; cbn [map] in F; inversion F; subst; constructor; auto. apply H1. }
  apply A in F1, F2.
  assert (K : forall (p : crater info -> bool) l, Forall (fun r => p r = true) l -> filter p l = l).
  { intros p l Hl. induction Hl; cbn [filter]; [reflexivity|]. rewrite H. now f_equal. }
  assert (D : forall (p : crater info -> bool) l, Forall (fun r => p r = false) l -> filter p l = []).
  { intros p l Hl. induction Hl; cbn [filter]; [reflexivity|]. now rewrite H. }
  rewrite (K _ r1), (D _ r2), (D _ r1), (K _ r2), app_nil_r; auto; eapply Forall_impl; eauto; cbn; intros r ->; reflexivity.
Qed.
Lemma panels c ppf sort craters basins u k df k1 : sorts_by_age sort -> ppf_support ppf -> draws u -> (0 < r_step c)%Z ->
  spread (craters ++ basins) -> NoDup (map w_name (craters ++ basins)) -> 
  get_crater_basin_list c ppf sort craters basins u k = Ok (df, k1) ->
  ages_figure c ppf craters basins (fun j => u (k + length basins + j)%nat) (sort_bars (map (the_bar c df) (filter (fun r => negb (d_basin (c_rest r))) df)))
    (sort_bars (map (the_bar c df) (filter (fun r => d_basin (c_rest r)) df))).
Proof.
  intros Hs Hp Hu Hst HF ND H. pose proof (list_nodup _ _ _ _ _ _ _ _ _ Hs H ND) as N.
  destruct (list_tagged c ppf sort craters basins u k df k1 Hs Hp Hu Hst HF H) as (rows & P & F & Ag).
  destruct (rows_split _ _ _ _ F) as [F1 F2]. constructor.
  - exists (map (the_bar c df) (filter (fun r => negb (d_basin (c_rest r))) rows)), (map (the_bar c df) (filter (fun r => d_basin (c_rest r)) rows)).
    split; [|split; [|split; [|split]]].
    + rewrite sort_bars_perm. apply Permutation_map. now apply perm_filter.
    + rewrite sort_bars_perm. apply Permutation_map. now apply perm_filter.
    + apply Forall2_map_r. eapply Forall2_imp; [|exact F1]. intros w r Rw. cbv beta. apply (row_bar c w r false (w_name w) Rw df). rewrite label_crater by (apply Rw). apply Rw.
    + apply Forall2_map_r. eapply Forall2_imp; [|exact F2]. intros w r Rw. cbv beta.
      destruct (label_star c craters basins df rows w r N P F Rw) as [[T E]|[T E]]; [left|right]; (split; [exact T|]); exact (row_bar c w r true _ Rw df E).
    + rewrite <- map_app, (filter_partition_rows c craters basins rows F), map_map. exact Ag.
  - split; apply sort_bars_sorted.
Qed.

Lemma rads_ok c ppf sort craters basins u k df k1 : sorts_by_age sort -> get_crater_basin_list c ppf sort craters basins u k = Ok (df, k1) ->
  Forall (fun w => 0 <= w_diam w) (craters ++ basins) -> Forall (fun r => 0 <= d_rad (c_rest r)) df.
Proof.
  intros Hs H HD. pose proof (list_from_lines _ _ _ _ _ _ _ _ _ Hs H) as L. eapply Forall_impl; [|exact L].
  intros r (w & I & _ & Rr & _). rewrite Rr. rewrite Forall_forall in HD. assert (In w (craters ++ basins)) by (apply in_or_app; tauto).
  specialize (HD w H0). cbv beta in HD. lra.
Qed.

(** ** The whole figure *)
Lemma basin_age_find db n : (exists b, In b db /\ b_name b = n /\ basin_age db n = Ok (b_age b)) \/
  (~ In n (map b_name db) /\ basin_age db n = Err KeyError).
Proof.
  unfold basin_age. destruct (find _ db) as [b|] eqn:F.
  - left. apply find_some in F as [I E]. apply String.eqb_eq in E. eauto.
  - right. split; [|reflexivity]. intros I. apply in_map_iff in I as (b & E & I). apply (find_none _ _ F) in I. rewrite E, String.eqb_refl in I. discriminate.
Qed.

Lemma figure_run c ppf sort craters basins entropy : ages_sane c ppf sort craters basins entropy ->
  exists u df k dc db db0, draws u /\ get_crater_basin_list c ppf sort craters basins u 0%nat = Ok (df, k) /\
    Permutation (map b_age (dc ++ db)) (map (fun r => c_age r / 1000000000) df) /\
    ages_figure c ppf craters basins (entropy 1%nat) dc db /\ Permutation db db0 /\
    crater_basin_ages c ppf sort craters basins entropy =
      let* nec := basin_age db0 "*Nectaris" in
      let* imb := basin_age db0 "Imbrium" in
      Ok ([("pNe.", (45 / 10, nec)); ("Ne.", (nec, imb)); ("Im.", (imb, 32 / 10)); ("Era.", (32 / 10, 11 / 10))]%string, dc, db).
Proof.
  intros [Hs Hp Hu Hst HF ND HD HT _]. destruct (fresh_total c ppf sort craters basins entropy 0) as (df & E).
  destruct (fresh_is_list _ _ _ _ _ _ _ _ E) as (k & L).
  assert (Hd : draws (splice (length basins) (entropy 0%nat) (entropy 1%nat))) by (apply splice_draws; auto).
  exists (splice (length basins) (entropy 0%nat) (entropy 1%nat)), df, k.
  exists (sort_bars (map (the_bar c df) (filter (fun r => negb (d_basin (c_rest r))) df))), (sort_bars (map (the_bar c df) (filter (fun r => d_basin (c_rest r)) df))),
    (map (the_bar c df) (filter (fun r => d_basin (c_rest r)) df)).
  split; [exact Hd|]. split; [exact L|]. split; [|split; [|split; [apply sort_bars_perm|]]].
  - rewrite !sort_bars_perm, <- map_app, map_map. apply Permutation_map. clear. induction df as [|r df IH]; [reflexivity|].
    cbn [filter]. destruct (d_basin (c_rest r)); cbn [negb]; [|cbn [app]; now apply perm_skip].
    rewrite <- Permutation_middle. now apply perm_skip.
  - pose proof (panels c ppf sort craters basins _ 0 df k Hs Hp Hd Hst HF ND L) as [(cs & bs & B1 & B2 & B3 & B4 & B5) B6].
    constructor; [|exact B6]. exists cs, bs. split; [exact B1|]. split; [exact B2|]. split; [exact B3|]. split; [exact B4|]. rewrite B5.
    apply map_ext. intros [j w]. f_equal. unfold splice. cbn [plus]. destruct (Nat.ltb_spec (length basins + j) (length basins)); [lia|]. f_equal. lia.
  - unfold crater_basin_ages. rewrite E. cbn [bind]. apply bars_form; [eapply list_nodup; eauto|eapply rads_ok; eauto|auto].
Qed.

(** Which labels a basin's bar can have. *)
Lemma label_in c ppf craters basins u dc db n : ages_figure c ppf craters basins u dc db ->
  (In n (map b_name db) <-> exists w, In w basins /\ (throws c craters basins w /\ n = append "*" (w_name w) \/ ~ throws c craters basins w /\ n = w_name w)).
Proof.
  intros [(cs & bs & _ & P & _ & F & _) _]. split.
  - intros I. apply in_map_iff in I as (b & <- & I). eapply Permutation_in in I; [|exact P].
    destruct (Forall2_in_r _ _ _ _ F I) as (w & Iw & [[T B]|[T B]]); exists w; (split; [exact Iw|]); [left|right]; (split; [exact T|apply (bo_name _ _ _ _ B)]).
  - intros (w & Iw & H). destruct (Forall2_in_l _ _ _ _ F Iw) as (b & Ib & B). apply in_map_iff. exists b.
    split; [|eapply Permutation_in; [symmetry; exact P|exact Ib]].
    destruct B as [[T B]|[T B]]; apply bo_name in B; destruct H as [[T' ->]|[T' ->]]; tauto.
Qed.
Lemma star_inj a b : append "*" a = append "*" b -> a = b.
Proof. cbn [append]. congruence. Qed.

Lemma figure_ok c ppf sort craters basins entropy eras dc db : ages_sane c ppf sort craters basins entropy ->
  crater_basin_ages c ppf sort craters basins entropy = Ok (eras, dc, db) ->
  ages_figure c ppf craters basins (entropy 1%nat) dc db /\
  (exists u df k, draws u /\ get_crater_basin_list c ppf sort craters basins u 0%nat = Ok (df, k) /\
    Permutation (map b_age (dc ++ db)) (map (fun r => c_age r / 1000000000) df)) /\
  exists nec imb, In nec db /\ b_name nec = "*Nectaris"%string /\ In imb db /\ b_name imb = "Imbrium"%string /\
    eras = [("pNe.", (45 / 10, b_age nec)); ("Ne.", (b_age nec, b_age imb)); ("Im.", (b_age imb, 32 / 10)); ("Era.", (32 / 10, 11 / 10))]%string.
Proof.
  intros Hs E. destruct (figure_run _ _ _ _ _ _ Hs) as (u & df & k & dc' & db' & db0 & Hd & L & P & F & Pd & E'). rewrite E' in E. clear E'.
  destruct (basin_age_find db0 "*Nectaris") as [(nec & I1 & N1 & A1)|[_ A1]]; rewrite A1 in E; cbn [bind] in E; [|discriminate].
  destruct (basin_age_find db0 "Imbrium") as [(imb & I2 & N2 & A2)|[_ A2]]; rewrite A2 in E; cbn [bind] in E; [|discriminate].
  assert (Q : forall a b : list (string * (R * R)) * list bar * list bar, Ok a = Ok b -> a = b) by congruence. apply Q in E. clear Q.
  injection E as <- <- <-. split; [exact F|]. split; [exists u, df, k; auto|].
  exists nec, imb. split; [eapply Permutation_in; [symmetry; exact Pd|exact I1]|]. split; [exact N1|].
  split; [eapply Permutation_in; [symmetry; exact Pd|exact I2]|]. split; [exact N2|]. reflexivity.
Qed.

Lemma figure_finishes c ppf sort craters basins entropy : ages_sane c ppf sort craters basins entropy ->
  let nec := exists w, In w basins /\ w_name w = "Nectaris"%string /\ throws c craters basins w in
  let imb := exists w, In w basins /\ w_name w = "Imbrium"%string /\ ~ throws c craters basins w in
  (nec /\ imb /\ exists fig, crater_basin_ages c ppf sort craters basins entropy = Ok fig) \/
  (~ (nec /\ imb) /\ crater_basin_ages c ppf sort craters basins entropy = Err KeyError).
Proof.
  intros Hs nec imb. destruct (figure_run _ _ _ _ _ _ Hs) as (u & df & k & dc & db & db0 & _ & _ & _ & F & Pd & E). rewrite E. clear E.
  pose proof (as_plain _ _ _ _ _ _ Hs) as Pl. rewrite Forall_forall in Pl.
  assert (Q1 : In "*Nectaris"%string (map b_name db) <-> nec).
  { rewrite (label_in _ _ _ _ _ _ _ _ F). split.
    - intros (w & Iw & [[T N]|[T N]]); [|destruct (Pl w Iw "Nectaris"%string); symmetry; exact N].
      exists w. split; [exact Iw|]. split; [symmetry; apply (star_inj "Nectaris" _ N)|exact T].
    - intros (w & Iw & N & T). exists w. split; [exact Iw|]. left. rewrite N. auto. }
  assert (Q2 : In "Imbrium"%string (map b_name db) <-> imb).
  { rewrite (label_in _ _ _ _ _ _ _ _ F). split.
    - intros (w & Iw & [[T N]|[T N]]); [discriminate|]. exists w. auto.
    - intros (w & Iw & N & T). exists w. split; [exact Iw|]. right. auto. }
  assert (Qp : forall n, In n (map b_name db0) <-> In n (map b_name db)).
  { intros n. split; apply Permutation_in; apply Permutation_map; [symmetry|]; exact Pd. }
  rewrite <- Qp in Q1, Q2.
  destruct (basin_age_find db0 "*Nectaris") as [(b1 & I1 & N1 & A1)|[X1 A1]]; rewrite A1; cbn [bind]; [|right; split; [tauto|reflexivity]].
  destruct (basin_age_find db0 "Imbrium") as [(b2 & I2 & N2 & A2)|[X2 A2]]; rewrite A2; cbn [bind]; [|right; split; [tauto|reflexivity]].
  left. split; [apply Q1, in_map_iff; eauto|]. split; [apply Q2, in_map_iff; eauto|]. eauto.
Qed.

Lemma figure_no_traps c ppf sort craters basins entropy : sorts_by_age sort -> NoDup (map w_name (craters ++ basins)) -> r_names c = [] -> craters ++ basins <> [] ->
  crater_basin_ages c ppf sort craters basins entropy = Err ValueError.
Proof.
  intros Hs ND T Ne. destruct (fresh_total c ppf sort craters basins entropy 0) as (df & E).
  destruct (fresh_is_list _ _ _ _ _ _ _ _ E) as (k & L). pose proof (list_names _ _ _ _ _ _ _ _ _ Hs L) as P.
  unfold crater_basin_ages. rewrite E. cbn [bind]. unfold crater_basin_bars.
  destruct (dists_total (r_ejthr c) (r_basinthr c) (r_names c) (map site_of df)) as (dists & Ed & Ld & Fd & _).
  { rewrite site_names. eapply list_nodup; eauto. }
  rewrite Ed. cbn [bind]. destruct df as [|r df].
  { cbn in P. apply Permutation_nil in P. destruct (craters ++ basins); [congruence|discriminate]. }
  destruct dists as [|row ds]; [discriminate|]. rewrite T in Fd. inversion Fd as [|? ? Lr _]; subst. destruct row; [|discriminate]. reflexivity.
Qed.

(** ** Counts *)
Lemma hist_length es x : length (hist es x) = (length es - 1)%nat.
Proof.
  induction es as [|a [|b r] IH]; [reflexivity|reflexivity|]. change (hist (a :: b :: r) x) with
   (length (filter (fun y => Rleb a y && (Rltb y b || ((match r with [] => true | _ => false end) && Rleb y b))) x) :: hist (b :: r) x).
  cbn [length]. rewrite IH. cbn [length]. lia.
Qed.
Lemma hist_cons a b r x : hist (a :: b :: r) x =
   length (filter (fun y => Rleb a y && (Rltb y b || ((match r with [] => true | _ => false end) && Rleb y b))) x) :: hist (b :: r) x.
Proof. reflexivity. Qed.
Lemma hist_nth es x k a b : nth_error es k = Some a -> nth_error es (S k) = Some b ->
  nth_error (hist es x) k = Some (length (filter (fun y => Rleb a y && (Rltb y b || (Nat.eqb (S (S k)) (length es) && Rleb y b))) x)).
Proof.
  revert es. induction k as [|k IH]; intros es A B.
  - destruct es as [|a' [|b' r]]; try discriminate. cbn in A, B. assert (a' = a) by congruence. assert (b' = b) by congruence. subst.
    rewrite hist_cons. cbn [nth_error]. do 2 f_equal. apply filter_ext. intros y. destruct r; reflexivity.
  - destruct es as [|a' [|b' r]]; [discriminate|cbn in A; destruct k; discriminate|]. rewrite hist_cons. cbn [nth_error] in *.
    rewrite (IH (b' :: r) A B). reflexivity.
Qed.
Lemma edges_nth k : (k < 261)%nat -> nth_error edges k = Some (left_edge k).
Proof.
  intros H. unfold edges, left_edge. rewrite nth_error_map. rewrite (nth_error_nth' _ 0%nat) by (rewrite seq_length; exact H).
  rewrite seq_nth by exact H. reflexivity.
Qed.
Lemma edges_length : length edges = 261%nat.
Proof. unfold edges. now rewrite map_length, seq_length. Qed.
Lemma last_edge : left_edge 260 = 4195 / 1000.
Proof. unfold left_edge. rewrite INR_IZR_INZ. change (Z.of_nat 260) with 260%Z. lra. Qed.
Lemma edge_step k : left_edge (S k) = left_edge k + 1 / 100.
Proof. unfold left_edge. rewrite S_INR. lra. Qed.

Lemma hist_counted x : counted x (hist edges x).
Proof.
  split; [rewrite hist_length, edges_length; reflexivity|]. split.
  - intros k H. rewrite (hist_nth edges x k _ _ (edges_nth k ltac:(lia)) (edges_nth (S k) ltac:(lia))), edges_length. unfold within. do 2 f_equal.
    apply filter_ext. intros y. destruct (Nat.eqb_spec (S (S k)) 261); [lia|]. now rewrite orb_false_r.
  - rewrite (hist_nth edges x 259 _ _ (edges_nth 259 ltac:(lia)) (edges_nth 260 ltac:(lia))), edges_length, last_edge. do 2 f_equal.
    apply filter_ext. intros y. cbn [Nat.eqb andb]. f_equal. rcase y (4195 / 1000) Hy; cbn [orb]; [|reflexivity].
    symmetry. apply Rleb_true. lra.
Qed.

Lemma counted_sum x counts : counted x counts -> list_sum counts = length (filter (fun y => Rleb (1595 / 1000) y && Rleb y (4195 / 1000)) x).
Proof.
  intros (L & A & B). revert L A B. 
  assert (G : forall n counts, (n < 260)%nat -> length counts = S n ->
    (forall k, (k < n)%nat -> nth_error counts k = Some (within (left_edge (259 - n + k)) (left_edge (S (259 - n + k))) x)) ->
    nth_error counts n = Some (length (filter (fun y => Rleb (left_edge 259) y && Rleb y (4195 / 1000)) x)) ->
    list_sum counts = length (filter (fun y => Rleb (left_edge (259 - n)) y && Rleb y (4195 / 1000)) x)).
  { induction n as [|n IH]; intros cs Hn L A B.
    - destruct cs as [|a [|b cs]]; try discriminate. cbn [nth_error] in B. assert (a = _) by (injection B; exact (fun e => e)). subst a.
      unfold list_sum. cbn [fold_right]. rewrite Nat.add_0_r. reflexivity.
    - destruct cs as [|a cs]; [discriminate|]. change (list_sum (a :: cs)) with (a + list_sum cs)%nat.
      rewrite (IH cs); [|lia|cbn [length] in L; lia| |exact B].
      + pose proof (A 0%nat ltac:(lia)) as A0. cbn [nth_error] in A0. assert (a = within (left_edge (259 - S n + 0)) (left_edge (S (259 - S n + 0))) x) by congruence. subst a.
        rewrite Nat.add_0_r. replace (S (259 - S n)) with (259 - n)%nat by lia. unfold within.
        assert (H1 : left_edge (259 - S n) <= left_edge (259 - n)) by (replace (259 - n)%nat with (S (259 - S n)) by lia; rewrite edge_step; lra).
        assert (H2 : left_edge (259 - n) <= 4195 / 1000).
        { rewrite <- last_edge. unfold left_edge. assert (INR (259 - n) <= INR 260) by (apply le_INR; lia). lra. }
        set (lo := left_edge (259 - S n)) in *. set (mid := left_edge (259 - n)) in *. clearbody lo mid. clear - H1 H2.
        induction x as [|y x IH]; [reflexivity|]. cbn [filter].
        destruct (Rleb lo y) eqn:Ha; destruct (Rleb mid y) eqn:Hb; destruct (Rltb y mid) eqn:Hc; destruct (Rleb y (4195 / 1000)) eqn:Hd; cbn [andb length];
        rewrite ?Rleb_true, ?Rltb_true, ?Rleb_false, ?Rltb_false in *; try lra; lia.
      + intros k Hk. pose proof (A (S k) ltac:(lia)) as Ak. cbn [nth_error] in Ak. rewrite Ak. replace (259 - S n + S k)%nat with (259 - n + k)%nat by lia. reflexivity. }
  intros L A B. rewrite (G 259%nat counts); [|lia|exact L|exact A|exact B].
  f_equal. apply filter_ext. intros y. change (259 - 259)%nat with 0%nat. unfold left_edge. cbn [INR]. replace ((1595 / 10 + 0) / 100) with (1595 / 1000) by field. reflexivity.
Qed.

(** Multiples of 10 Myr lie in the middle of the bins. *)
Lemma counted_exactly x counts k : counted x counts -> Forall (fun a => exists z, a * 1000000000 = IZR z * 10000000) x -> (k < 260)%nat ->
  nth_error counts k = Some (exactly ((160 + INR k) / 100) x).
Proof.
  intros (L & A & B) F Hk.
  assert (G : forall y hi, (exists z, y * 1000000000 = IZR z * 10000000) -> hi = (1605 / 10 + INR k) / 100 ->
     (Rleb (left_edge k) y = true /\ y <= hi <-> y = (160 + INR k) / 100)).
  { intros y hi (z & Hz) ->. assert (Ey : y = IZR z / 100) by lra. rewrite Rleb_true. unfold left_edge. rewrite INR_IZR_INZ in *. split; [|lra].
    intros [H1 H2]. subst y. assert (Z1 : 159 + IZR (Z.of_nat k) < IZR z) by lra. assert (Z2 : IZR z < 161 + IZR (Z.of_nat k)) by lra.
    rewrite <- plus_IZR in Z1, Z2. apply lt_IZR in Z1, Z2. assert (z = (160 + Z.of_nat k)%Z) by lia. subst z. rewrite plus_IZR. reflexivity. }
  assert (E : forall p, (forall y, (exists z, y * 1000000000 = IZR z * 10000000) -> p y = Reqb y ((160 + INR k) / 100)) -> length (filter p x) = exactly ((160 + INR k) / 100) x).
  { intros p Hp. unfold exactly. clear - F Hp. induction F as [|y x Hy _ IH]; [reflexivity|]. cbn [filter]. rewrite (Hp y Hy). destruct (Reqb _ _); cbn [length]; lia. }
  assert (Z : forall y b, (exists z, y * 1000000000 = IZR z * 10000000) -> (b = true -> Rleb (left_edge k) y = true /\ y <= (1605 / 10 + INR k) / 100) ->
     (y = (160 + INR k) / 100 -> b = true) -> b = Reqb y ((160 + INR k) / 100)).
  { intros y b Hy H1 H2. destruct (Reqb y _) eqn:Q; [apply Reqb_true in Q; auto|]. apply Reqb_false in Q. destruct b; [|reflexivity].
    exfalso. apply Q. apply (G y _ Hy eq_refl). auto. }
  destruct (Nat.eq_dec k 259) as [->|Nk].
  - rewrite B. f_equal. apply E. intros y Hy. apply Z; [exact Hy| |].
    + intros H. apply andb_true_iff in H as [H1 H2]. apply Rleb_true in H2. split; [exact H1|].
      rewrite INR_IZR_INZ. change (Z.of_nat 259) with 259%Z. lra.
    + intros ->. unfold left_edge. rewrite INR_IZR_INZ. change (Z.of_nat 259) with 259%Z. apply andb_true_iff. split; apply Rleb_true; lra.
  - rewrite A by lia. f_equal. apply E. intros y Hy. apply Z; [exact Hy| |]; rewrite edge_step.
    + intros H. apply andb_true_iff in H as [H1 H2]. apply Rltb_true in H2. split; [exact H1|]. unfold left_edge in H2. lra.
    + intros ->. unfold left_edge. apply andb_true_iff. split; [apply Rleb_true|apply Rltb_true]; lra.
Qed.

(** ** Random ages *)
Lemma names_concat {A} (f : A -> string) (ws : list string) (l : list A) : NoDup ws -> Permutation (map f l) ws ->
  map f (concat (map (fun n => filter (fun r => String.eqb (f r) n) l) ws)) = ws.
Proof.
  intros N P. assert (Nl : NoDup (map f l)) by (eapply Permutation_NoDup; [symmetry; exact P|exact N]).
  assert (G : forall vs, incl vs ws -> map f (concat (map (fun n => filter (fun r => String.eqb (f r) n) l) vs)) = vs).
  { induction vs as [|n vs IH]; intros I; [reflexivity|]. cbn [map concat]. rewrite map_app, IH by (intros x Hx; apply I; now right).
    pose proof (filter_name_unique f n l Nl) as U. destruct (filter _ l) as [|x [|? ?]]; [| |destruct U].
    - exfalso. apply U. eapply Permutation_in; [symmetry; exact P|]. apply I. now left.
    - destruct U as [_ U]. cbn [map app]. now rewrite U. }
  apply G. apply incl_refl.
Qed.

(** How often names are found: once each if no two are the same, else too often. *)
Lemma found_length (ws : list string) : forall vs, incl vs ws ->
  (length vs <= length (concat (map (fun n => filter (fun m => String.eqb m n) ws) vs)))%nat /\
  (NoDup ws -> length (concat (map (fun n => filter (fun m => String.eqb m n) ws) vs)) = length vs) /\
  (forall n, In n vs -> (2 <= length (filter (fun m => String.eqb m n) ws))%nat ->
    (length vs < length (concat (map (fun n => filter (fun m => String.eqb m n) ws) vs)))%nat).
Proof.
  induction vs as [|v vs IH]; intros I; [cbn; split; [lia|]; split; [reflexivity|intros n []]|].
  destruct (IH ltac:(intros x Hx; apply I; now right)) as (A & B & C). cbn [map concat length]. rewrite app_length.
  assert (P : (1 <= length (filter (fun m => String.eqb m v) ws))%nat).
  { assert (J : In v (filter (fun m => String.eqb m v) ws)) by (apply filter_In; split; [apply I; now left|apply String.eqb_refl]).
    destruct (filter _ ws); [destruct J|cbn; lia]. }
  split; [lia|]. split.
  - intros N. rewrite (B N). pose proof (filter_name_unique (fun s : string => s) v ws ltac:(rewrite map_id; exact N)) as U.
    destruct (filter _ ws) as [|x [|? ?]]; [cbn in P; lia|reflexivity|destruct U].
  - intros n [->|J] H; [lia|]. specialize (C n J H). lia.
Qed.
Lemma dup_filter (ws : list string) : ~ NoDup ws -> exists n, In n ws /\ (2 <= length (filter (fun m => String.eqb m n) ws))%nat.
Proof.
  induction ws as [|w ws IH]; intros H; [destruct H; constructor|].
  destruct (in_dec string_dec w ws) as [I|I].
  - exists w. split; [now left|]. cbn [filter]. rewrite String.eqb_refl. cbn [length].
    assert (J : In w (filter (fun m => String.eqb m w) ws)) by (apply filter_In; split; [exact I|apply String.eqb_refl]).
    destruct (filter _ ws); [destruct J|cbn; lia].
  - destruct IH as (n & J & L); [intros N; apply H; constructor; auto|]. exists n. split; [now right|]. cbn [filter]. destruct (String.eqb w n); cbn [length]; lia.
Qed.
Lemma filter_perm_length {A} (f : A -> string) l (ws : list string) n : Permutation (map f l) ws ->
  length (filter (fun r => String.eqb (f r) n) l) = length (filter (fun m => String.eqb m n) ws).
Proof.
  intros P. rewrite <- (Permutation_length (perm_filter (fun m => String.eqb m n) _ _ P)). rewrite filter_map_comm, map_length. reflexivity.
Qed.
Lemma concat_length {A} (ls : list (list A)) : length (concat ls) = list_sum (map (@length A) ls).
Proof. induction ls as [|l ls IH]; [reflexivity|]. cbn [concat map]. rewrite app_length, IH. reflexivity. Qed.

Lemma drawn_rows c ppf craters (u : tape) : forall k,
  map (fun '(r, v) => set_age r (new_age (IZR (r_step c)) r v))
    (combine (crater_rows craters) (map (fun '(r, v) => ppf (trunc_a r) (Some (trunc_b r)) v) (combine (crater_rows craters) (map u (seq k (length (crater_rows craters)))))))
  = map (fun '(j, w) => set_age (read_row false "no" w) (age_from c ppf w (u j) * 1000000000)) (combine (seq k (length craters)) craters).
Proof.
  unfold crater_rows. induction craters as [|w l IH]; intros k; [reflexivity|]. cbn [map length seq combine]. rewrite IH. f_equal. unfold age_from. cbv zeta. apply (f_equal (set_age _)). field.
Qed.
Lemma drawn_names c ppf craters (u : tape) : forall k,
  map (fun r => d_name (c_rest r)) (map (fun '(j, w) => set_age (read_row false "no" w) (age_from c ppf w (u j) * 1000000000)) (combine (seq k (length craters)) craters)) = map w_name craters.
Proof. induction craters as [|w l IH]; intros k; [reflexivity|]. cbn [map length seq combine]. rewrite IH. reflexivity. Qed.

Lemma find_rows (craters : list raw) (m rnd : list (crater info)) : NoDup (names_of rnd) -> incl m rnd -> names_of m = map w_name craters ->
  concat (map (fun w => filter (fun r => String.eqb (d_name (c_rest r)) (w_name w)) rnd) craters) = m.
Proof.
  intros N. revert craters. induction m as [|x m IH]; intros [|w craters] I E; try discriminate; [reflexivity|]. cbn in E. injection E as E1 E2.
  cbn [map concat]. rewrite (IH craters); [|intros y Hy; apply I; now right|exact E2].
  pose proof (filter_name_unique (fun r => d_name (c_rest r)) (w_name w) rnd N) as U.
  assert (J : In x (filter (fun r => String.eqb (d_name (c_rest r)) (w_name w)) rnd)) by (apply filter_In; split; [apply I; now left|now apply String.eqb_eq]).
  destruct (filter _ rnd) as [|y [|? ?]]; [destruct J| |destruct U]. destruct J as [->|[]]. reflexivity.
Qed.

Section Seeds.
  Variables (c : rcfg) (ppf : ppf_fun) (sort : list (crater info) -> list (crater info)) (craters : list raw) (stream : Z -> tape) (drawn : Z).
  Definition the_seed (s : Z) : Z := if (s =? 0)%Z then drawn else s.
  Definition ages_row (s : Z) : list R := map (fun '(j, w) => age_from c ppf w (stream (the_seed s) j)) (combine (seq 0 (length craters)) craters).

  Lemma seed_ages_ok s : sorts_by_age sort -> NoDup (map w_name craters) -> seed_ages c ppf sort craters stream drawn s = Ok (ages_row s).
  Proof.
    intros Hs N. unfold seed_ages, draw_ages, random, rbind, ret. cbn [bind]. fold (the_seed s). set (u := stream (the_seed s)). unfold randomize_crater_ages. rewrite drawn_rows.
    set (m := map _ (combine (seq 0 (length craters)) craters)). assert (P := proj1 (Hs m)).
    assert (Nm : names_of m = map w_name craters) by apply drawn_names.
    assert (Nd : NoDup (names_of (sort m))).
    { eapply Permutation_NoDup; [|exact N]. rewrite <- Nm. symmetry. unfold names_of. now apply Permutation_map. }
    rewrite (find_rows craters m (sort m) Nd); [|intros x; apply Permutation_in; now symmetry|exact Nm].
    assert (L : length m = length craters) by (unfold m; rewrite map_length, combine_length, seq_length; lia).
    rewrite L, Nat.eqb_refl. f_equal. unfold m, ages_row. rewrite map_map. apply map_ext. intros [j w]. change (age_from c ppf w (u j) * 1000000000 / 1000000000 = age_from c ppf w (u j)). field.
  Qed.
  Lemma seed_ages_twice s : sorts_by_age sort -> ~ NoDup (map w_name craters) -> seed_ages c ppf sort craters stream drawn s = Err ValueError.
  Proof.
    intros Hs N. unfold seed_ages, draw_ages, random, rbind, ret. cbn [bind]. fold (the_seed s). set (u := stream (the_seed s)). unfold randomize_crater_ages. rewrite drawn_rows.
    set (m := map _ (combine (seq 0 (length craters)) craters)). assert (P := proj1 (Hs m)).
    assert (Nm : names_of m = map w_name craters) by apply drawn_names.
    assert (Pn : Permutation (names_of (sort m)) (map w_name craters)) by (rewrite <- Nm; unfold names_of; now apply Permutation_map).
    assert (L : length (concat (map (fun w => filter (fun r => String.eqb (d_name (c_rest r)) (w_name w)) (sort m)) craters))
      = length (concat (map (fun n => filter (fun k => String.eqb k n) (map w_name craters)) (map w_name craters)))).
    { rewrite !concat_length, !map_map. f_equal. apply map_ext. intros w. apply (filter_perm_length (fun r => d_name (c_rest r))). exact Pn. }
    rewrite L. destruct (dup_filter _ N) as (n & J & H). destruct (found_length (map w_name craters) (map w_name craters) (incl_refl _)) as (_ & _ & C).
    specialize (C n J H). rewrite map_length in C at 1. destruct (Nat.eqb_spec (length (concat (map (fun n0 => filter (fun k => String.eqb k n0) (map w_name craters)) (map w_name craters)))) (length craters)); [lia|reflexivity].
  Qed.

  Lemma ages_row_nth s j w : nth_error craters j = Some w -> nth j (ages_row s) 0 = age_from c ppf w (stream (the_seed s) j).
  Proof.
    intros H. assert (Lj : (j < length craters)%nat) by (apply nth_error_Some; congruence). unfold ages_row.
    apply nth_error_nth. rewrite nth_error_map.
    assert (E : nth_error (combine (seq 0 (length craters)) craters) j = Some (j, w)).
    { clear - H Lj. assert (G : forall (l : list raw) k j, nth_error l j = Some w -> nth_error (combine (seq k (length l)) l) j = Some ((k + j)%nat, w)).
      { induction l as [|a l IH]; intros k [|i] E; try discriminate; cbn [length seq combine nth_error] in *; [rewrite Nat.add_0_r; congruence|].
        rewrite (IH (S k) i E). f_equal. f_equal. lia. }
      rewrite (G _ 0%nat j H). reflexivity. }
    rewrite E. reflexivity.
  Qed.

  (** The ages of a crater over the seeds. *)
  Definition seeds_of (nseed : nat) (j : nat) (w : raw) : list R := map (fun s => age_from c ppf w (stream (the_seed (Z.of_nat s)) j)) (seq 0 nseed).

  Lemma top_form nseed : sorts_by_age sort -> NoDup (map w_name craters) ->
    top_panel c ppf sort craters stream drawn nseed = Ok (map (fun '(j, w) => (w_name w, hist edges (seeds_of nseed j w))) (combine (seq 0 (length craters)) craters)).
  Proof.
    intros Hs N. unfold top_panel.
    assert (M : forall l, mapM (seed_ages c ppf sort craters stream drawn) l = Ok (map ages_row l)).
    { induction l as [|s l IH]; [reflexivity|]. cbn [mapM map]. rewrite seed_ages_ok by auto. cbn [bind]. rewrite IH. reflexivity. }
    rewrite M. cbn [bind]. f_equal. apply map_ext_in. intros [j w] I. f_equal. f_equal. unfold column_of, seeds_of. rewrite !map_map. apply map_ext. intros s.
    apply ages_row_nth. apply In_nth_error in I as (i & E). clear - E.
    assert (G : forall (l : list raw) k i, nth_error (combine (seq k (length l)) l) i = Some (j, w) -> exists q, j = (k + q)%nat /\ nth_error l q = Some w).
    { induction l as [|a l IH]; intros k [|i0] E0; try discriminate; cbn [length seq combine nth_error] in *.
      - exists 0%nat. rewrite Nat.add_0_r. cbn. split; congruence.
      - destruct (IH _ _ E0) as (q & -> & Q). exists (S q). split; [lia|exact Q]. }
    destruct (G _ _ _ E) as (q & -> & Q). exact Q.
  Qed.
  Lemma top_twice nseed : sorts_by_age sort -> ~ NoDup (map w_name craters) -> (0 < nseed)%nat -> top_panel c ppf sort craters stream drawn nseed = Err ValueError.
  Proof. intros Hs N H. destruct nseed as [|n]; [lia|]. unfold top_panel. cbn [seq map mapM]. rewrite seed_ages_twice by auto. reflexivity. Qed.

  Variable order : nat -> nat -> nat.
  Definition sample_of (nseed n : nat) (j : nat) (w : raw) : list R := map (fun i => age_from c ppf w (stream (Z.of_nat (nseed - 1)) (order i j))) (seq 0 n).
  Lemma all_ages_column nseed n j w : nth_error craters j = Some w -> column_of (all_ages c ppf craters stream order nseed n) j = sample_of nseed n j w.
  Proof.
    intros H. unfold column_of, all_ages, sample_of. rewrite map_map. apply map_ext. intros i.
    assert (Lj : (j < length craters)%nat) by (apply nth_error_Some; congruence).
    apply nth_error_nth. rewrite nth_error_map. unfold crater_rows.
    assert (E : nth_error (combine (seq 0 (length craters)) (map (read_row false "no") craters)) j = Some (j, read_row false "no" w)).
    { clear - H Lj. assert (G : forall (l : list raw) k j, nth_error l j = Some w -> nth_error (combine (seq k (length l)) (map (read_row false "no") l)) j = Some ((k + j)%nat, read_row false "no" w)).
      { induction l as [|a l IH]; intros k [|i] E; try discriminate; cbn [length seq combine nth_error map] in *; [rewrite Nat.add_0_r; congruence|].
        rewrite (IH (S k) i E). f_equal. f_equal. lia. }
      rewrite (G _ 0%nat j H). reflexivity. }
    rewrite E. reflexivity.
  Qed.

  Lemma age_from_for w u : ppf_support ppf -> 0 <= u < 1 -> (0 < r_step c)%Z -> 0 <= w_low w /\ 0 <= w_upp w /\ 0 < w_low w + w_upp w -> age_for c w (age_from c ppf w u).
  Proof. intros Hp Hu Hs (A & B & D). unfold age_from. cbv zeta. apply drawn_age; auto. Qed.
End Seeds.

Lemma indexed_nth {A} (l : list A) j w : nth_error l j = Some w -> nth_error (combine (seq 0 (length l)) l) j = Some (j, w).
Proof.
  intros H. assert (G : forall (l : list A) k j, nth_error l j = Some w -> nth_error (combine (seq k (length l)) l) j = Some ((k + j)%nat, w)).
  { induction l0 as [|a l0 IH]; intros k [|i] E; try discriminate; cbn [length seq combine nth_error] in *; [rewrite Nat.add_0_r; congruence|].
    rewrite (IH (S k) i E). f_equal. f_equal. lia. }
  rewrite (G _ 0%nat j H). reflexivity.
Qed.

(** ** The inset *)
Lemma filter_and {A} (p q : A -> bool) l : filter p (filter q l) = filter (fun x => p x && q x) l.
Proof. induction l as [|a l IH]; [reflexivity|]. cbn [filter]. destruct (q a) eqn:Q; cbn [filter]; destruct (p a); cbn [andb]; rewrite ?Q, ?IH; reflexivity. Qed.
Lemma inset_low x counts counts' k : counted x counts -> counted (filter (fun y => Rltb y 3) x) counts' -> (k < 140)%nat -> nth_error counts' k = nth_error counts k.
Proof.
  intros (_ & A & _) (_ & A' & _) Hk. rewrite A, A' by lia. unfold within. rewrite filter_and. do 2 f_equal. apply filter_ext. intros y.
  destruct (Rltb y (left_edge (S k))) eqn:E; rewrite ?andb_false_r; [|reflexivity].
  apply Rltb_true in E. assert (Rltb y 3 = true) as ->; [|now rewrite !andb_true_r].
  apply Rltb_true. unfold left_edge in E. assert (INR (S k) <= INR 140) by (apply le_INR; lia). rewrite (INR_IZR_INZ 140) in H. change (Z.of_nat 140) with 140%Z in H. lra.
Qed.
Lemma inset_high x counts' k : counted (filter (fun y => Rltb y 3) x) counts' -> (140 < k < 260)%nat -> nth_error counts' k = Some 0%nat.
Proof.
  intros (_ & A & B) Hk.
  assert (Hl : 3 < left_edge k).
  { unfold left_edge. assert (INR 141 <= INR k) by (apply le_INR; lia). rewrite (INR_IZR_INZ 141) in H. change (Z.of_nat 141) with 141%Z in H. lra. }
  assert (Z : forall q, length (filter (fun y => Rleb (left_edge k) y && q y) (filter (fun y => Rltb y 3) x)) = 0%nat).
  { intros q. rewrite filter_and. rewrite (filter_ext _ (fun _ => false)); [clear; induction x; [reflexivity|exact IHx]|].
    intros y. destruct (Rleb (left_edge k) y) eqn:E1; [|reflexivity]. apply Rleb_true in E1. assert (Rltb y 3 = false) as -> by (apply Rltb_false; lra). apply andb_false_r. }
  destruct (Nat.eq_dec k 259) as [->|N]; [rewrite B|rewrite A by lia]; f_equal; apply Z.
Qed.
