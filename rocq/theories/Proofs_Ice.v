From Coq Require Import String Ascii List ZArith Reals Lia Lra Psatz Bool Sorted Permutation.
From Verif Require Import Base Model_Time Model_Geo Model_Interp Model_Crater Model_Ice Spec_Ice Proofs_Base
  Proofs_Time Proofs_Geo Proofs_Interp Proofs_Crater Proofs_Scaling.
Import ListNotations.
Open Scope R_scope.

(** * Thickness *)
Definition area (c : icfg) : R := if String.eqb (ice_species c) "H2O" then area_H2O c else area_CO2 c.

Lemma thickness_ok c m : ice_species c = "H2O"%string \/ ice_species c = "CO2"%string ->
  get_ice_thickness c m = Ok (m * hop_effcy c / ice_density c / area c).
Proof.
  intros H. unfold get_ice_thickness, area. destruct (String.eqb_spec (ice_species c) "H2O"); [reflexivity|].
  destruct (String.eqb_spec (ice_species c) "CO2"); [reflexivity|]. tauto.
Qed.

Lemma thickness_err c m : ice_species c <> "H2O"%string -> ice_species c <> "CO2"%string ->
  get_ice_thickness c m = Err AttributeError.
Proof.
  intros H1 H2. unfold get_ice_thickness.
  destruct (String.eqb_spec (ice_species c) "H2O"); [contradiction|].
  destruct (String.eqb_spec (ice_species c) "CO2"); [contradiction|]. reflexivity.
Qed.

Lemma mapM_thickness c l : ice_species c = "H2O"%string \/ ice_species c = "CO2"%string ->
  mapM (get_ice_thickness c) l = Ok (map (fun m => m * hop_effcy c / ice_density c / area c) l).
Proof.
  intros H. induction l as [|m l IH]; [reflexivity|]. cbn [mapM map]. rewrite thickness_ok by auto.
  cbn [bind]. rewrite IH. reflexivity.
Qed.

(** * Solar wind *)
Definition not_upper (b : ascii) : Prop := ~ (65 <= nat_of_ascii b <= 90)%nat.

Lemma lower_ascii_iff a b : not_upper b -> lower_ascii a = b <-> same_letter a b.
Proof.
  intros Hb. unfold lower_ascii, same_letter. cbv zeta.
  destruct (Nat.leb 65 (nat_of_ascii a) && Nat.leb (nat_of_ascii a) 90) eqn:E.
  - apply andb_true_iff in E as [E1' E2']. apply Nat.leb_le in E1', E2'. split.
    + intros <-. right. split; auto. apply nat_ascii_embedding. lia.
    + intros [->|[_ H]]; [exfalso; apply Hb; auto|]. rewrite <- H. apply ascii_nat_embedding.
  - split; [auto|]. intros [H|[[H1 H2] _]]; auto.
    apply Nat.leb_le in H1, H2. rewrite H1, H2 in E. discriminate.
Qed.

Lemma lower_iff s t : Forall not_upper (list_ascii_of_string t) -> lower s = t <-> same_name s t.
Proof.
  revert t. induction s as [|a s IH]; intros t Ht; unfold same_name; cbn [lower list_ascii_of_string].
  - split; [intros <-; constructor|]. destruct t; [auto|]. intros H. inversion H.
  - destruct t as [|b t]; cbn [list_ascii_of_string] in *.
    + split; [discriminate|intros H; inversion H].
    + inversion Ht; subst. split.
      * intros [= Ha Hs]. constructor; [now apply lower_ascii_iff|now apply IH].
      * intros H. inversion H; subst. f_equal; [now apply lower_ascii_iff|now apply IH].
Qed.

Lemma sw_names s : In (lower s) ["benna"; "lucey-hurley"]%string <->
  same_name s "benna" \/ same_name s "lucey-hurley".
Proof.
  assert (H1 : Forall not_upper (list_ascii_of_string "benna"))
    by (repeat constructor; unfold not_upper; cbn; lia).
  assert (H2 : Forall not_upper (list_ascii_of_string "lucey-hurley"))
    by (repeat constructor; unfold not_upper; cbn; lia).
  rewrite <- (lower_iff s _ H1), <- (lower_iff s _ H2). cbn [In]. intuition congruence.
Qed.

Lemma sw_supply_ok c : In (lower (solar_wind_mode c)) ["benna"; "lucey-hurley"]%string ->
  exists rate, sw_supply c = Ok (rate * (60 * 60 * 24 * 365 * timestep c)) /\
    rate = if String.eqb (lower (solar_wind_mode c)) "benna" then 2 / 1000 else 30 / 1000000.
Proof.
  intros H. unfold sw_supply. destruct (String.eqb_spec (lower (solar_wind_mode c)) "benna") as [E|N].
  - eexists; split; [|reflexivity]. cbn [bind]. f_equal. field.
  - destruct (String.eqb_spec (lower (solar_wind_mode c)) "lucey-hurley") as [E|N'].
    + eexists; split; [|reflexivity]. cbn [bind]. f_equal. field.
    + destruct H as [H|[H|[]]]; congruence.
Qed.

Lemma sw_supply_err c : ~ In (lower (solar_wind_mode c)) ["benna"; "lucey-hurley"]%string ->
  sw_supply c = Err ValueError.
Proof.
  intros H. unfold sw_supply. destruct (String.eqb_spec (lower (solar_wind_mode c)) "benna") as [E|N].
  - exfalso. apply H. rewrite E. simpl. auto.
  - destruct (String.eqb_spec (lower (solar_wind_mode c)) "lucey-hurley") as [E|N']; auto.
    exfalso. apply H. rewrite E. simpl. auto.
Qed.

Lemma SS_map {A B} (P : A -> A -> Prop) (Q : B -> B -> Prop) (f : A -> B) l :
  (forall a b, P a b -> Q (f a) (f b)) -> StronglySorted P l -> StronglySorted Q (map f l).
Proof.
  intros H HS. induction HS as [|a l HS IH HF]; constructor; auto.
  apply Forall_forall. intros b Hb. apply in_map_iff in Hb as (x & <- & Hx).
  apply H. rewrite Forall_forall in HF. auto.
Qed.

Lemma lum_knots_sorted table : ages_increasing table ->
  increasing_x (map (fun '(t, l) => (- t, l)) (lum_rows table)).
Proof.
  intros H. unfold lum_rows. rewrite map_map. eapply SS_map; [|exact H].
  intros [g l] [g' l'] Hg. cbn in *. lra.
Qed.

Lemma solar_wind_spec c table time supply lo hi :
  sw_supply c = Ok supply -> 0 <= supply ->
  table <> [] -> ages_increasing table -> Forall (fun r => lo <= snd r <= hi) table ->
  exists m, solar_wind_ice_mass c table time = Ok m /\ length m = length time /\
    Forall (fun x => if faint_young_sun c then supply * lo <= x <= supply * hi else x = supply) m.
Proof.
  intros Hs H0 Hne Hsort HF. unfold solar_wind_ice_mass. rewrite Hs. cbn [bind].
  destruct (faint_young_sun c).
  - set (knots := map (fun '(t, l) => (- t, l)) (lum_rows table)).
    assert (Hk : knots <> []).
    { unfold knots, lum_rows. destruct table; [congruence|discriminate]. }
    assert (HFk : Forall (fun k => lo <= snd k <= hi) knots).
    { unfold knots, lum_rows. rewrite map_map. apply Forall_forall. intros x Hx.
      apply in_map_iff in Hx as ([g l] & <- & Hx). rewrite Forall_forall in HF. apply HF in Hx. exact Hx. }
    pose proof (lum_knots_sorted table Hsort) as Hinc. fold knots in Hinc.
    destruct (mapM_total (fun t => let* l := interp knots (- t) in Ok (1 * supply * l)) time) as [m Hm].
    { intros t _. destruct (interp_total knots (- t) Hk) as [l ->]. eexists. reflexivity. }
    exists m. split; auto. destruct (mapM_nth _ _ _ Hm) as [HL HN]. split; auto.
    apply Forall_forall. intros x Hx. apply In_nth_error in Hx as [i Hi].
    assert (Hlt : (i < length time)%nat) by (rewrite <- HL; apply nth_error_Some; congruence).
    destruct (nth_error time i) as [t|] eqn:Et; [|apply nth_error_None in Et; lia].
    destruct (HN i t Et) as (x' & Hx' & Hf). rewrite Hi in Hx'. injection Hx' as <-.
    destruct (interp knots (- t)) as [l|] eqn:El; [|discriminate]. cbn [bind] in Hf. injection Hf as <-.
    pose proof (interp_in_range knots (- t) l lo hi Hinc El HFk). nra.
  - exists (map (fun _ => 1 * supply) time). split; auto. split; [apply map_length|].
    apply Forall_forall. intros x Hx. apply in_map_iff in Hx as (t & <- & _). lra.
Qed.

(** * Volcanic *)
Lemma in_epoch_true e t : in_epoch e t = true <-> snd e < t <= fst e.
Proof.
  unfold in_epoch. rewrite andb_true_iff, Rleb_true, Rltb_true. lra.
Qed.
Lemma in_epoch_false e t : in_epoch e t = false <-> ~ (snd e < t <= fst e).
Proof. rewrite <- in_epoch_true. destruct (in_epoch e t); intuition congruence. Qed.

Lemma volc_head_nth c time i t : nth_error time i = Some t ->
  exists m, nth_error (volcanic_ice_head c time) i = Some m /\
    (snd (volc_late c) < t <= fst (volc_late c) -> m = volc_rate_late c) /\
    (~ (snd (volc_late c) < t <= fst (volc_late c)) -> snd (volc_early c) < t <= fst (volc_early c) ->
       m = volc_rate_early c) /\
    (~ (snd (volc_late c) < t <= fst (volc_late c)) -> ~ (snd (volc_early c) < t <= fst (volc_early c)) ->
       m = 0).
Proof.
  intros Ht. unfold volcanic_ice_head. rewrite nth_error_map, Ht. cbn [option_map].
  eexists; split; [reflexivity|]. rewrite <- !in_epoch_true.
  destruct (in_epoch (volc_late c) t), (in_epoch (volc_early c) t); repeat split; intros; try congruence;
    exfalso; auto.
Qed.

Definition inb (a b k : nat) : bool := Nat.ltb a k && Nat.leb k b.

Lemma count_seq r a b n : (a <= b)%nat -> (b <= n)%nat ->
  Rsum (map (fun k => if inb a b k then r else 0) (seq 1 n)) = INR (b - a) * r.
Proof.
  revert a b. induction n as [|n IH]; intros a b Hab Hbn.
  - assert (b = 0%nat /\ a = 0%nat) as [-> ->] by lia. cbn. lra.
  - rewrite seq_S, map_app, Rsum_app. cbn [map]. rewrite Rsum_cons. unfold Rsum at 2. cbn [fold_right].
    replace (1 + n)%nat with (S n) by lia.
    destruct (Nat.eq_dec b (S n)) as [->|Nb].
    + destruct (Nat.eq_dec a (S n)) as [->|Na].
      * rewrite (map_ext_in _ (fun k => if inb n n k then r else 0)).
        -- rewrite IH by lia. unfold inb. replace (Nat.ltb (S n) (S n)) with false by (symmetry; apply Nat.ltb_ge; lia).
           rewrite !Nat.sub_diag. cbn. lra.
        -- intros k Hk. apply in_seq in Hk. unfold inb.
           replace (Nat.ltb (S n) k) with false by (symmetry; apply Nat.ltb_ge; lia).
           replace (Nat.ltb n k) with false by (symmetry; apply Nat.ltb_ge; lia). reflexivity.
      * rewrite (map_ext_in _ (fun k => if inb a n k then r else 0)).
        -- rewrite IH by lia. unfold inb.
           replace (Nat.ltb a (S n)) with true by (symmetry; apply Nat.ltb_lt; lia).
           replace (Nat.leb (S n) (S n)) with true by (symmetry; apply Nat.leb_le; lia). cbn [andb].
           replace (S n - a)%nat with (S (n - a)) by lia. rewrite S_INR. lra.
        -- intros k Hk. apply in_seq in Hk. unfold inb.
           replace (Nat.leb k (S n)) with true by (symmetry; apply Nat.leb_le; lia).
           replace (Nat.leb k n) with true by (symmetry; apply Nat.leb_le; lia). reflexivity.
    + rewrite IH by lia. unfold inb.
      replace (Nat.leb (S n) b) with false by (symmetry; apply Nat.leb_gt; lia).
      rewrite andb_false_r. lra.
Qed.

Lemma Rsum_perm l l' : Permutation l l' -> Rsum l = Rsum l'.
Proof. induction 1; rewrite ?Rsum_cons; try lra. Qed.

Lemma Rsum_map_plus {A} (f g : A -> R) l : Rsum (map (fun x => f x + g x) l) = Rsum (map f l) + Rsum (map g l).
Proof. induction l as [|x l IH]; cbn [map]; rewrite ?Rsum_cons; [cbn; lra|rewrite IH; lra]. Qed.

Lemma epoch_mult ts a b k : 0 < ts -> in_epoch (INR b * ts, INR a * ts) (INR k * ts) = inb a b k.
Proof.
  intros H. apply eq_true_iff_eq. rewrite in_epoch_true. unfold inb.
  rewrite andb_true_iff, Nat.ltb_lt, Nat.leb_le. cbn [fst snd].
  split.
  - intros [H1 H2]. split.
    + apply INR_lt. apply Rmult_lt_reg_r with ts; auto.
    + apply INR_le. apply Rmult_le_reg_r with ts; auto.
  - intros [H1 H2]. split.
    + apply Rmult_lt_compat_r; auto. now apply lt_INR.
    + apply Rmult_le_compat_r; [lra|]. now apply le_INR.
Qed.

Lemma volc_epoch_totals c time n a1 b1 a2 b2 :
  0 < timestep c -> Permutation time (map (fun k => INR k * timestep c) (seq 1 n)) ->
  volc_early c = (INR b1 * timestep c, INR a1 * timestep c) ->
  volc_late c = (INR b2 * timestep c, INR a2 * timestep c) ->
  (a1 <= b1)%nat -> (b1 <= n)%nat -> (a2 <= b2)%nat -> (b2 <= a1)%nat ->
  Rsum (volcanic_ice_head c time)
  = volc_ice_total c * volc_early_pct c * (fst (volc_early c) - snd (volc_early c))
    + volc_ice_total c * volc_late_pct c * (fst (volc_late c) - snd (volc_late c)).
Proof.
  intros Hts HP He Hl H1 H2 H3 H4. unfold volcanic_ice_head.
  rewrite (Rsum_perm _ _ (Permutation_map _ HP)). rewrite map_map.
  rewrite (map_ext_in _ (fun k => (if inb a1 b1 k then volc_rate_early c else 0)
                                   + (if inb a2 b2 k then volc_rate_late c else 0))).
  - rewrite Rsum_map_plus, !count_seq by lia. rewrite He, Hl. cbn [fst snd].
    unfold volc_rate_early, volc_rate_late. rewrite !minus_INR by lia. ring.
  - intros k Hk. rewrite He, Hl, !epoch_mult by auto.
    destruct (inb a1 b1 k) eqn:E1', (inb a2 b2 k) eqn:E2'; try lra.
    exfalso. unfold inb in *. apply andb_true_iff in E1' as [A B]. apply andb_true_iff in E2' as [C D].
    apply Nat.ltb_lt in A. apply Nat.leb_le in D. lia.
Qed.

(** * Flux *)
Lemma flux_pos t : 0 < impact_flux t.
Proof.
  unfold impact_flux. pose proof (exp_pos (693 / 100 * (t * (1 / 1000000000)))). lra.
Qed.
Lemma flux_incr t t' : t < t' -> impact_flux t < impact_flux t'.
Proof.
  intros H. unfold impact_flux.
  assert (exp (693 / 100 * (t * (1 / 1000000000))) < exp (693 / 100 * (t' * (1 / 1000000000))))
    by (apply exp_increasing; lra). lra.
Qed.
Lemma scaling_0 : impact_flux_scaling 0 = 1.
Proof. unfold impact_flux_scaling. pose proof (flux_pos 0). field. lra. Qed.
Lemma scaling_incr t t' : t < t' -> impact_flux_scaling t < impact_flux_scaling t'.
Proof.
  intros H. unfold impact_flux_scaling. apply Rmult_lt_compat_r.
  - apply Rinv_0_lt_compat, flux_pos.
  - now apply flux_incr.
Qed.
Lemma scaling_pos t : 0 < impact_flux_scaling t.
Proof. unfold impact_flux_scaling. apply Rdiv_lt_0_compat; apply flux_pos. Qed.
Lemma scaling_ge1 t : 0 <= t -> 1 <= impact_flux_scaling t.
Proof. intros [H|<-]; [left; rewrite <- scaling_0; now apply scaling_incr|rewrite scaling_0; lra]. Qed.

(** * Size-frequency distribution *)
Lemma Rsum_pos l : l <> [] -> Forall (fun x => 0 < x) l -> 0 < Rsum l.
Proof.
  intros Hn HF. destruct HF as [|x l Hx HF]; [congruence|]. rewrite Rsum_cons.
  assert (0 <= Rsum l) by (apply Rsum_nonneg; eapply Forall_impl; [|exact HF]; simpl; intros; lra). lra.
Qed.

Lemma Rsum_div l k : k <> 0 -> Rsum (map (fun s => s / k) l) = Rsum l / k.
Proof.
  intros Hk. induction l as [|x l IH]; cbn [map]; rewrite ?Rsum_cons.
  - cbn. field. auto.
  - rewrite IH. field. auto.
Qed.

Lemma sfd_facts diams slope : diams <> [] ->
  let p := get_sfd_prob diams slope in
  length p = length diams /\ Forall (fun x => 0 < x) p /\ Rsum p = 1.
Proof.
  intros Hn p. set (sfd := map (fun d => Rpower d slope) diams).
  assert (HF : Forall (fun x => 0 < x) sfd).
  { apply Forall_forall. intros x Hx. apply in_map_iff in Hx as (d & <- & _). apply Rpower_pos. }
  assert (Hs : 0 < Rsum sfd).
  { apply Rsum_pos; auto. unfold sfd. destruct diams; [congruence|discriminate]. }
  unfold p, get_sfd_prob. fold sfd. repeat split.
  - unfold sfd. now rewrite !map_length.
  - apply Forall_forall. intros x Hx. apply in_map_iff in Hx as (s & <- & Hs').
    rewrite Forall_forall in HF. apply Rdiv_lt_0_compat; auto.
  - rewrite Rsum_div by lra. field. lra.
Qed.

Lemma sfd_decreasing diams slope i j d d' p p' : slope < 0 -> Forall (fun x => 0 < x) diams ->
  nth_error diams i = Some d -> nth_error diams j = Some d' ->
  nth_error (get_sfd_prob diams slope) i = Some p -> nth_error (get_sfd_prob diams slope) j = Some p' ->
  d < d' -> p' < p.
Proof.
  intros Hs HF Hi Hj Hp Hp' Hd. unfold get_sfd_prob in *.
  set (sfd := map (fun d => Rpower d slope) diams) in *.
  assert (Hsum : 0 < Rsum sfd).
  { apply Rsum_pos.
    - unfold sfd. destruct diams; [destruct i; discriminate|discriminate].
    - apply Forall_forall. intros x Hx. apply in_map_iff in Hx as (y & <- & _). apply Rpower_pos. }
  rewrite nth_error_map in Hp, Hp'. unfold sfd in Hp, Hp'. rewrite nth_error_map in Hp, Hp'.
  rewrite Hi in Hp. rewrite Hj in Hp'. cbn [option_map] in *. injection Hp as <-. injection Hp' as <-.
  fold sfd. apply Rmult_lt_compat_r; [now apply Rinv_0_lt_compat|].
  apply Rpower_lt_neg; auto. apply (Forall_nth_error _ _ _ _ HF Hi).
Qed.

Lemma truncZ_pos x : 0 <= x -> truncZ x = Int_part x.
Proof. intros H. unfold truncZ. rcase x 0 E1'; [lra|reflexivity]. Qed.

Lemma diam_array_spec dmin dmax step : 0 < step -> step <= dmax - dmin ->
  exists ds n, get_diam_array dmin dmax step = Ok ds /\ (1 <= n)%nat /\ length ds = S n /\
    INR n * step <= dmax - dmin < INR (S n) * step /\
    (forall i, (i <= n)%nat -> nth_error ds i = Some (dmin + INR i * ((dmax - dmin) / INR n))).
Proof.
  intros Hs Hr. unfold get_diam_array.
  assert (E0 : Reqb step 0 = false) by (apply Reqb_false; lra). rewrite E0.
  set (q := (dmax - dmin) / step).
  assert (Hq : 1 <= q).
  { unfold q. apply Rmult_le_reg_r with step; auto.
    replace ((dmax - dmin) / step * step) with (dmax - dmin) by (field; lra). lra. }
  rewrite truncZ_pos by lra. pose proof (Int_part_bounds q) as HB.
  assert (Hn1 : (1 <= Int_part q)%Z).
  { assert (0 < Int_part q)%Z by (apply lt_IZR; lra). lia. }
  destruct (Z.ltb_spec (Int_part q + 1) 0); [lia|].
  set (n := Z.to_nat (Int_part q)).
  assert (En : INR n = IZR (Int_part q)) by (unfold n; rewrite INR_IZR_INZ, Z2Nat.id by lia; reflexivity).
  replace (Z.to_nat (Int_part q + 1)) with (S n) by (unfold n; lia).
  exists (linspace dmin dmax (S n)), n. split; auto. split; [unfold n; lia|]. split; [apply linspace_length|].
  split.
  - rewrite S_INR, En.
    assert (Eq : q * step = dmax - dmin) by (unfold q; field; lra). rewrite <- Eq. nra.
  - intros i Hi. rewrite linspace_nth by (unfold n in *; lia). rewrite S_INR. do 4 f_equal. ring.
Qed.

(** * Retention *)
Lemma retention_nonneg c v : 0 <= ice_retention_factor c v.
Proof. unfold ice_retention_factor. cbv zeta. match goal with |- 0 <= (if Rltb ?r 0 then 0 else ?r) => rcase r 0 E1' end; lra. Qed.

Lemma retention_slow c v : v < 10000 ->
  ice_retention_factor c v = if is_comet c then 1 else 1 / 2.
Proof.
  intros H. unfold ice_retention_factor. cbv zeta.
  assert (E10 : Rleb 10 (v * (1 / 1000)) = false) by (apply Rleb_false; lra). rewrite E10.
  assert (El : Rltb (v * (1 / 1000)) 10 = true) by (apply Rltb_true; lra). rewrite El.
  replace (if String.eqb (mode c) "cannon" then 1 else if String.eqb (mode c) "moonpies" then 1 else 1) with 1
    by (destruct (String.eqb (mode c) "cannon"), (String.eqb (mode c) "moonpies"); reflexivity).
  destruct (is_comet c); cbn [negb].
  - rcase 1 0 E1'; lra.
  - rcase (1 / 2) 0 E1'; lra.
Qed.

Lemma retention_fast c v : 10000 <= v ->
  ice_retention_factor c v =
    if String.eqb (mode c) "cannon" then 3626 / 100 * exp (- (3464 / 10000) * (v * (1 / 1000)))
    else if String.eqb (mode c) "moonpies" then 16600 * Rpower (v * (1 / 1000)) (- (416 / 100))
    else 1.
Proof.
  intros H. unfold ice_retention_factor. cbv zeta.
  assert (E10 : Rleb 10 (v * (1 / 1000)) = true) by (apply Rleb_true; lra). rewrite E10.
  assert (El : Rltb (v * (1 / 1000)) 10 = false) by (apply Rltb_false; lra). rewrite El.
  match goal with |- (if Rltb (if _ then ?r else ?r) 0 then _ else _) = _ => set (x := r) end.
  replace (if negb (is_comet c) then x else x) with x by (destruct (is_comet c); reflexivity).
  assert (0 < x).
  { unfold x. destruct (String.eqb (mode c) "cannon"); [|destruct (String.eqb (mode c) "moonpies")].
    - pose proof (exp_pos (- (3464 / 10000) * (v * (1 / 1000)))). lra.
    - pose proof (Rpower_pos (v * (1 / 1000)) (- (416 / 100))). lra.
    - lra. }
  rcase x 0 E1'; [lra|reflexivity].
Qed.

Lemma retention_decreasing c v v' :
  mode c = "cannon"%string \/ mode c = "moonpies"%string -> 10000 <= v -> v < v' ->
  ice_retention_factor c v' < ice_retention_factor c v.
Proof.
  intros Hm Hv Hvv. rewrite !retention_fast by lra.
  destruct Hm as [-> | ->]; cbn [String.eqb Ascii.eqb Bool.eqb].
  - apply Rmult_lt_compat_l; [lra|]. apply exp_increasing. lra.
  - apply Rmult_lt_compat_l; [lra|]. apply Rpower_lt_neg; lra.
Qed.

Lemma pow2_lower a x y : 0 <= a -> a <= x -> y <= a * a -> y <= x * x.
Proof. intros. nra. Qed.

Lemma exp_3464 : 28 / 1000 < exp (- (3464 / 1000)).
Proof.
  set (h := exp (- (3464 / 64000))).
  assert (H0 : 9458 / 10000 <= h).
  { unfold h. pose proof (exp_ineq1_le (- (3464 / 64000))). lra. }
  assert (E : exp (- (3464 / 1000)) = (((((h * h) * (h * h)) * ((h * h) * (h * h))) * (((h * h) * (h * h)) * ((h * h) * (h * h))))
     * ((((h * h) * (h * h)) * ((h * h) * (h * h))) * (((h * h) * (h * h)) * ((h * h) * (h * h)))))
     * (((((h * h) * (h * h)) * ((h * h) * (h * h))) * (((h * h) * (h * h)) * ((h * h) * (h * h))))
     * ((((h * h) * (h * h)) * ((h * h) * (h * h))) * (((h * h) * (h * h)) * ((h * h) * (h * h)))))
     ).
  { unfold h. rewrite <- !exp_plus. f_equal. lra. }
  rewrite E. clear E.
  assert (H1 : 8945 / 10000 <= h * h) by (apply (pow2_lower (9458 / 10000)); lra).
  set (a := h * h) in *. assert (H2 : 8001 / 10000 <= a * a) by (apply (pow2_lower (8945 / 10000)); lra).
  set (b := a * a) in *. assert (H3 : 64 / 100 <= b * b) by (apply (pow2_lower (8001 / 10000)); lra).
  set (d := b * b) in *. assert (H4 : 4096 / 10000 <= d * d) by (apply (pow2_lower (64 / 100)); lra).
  set (e := d * d) in *. assert (H5 : 1677 / 10000 <= e * e) by (apply (pow2_lower (4096 / 10000)); lra).
  set (f := e * e) in *. assert (H6 : 281 / 10000 <= f * f) by (apply (pow2_lower (1677 / 10000)); lra).
  lra.
Qed.

Lemma pow10_416 : Rpower 10 (416 / 100) < 16600.
Proof.
  replace (416 / 100) with (INR 4 + 4 / 25) by (simpl; lra). rewrite Rpower_plus, Rpower_pow by lra.
  assert (Rpower 10 (4 / 25) < 166 / 100).
  { rewrite <- (Rpower_inv_exp (166 / 100) 25) by lra.
    replace (4 / 25) with (INR 4 * (1 / 25)) by (simpl; lra). rewrite <- Rpower_mult.
    apply Rpower_lt_pos; [lra|apply Rpower_pos|]. rewrite Rpower_pow by lra.
    replace 25 with (INR 25) by (rewrite INR_IZR_INZ; cbn; lra). rewrite Rpower_pow by lra. lra. }
  lra.
Qed.

Lemma retention_above_one c : mode c = "cannon"%string \/ mode c = "moonpies"%string ->
  1 < ice_retention_factor c 10000.
Proof.
  intros Hm. rewrite retention_fast by lra.
  destruct Hm as [-> | ->]; cbn [String.eqb Ascii.eqb Bool.eqb].
  - replace (- (3464 / 10000) * (10000 * (1 / 1000))) with (- (3464 / 1000)) by lra.
    pose proof exp_3464. lra.
  - replace (10000 * (1 / 1000)) with 10 by lra. rewrite Rpower_Ropp.
    pose proof pow10_416. pose proof (Rpower_pos 10 (416 / 100)).
    apply Rmult_lt_reg_r with (Rpower 10 (416 / 100)); auto.
    replace (16600 * / Rpower 10 (416 / 100) * Rpower 10 (416 / 100)) with 16600 by (field; lra). lra.
Qed.

(** * Partition *)
Lemma share_sum c n : is_comet c = false -> comets_on c = true ->
  share c n + share (get_comet_cfg c) n = share (without_comets c) n.
Proof. intros H1 H2. unfold share. cbn. rewrite H1, H2. lra. Qed.

Lemma crater_pop_partition c time regime diams nt prob :
  is_comet c = false -> comets_on c = true ->
  get_crater_pop c time regime = Ok (diams, nt, prob) ->
  exists nc na, get_crater_pop (get_comet_cfg c) time regime = Ok (diams, nc, prob) /\
    get_crater_pop (without_comets c) time regime = Ok (diams, na, prob) /\
    length nt = length time /\ length nc = length time /\ length na = length time /\
    forall i a b t, nth_error nt i = Some a -> nth_error nc i = Some b -> nth_error na i = Some t ->
      a + b = t.
Proof.
  intros H1 H2 H. unfold get_crater_pop in *. unfold regime_of in *.
  change (regimes (get_comet_cfg c)) with (regimes c). change (regimes (without_comets c)) with (regimes c).
  destruct (regimes c regime) as [[[[dmin dmax] step] slope]|]; [|discriminate]. cbn [bind] in *.
  destruct (get_crater_sfd dmin dmax step slope) as [[ds p]|]; [|discriminate]. cbn [bind] in *.
  injection H as <- <- <-. eexists. eexists. split; [reflexivity|]. split; [reflexivity|].
  rewrite !map_length. repeat split; auto.
  intros i a b t. rewrite !nth_error_map. destruct (nth_error time i) as [x|]; [|discriminate].
  cbn [option_map]. intros [= <-] [= <-] [= <-]. 
  change (num_craters_chronology (get_comet_cfg c)) with (num_craters_chronology c).
  change (num_craters_chronology (without_comets c)) with (num_craters_chronology c).
  now apply share_sum.
Qed.

Lemma small_pop_partition c time diams nt : is_comet c = false -> comets_on c = true ->
  get_small_impactor_pop c time = Ok (diams, nt) ->
  exists nc na, get_small_impactor_pop (get_comet_cfg c) time = Ok (diams, nc) /\
    get_small_impactor_pop (without_comets c) time = Ok (diams, na) /\
    length nt = length time /\ length nc = length time /\ length na = length time /\
    forall i j ra rb rt a b t, nth_error nt i = Some ra -> nth_error nc i = Some rb -> nth_error na i = Some rt ->
      nth_error ra j = Some a -> nth_error rb j = Some b -> nth_error rt j = Some t -> a + b = t.
Proof.
  intros H1 H2 H. unfold get_small_impactor_pop in *. unfold regime_of in *.
  change (regimes (get_comet_cfg c)) with (regimes c). change (regimes (without_comets c)) with (regimes c).
  destruct (regimes c "b"%string) as [[[[dmin dmax] step] slope]|]; [|discriminate]. cbn [bind] in *.
  destruct (get_crater_sfd dmin dmax step slope) as [[ds p]|]; [|discriminate]. cbn [bind] in *.
  injection H as <- <-. eexists. eexists. split; [reflexivity|]. split; [reflexivity|].
  rewrite !map_length. repeat split; auto.
  intros i j ra rb rt a b t. rewrite !nth_error_map. destruct (nth_error time i) as [x|]; [|discriminate].
  cbn [option_map]. intros [= <-] [= <-] [= <-]. rewrite !nth_error_map.
  destruct (nth_error p j) as [y|]; [|discriminate]. cbn [option_map]. intros [= <-] [= <-] [= <-].
  unfold get_impactors_brown. change (timestep (get_comet_cfg c)) with (timestep c).
  change (timestep (without_comets c)) with (timestep c).
  match goal with |- share c ?m * _ * _ + _ = _ => pose proof (share_sum c m H1 H2) as S end.
  cbn [brown_c0 brown_d0 earth_moon_ratio get_comet_cfg without_comets with_flags] in *.
  rewrite <- S. ring.
Qed.

(** * Distribution *)
Lemma vadd_nth a b i x y : nth_error a i = Some x -> nth_error b i = Some y ->
  nth_error (vadd a b) i = Some (x + y).
Proof.
  intros Ha Hb. unfold vadd. rewrite nth_error_map, (combine_nth_error _ _ i x y) by auto. reflexivity.
Qed.
Lemma vadd_length a b : length a = length b -> length (vadd a b) = length a.
Proof. intros H. unfold vadd. rewrite map_length, combine_length, H. apply Nat.min_id. Qed.
Lemma vadd_nonneg a b : Forall (fun x => 0 <= x) a -> Forall (fun x => 0 <= x) b ->
  Forall (fun x => 0 <= x) (vadd a b).
Proof.
  intros Ha Hb. unfold vadd. apply Forall_forall. intros x Hx.
  apply in_map_iff in Hx as ([p q] & <- & Hin).
  rewrite Forall_forall in Ha, Hb. pose proof (Ha _ (in_combine_l _ _ _ _ Hin)).
  pose proof (Hb _ (in_combine_r _ _ _ _ Hin)). lra.
Qed.

Lemma distribute_spec c bhop names polar volc :
  length volc = length polar ->
  (hop_moores c = true -> forall n, In n names -> exists h, bhop n = Some h) ->
  exists rows, distribute_ice c bhop names polar volc = Ok rows /\ length rows = length polar /\
    forall i j p v n, nth_error polar i = Some p -> nth_error volc i = Some v -> nth_error names j = Some n ->
      exists row x, nth_error rows i = Some row /\ length row = length names /\ nth_error row j = Some x /\
        let hop := if hop_moores c then match bhop n with Some h => h / hop_effcy c | None => 0 end else 1 in
        x = if use_volc_dep c then hop * p + v * (volc_dep_effcy c / hop_effcy c) else hop * (p + v).
Proof.
  intros HL Hb. unfold distribute_ice.
  set (pv := if use_volc_dep c then _ else _).
  assert (Hpv : exists P V, pv = (P, V) /\ length P = length polar /\ length V = length polar /\
    forall i p v, nth_error polar i = Some p -> nth_error volc i = Some v ->
      exists p' v', nth_error P i = Some p' /\ nth_error V i = Some v' /\
        p' = (if use_volc_dep c then p else p + v) /\
        v' = (if use_volc_dep c then v * (volc_dep_effcy c / hop_effcy c) else 0)).
  { unfold pv. destruct (use_volc_dep c).
    - exists polar, (map (fun v => v * (volc_dep_effcy c / hop_effcy c)) volc). rewrite map_length.
      repeat split; auto. intros i p v Hp Hv. exists p, (v * (volc_dep_effcy c / hop_effcy c)).
      rewrite nth_error_map, Hv. auto.
    - exists (vadd polar volc), (map (fun v => v * 0) volc). rewrite map_length, vadd_length by auto.
      repeat split; auto. intros i p v Hp Hv. exists (p + v), 0.
      rewrite nth_error_map, Hv, (vadd_nth _ _ i p v) by auto. cbn [option_map]. rewrite Rmult_0_r. auto. }
  destruct Hpv as (P & V & -> & HP & HV & Hpv).
  set (hopf := fun n => if hop_moores c then match bhop n with Some h => h / hop_effcy c | None => 0 end else 1).
  assert (Hrows : (if hop_moores c
     then let* bhops := get_ballistic_hop_coldtraps bhop names in
          Ok (map (fun p => map (fun b => b / hop_effcy c * p) bhops) P)
     else Ok (map (fun p => map (fun _ => p) names) P))
     = Ok (map (fun p => map (fun n => hopf n * p) names) P)).
  { unfold hopf. destruct (hop_moores c).
    - assert (E : get_ballistic_hop_coldtraps bhop names
                  = Ok (map (fun n => match bhop n with Some h => h | None => 0 end) names)).
      { unfold get_ballistic_hop_coldtraps. specialize (Hb eq_refl).
        clear - Hb. induction names as [|n l IH]; [reflexivity|]. cbn [mapM map].
        destruct (Hb n (or_introl eq_refl)) as [h ->]. cbn [bind]. rewrite IH; [reflexivity|].
        intros m Hm. apply Hb. now right. }
      rewrite E. cbn [bind]. f_equal. apply map_ext. intros p. rewrite map_map. apply map_ext_in.
      intros n Hn. destruct (Hb eq_refl n Hn) as [h ->]. reflexivity.
    - f_equal. apply map_ext. intros p. apply map_ext. intros n. lra. }
  rewrite Hrows. cbn [bind]. eexists; split; [reflexivity|]. split.
  - rewrite map_length, combine_length, map_length, HP, HV. apply Nat.min_id.
  - intros i j p v n Hp Hv Hn. destruct (Hpv i p v Hp Hv) as (p' & v' & Hp' & Hv' & Ep & Ev).
    exists (map (fun x => x + v') (map (fun n => hopf n * p') names)), (hopf n * p' + v').
    rewrite nth_error_map. rewrite (combine_nth_error _ _ i (map (fun n => hopf n * p') names) v').
    + split; [reflexivity|]. rewrite !map_length. split; [reflexivity|].
      rewrite !nth_error_map, Hn. split; [reflexivity|]. unfold hopf. rewrite Ep, Ev.
      destruct (use_volc_dep c); [reflexivity|]. lra.
    + now rewrite nth_error_map, Hp'.
    + exact Hv'.
Qed.

(** * Overturn *)
Lemma overturn_nth c time i t : nth_error time i = Some t ->
  nth_error (overturn_depth_time c time) i
  = Some (if costello c
          then (if Rltb (overturn_t0 c) t
                then 1 * overturn_present c * (overturn_slope c * (t - overturn_t0 c) + 1)
                else 1 * overturn_present c)
          else ice_erosion_rate c * (timestep c / 10000000) * 1).
Proof.
  intros H. unfold overturn_depth_time. destruct (costello c).
  - unfold overturn_depth_costello_time. rewrite nth_error_map, H. reflexivity.
  - rewrite nth_error_map, H. reflexivity.
Qed.

Lemma overturn_shape c time i t d : costello c = true ->
  0 <= overturn_present c -> 0 <= overturn_slope c ->
  nth_error time i = Some t -> nth_error (overturn_depth_time c time) i = Some d ->
  overturn_present c <= d /\
  (t <= overturn_t0 c -> d = overturn_present c) /\
  (overturn_t0 c <= t -> d = overturn_present c * (1 + overturn_slope c * (t - overturn_t0 c))).
Proof.
  intros Hc Hp Hs Ht Hd. rewrite (overturn_nth c time i t Ht), Hc in Hd. injection Hd as <-.
  rcase (overturn_t0 c) t H.
  - assert (0 <= overturn_slope c * (t - overturn_t0 c)) by (apply Rmult_le_pos; lra).
    repeat split; intros; [nra|lra|ring].
  - repeat split; intros; try lra. replace t with (overturn_t0 c) by lra. ring.
Qed.
