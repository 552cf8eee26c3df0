(** Lemmas on the figure of volatilized fractions. *)
From Coq Require Import String List ZArith Reals Lia Lra Bool Permutation.
From Verif Require Import Base Model_Time Model_Geo Model_Crater Model_Ice Model_Rng Model_Melt Model_Main Model_Basin Model_Maps Model_Volatile
  Spec_Time Spec_Geo Spec_Ice Spec_Main Spec_Ages Spec_Maps Spec_Volatile
  Proofs_Base Proofs_Time Proofs_Geo Proofs_Crater Proofs_Ice Proofs_Rng Proofs_Main Proofs_Basin Proofs_Ages Proofs_Maps.
Import ListNotations.
Open Scope R_scope.

(** ** Least and greatest *)
Lemma fold_max_spec l : forall x, In (fold_left Rmax l x) (x :: l) /\ forall y, In y (x :: l) -> y <= fold_left Rmax l x.
Proof.
  induction l as [|a l IH]; intros x; cbn [fold_left]; [split; [now left|intros y [->|[]]; lra]|].
  destruct (IH (Rmax x a)) as [I M]. split.
  - destruct I as [E|I]; [|right; now right]. rewrite <- E. unfold Rmax. destruct (Rle_dec x a); cbn; auto.
  - intros y [->|[->|I']]; [| |apply M; now right]; (apply Rle_trans with (Rmax x a) || apply Rle_trans with (Rmax x y) || apply Rle_trans with (Rmax y a));
      try (apply M; now left); auto using Rmax_l, Rmax_r.
Qed.
Lemma fold_min_spec l : forall x, In (fold_left Rmin l x) (x :: l) /\ forall y, In y (x :: l) -> fold_left Rmin l x <= y.
Proof.
  induction l as [|a l IH]; intros x; cbn [fold_left]; [split; [now left|intros y [->|[]]; lra]|].
  destruct (IH (Rmin x a)) as [I M]. split.
  - destruct I as [E|I]; [|right; now right]. rewrite <- E. unfold Rmin. destruct (Rle_dec x a); cbn; auto.
  - intros y [->|[->|I']]; [| |apply M; now right]; (apply Rle_trans with (Rmin x a) || apply Rle_trans with (Rmin x y) || apply Rle_trans with (Rmin y a));
      try (apply M; now left); auto using Rmin_l, Rmin_r.
Qed.
Lemma greatest_spec l : (exists m, greatest l = Ok m /\ is_greatest (fun x => In x l) m) \/ (l = [] /\ greatest l = Err ValueError).
Proof. destruct l as [|x r]; [right; auto|left]. eexists. split; [reflexivity|]. apply fold_max_spec. Qed.
Lemma least_spec l : (exists m, least l = Ok m /\ is_least (fun x => In x l) m) \/ (l = [] /\ least l = Err ValueError).
Proof. destruct l as [|x r]; [right; auto|left]. eexists. split; [reflexivity|]. apply fold_min_spec. Qed.
Lemma greatest_iff (P Q : R -> Prop) m : (forall x, P x <-> Q x) -> is_greatest P m -> is_greatest Q m.
Proof. intros H [A B]. split; [now apply H|]. intros x Hx. apply B. now apply H. Qed.
Lemma least_iff (P Q : R -> Prop) m : (forall x, P x <-> Q x) -> is_least P m -> is_least Q m.
Proof. intros H [A B]. split; [now apply H|]. intros x Hx. apply B. now apply H. Qed.
Lemma greatest_unique P m m' : is_greatest P m -> is_greatest P m' -> m = m'.
Proof. intros [A B] [A' B']. pose proof (B _ A'). pose proof (B' _ A). lra. Qed.
Lemma least_unique P m m' : is_least P m -> is_least P m' -> m = m'.
Proof. intros [A B] [A' B']. pose proof (B _ A'). pose proof (B' _ A). lra. Qed.
Lemma percent_share mr : percent mr = share mr.
Proof. unfold percent, share, Rdiv. ring. Qed.

Lemma insert_spec t : (~ In 100 (t_temps t) /\ insert_zero t = Ok (mk_table (t_mrs t) (100 :: t_temps t) (map (cons 0) (t_vals t)))) \/
  (In 100 (t_temps t) /\ insert_zero t = Err ValueError).
Proof.
  unfold insert_zero. destruct (existsb (Reqb 100) (t_temps t)) eqn:E.
  - right. split; [|reflexivity]. apply existsb_exists in E as (x & I & H). apply Reqb_true in H. now subst x.
  - left. split; [|reflexivity]. intros I. assert (H : existsb (Reqb 100) (t_temps t) = true); [|congruence].
    apply existsb_exists. exists 100. split; [exact I|]. now apply Reqb_true.
Qed.

(** ** Distances *)
Section Rows.
  Variables (c : rcfg) (craters basins : list raw) (ls : list (bool * raw)) (df : list (crater info)).
  Hypothesis P : Permutation ls (both craters basins).
  Hypothesis F : Forall2 (row_for c) ls df.
  Hypothesis ND : NoDup (map w_name (craters ++ basins)).
  Hypothesis Dm : Forall (fun w => 0 <= w_diam w) (craters ++ basins).
  Notation apart_ := (apart c craters basins).

  Lemma apart_dist t r n : In t ls -> row_for c t r -> coldtrap_dist (r_ejthr c) (r_basinthr c) (map site_of df) (site_of r) n = Ok (apart_ t n).
  Proof.
    intros It (B & Nm & Rd & Lo & La & _). unfold coldtrap_dist, apart. cbn [site_of s_name s_rad s_lon s_lat]. rewrite Nm.
    destruct (String.eqb_spec (w_name (snd t)) n) as [En|En].
    { destruct (find _ _); reflexivity. }
    rewrite filter_site. pose proof (filter_name_unique (fun d => d_name (c_rest d)) n df (nodup_along c craters basins ls df P F ND)) as U.
    destruct (find (fun d => String.eqb (w_name d) n) (craters ++ basins)) as [d|] eqn:Ef.
    - apply find_some in Ef as [Id En']. apply String.eqb_eq in En'. rewrite <- both_snd in Id. apply in_map_iff in Id as (t' & Et & It').
      apply (Permutation_in _ (Permutation_sym P)) in It'. destruct (Forall2_in_l _ _ _ _ F It') as (r' & Ir' & Rr').
      assert (N' : d_name (c_rest r') = n) by (destruct Rr' as (_ & -> & _); rewrite Et; exact En').
      destruct (filter (fun d0 => String.eqb (d_name (c_rest d0)) n) df) as [|dst [|? ?]] eqn:Fl; [| |destruct U].
      { destruct U. rewrite <- N'. now apply (in_map (fun d => d_name (c_rest d))). }
      assert (dst = r') as ->.
      { assert (I : In r' [dst]) by (rewrite <- Fl; apply filter_In; split; [exact Ir'|now apply String.eqb_eq]). destruct I as [->|[]]. reflexivity. }
      destruct Rr' as (_ & _ & _ & _ & _ & Plo & Pla & _). cbn [map site_of s_plon s_plat]. rewrite Rd, Lo, La, Plo, Pla, Et. cbn [negb andb].
      change default_rp with 1737400. fold (radius (snd t)). set (g := gc_dist 1737400 _ _ _ _). cbv zeta.
      assert (R0 : 0 <= radius (snd t)).
      { rewrite Forall_forall in Dm. pose proof (Dm _ (line_in craters basins ls P t It)). unfold radius. lra. }
      unfold ej_limit, below_limit. cbn [s_basin site_of]. rewrite B. set (lim := if fst t then r_basinthr c else r_ejthr c).
      rcase lim 0 Hl; cbn [orb].
      + rcase (radius (snd t)) g Hg; cbn [andb]; [|reflexivity]. assert (Rleb g 0 = false) as -> by (apply Rleb_false; lra). reflexivity.
      + rcase (radius (snd t)) g Hg; cbn [andb]; [|reflexivity]. destruct (Rltb g (lim * radius (snd t))); [|reflexivity].
        assert (Rleb g 0 = false) as -> by (apply Rleb_false; lra). reflexivity.
    - assert (filter (fun d => String.eqb (d_name (c_rest d)) n) df = []) as ->; [|reflexivity].
      destruct (filter _ df) as [|x [|? ?]]; [reflexivity| |destruct U]. destruct U as [Ix Nx]. exfalso.
      destruct (Forall2_in_r _ _ _ _ F Ix) as (t' & It' & Rt'). pose proof (find_none _ _ Ef _ (line_in craters basins ls P t' It')) as Q. cbv beta in Q.
      destruct Rt' as (_ & N' & _). rewrite <- N', Nx, String.eqb_refl in Q. discriminate.
  Qed.
  Lemma aparts : get_coldtrap_dists (r_ejthr c) (r_basinthr c) (r_names c) (map site_of df) = Ok (map (fun t => map (apart_ t) (r_names c)) ls).
  Proof.
    unfold get_coldtrap_dists. apply mapM_along.
    assert (G : forall l d, Forall2 (row_for c) l d -> incl l ls ->
      Forall2 (fun t r => mapM (coldtrap_dist (r_ejthr c) (r_basinthr c) (map site_of df) (site_of r)) (r_names c) = Ok (map (apart_ t) (r_names c))) l d).
    { induction 1 as [|t r l d Rr _ IH]; intros I; constructor.
      - apply mapM_ok. intros n _. apply apart_dist; [apply I; now left|exact Rr].
      - apply IH. intros x Hx. apply I. now right. }
    apply G; [exact F|apply incl_refl].
  Qed.
  Lemma mixing_aparts : get_mixing_ratio_oberbeck (r_bsed c) (map (fun t => map (apart_ t) (r_names c)) ls)
    = map (fun t => map (fun n => option_map (oberbeck c) (apart_ t n)) (r_names c)) ls.
  Proof.
    unfold get_mixing_ratio_oberbeck. rewrite map_map. apply map_ext. intros t. rewrite map_map. apply map_ext. intros n.
    destruct (apart_ t n); [|reflexivity]. cbn [option_map]. now rewrite oberbeck_eq.
  Qed.
  Lemma marked (b : bool) : map (fun s => if b then s_basin s else negb (s_basin s)) (map site_of df) = map (fun t => Bool.eqb (fst t) b) ls.
  Proof.
    pose proof F as F0. revert F0. clear. induction 1 as [|t r l d Rr _ IH]; [reflexivity|]. cbn [map]. rewrite IH. f_equal. destruct Rr as (B & _).
    cbn [site_of s_basin]. rewrite B. destruct b, (fst t); reflexivity.
  Qed.
  Lemma percents_in b p : In p (percents (map (fun t => Bool.eqb (fst t) b) ls) (map (fun t => map (fun n => option_map (oberbeck c) (apart_ t n)) (r_names c)) ls))
    <-> share_of c craters basins b p.
  Proof.
    unfold percents, share_of. rewrite in_flat_map.
    assert (K : forall o, In o (concat (map snd (filter fst (combine (map (fun t => Bool.eqb (fst t) b) ls) (map (fun t => map (fun n => option_map (oberbeck c) (apart_ t n)) (r_names c)) ls))))) <->
      exists t n, In t ls /\ fst t = b /\ In n (r_names c) /\ o = option_map (oberbeck c) (apart_ t n)).
    { intros o. clear P F. induction ls as [|t l IH]; cbn [map combine filter concat].
      - split; [intros []|intros (t & n & [] & _)].
      - cbn [fst]. destruct (Bool.eqb (fst t) b) eqn:E; cbn [map concat snd].
        + rewrite in_app_iff, IH. apply eqb_prop in E. split.
          * intros [I|(t' & n & I & H)]; [|exists t', n; cbn [In]; tauto]. apply in_map_iff in I as (n & <- & In_). exists t, n. cbn [In]. auto.
          * intros (t' & n & [->|I] & H1 & H2 & H3); [left|right; exists t', n; auto]. subst o. apply (in_map (fun n => option_map (oberbeck c) (apart_ t' n))). exact H2.
        + rewrite IH. split.
          * intros (t' & n & I & H). exists t', n. cbn [In]. tauto.
          * intros (t' & n & [->|I] & H1 & H2); [|exists t', n; auto]. rewrite H1 in E. destruct b; discriminate. }
    assert (IB : forall t, In t ls <-> In (snd t) (if fst t then basins else craters)).
    { intros t. split; intros I.
      - apply (Permutation_in _ P) in I. unfold both in I. apply in_app_iff in I as [I|I]; apply in_map_iff in I as (w & <- & I); exact I.
      - apply (Permutation_in _ (Permutation_sym P)). unfold both. apply in_app_iff. destruct t as [[|] w]; cbn [fst snd] in I; [right|left]; now apply in_map. }
    split.
    - intros (o & Io & Ip). apply K in Io as (t & n & It & Eb & In_ & ->). destruct (apart_ t n) as [d|] eqn:Ed; [|destruct Ip].
      cbn [option_map] in Ip. destruct Ip as [<-|[]]. apply IB in It. subst b. exists (snd t), n, d. rewrite percent_share. destruct t; auto.
    - intros (w & n & d & Iw & In_ & Ed & ->). exists (Some (oberbeck c d)). split; [|left; apply percent_share].
      apply K. exists (b, w), n. rewrite Ed. split; [apply IB; exact Iw|]. auto.
  Qed.
End Rows.

Definition drawable (c : rcfg) (craters basins : list raw) (mean std : table) : Prop :=
  ~ In 100 (t_temps mean) /\ ~ In 100 (t_temps std) /\ t_mrs mean <> [] /\
  (exists p, share_of c craters basins false p) /\ (exists p, share_of c craters basins true p).

Lemma volatile_ok c ppf sort craters basins entropy mean std : distances_sane c ppf sort craters basins entropy ->
  (drawable c craters basins mean std /\ exists g, volatilized_fraction_bsed c ppf sort craters basins entropy mean std = Ok g /\
     image_of (t_mrs mean) (t_temps mean) (t_vals mean) (f_mean g) /\ image_of (t_mrs mean) (t_temps mean) (t_vals std) (f_std g) /\
     marker_of c craters basins false (temp_init (r_bsed c)) (f_crater g) /\
     marker_of c craters basins true (temp_cold (r_bsed c)) (f_cold g) /\ marker_of c craters basins true (temp_warm (r_bsed c)) (f_warm g)) \/
  (~ drawable c craters basins mean std /\ volatilized_fraction_bsed c ppf sort craters basins entropy mean std = Err ValueError).
Proof.
  intros [S ND Dm]. destruct (fresh_total c ppf sort craters basins entropy 0) as (df & Fr).
  destruct (fresh_rows _ _ _ _ _ _ _ S Fr) as (rows & P & F & _).
  assert (F' : Forall2 (fun r t => row_for c t r) rows (both craters basins)) by (clear - F; induction F; constructor; auto).
  destruct (Permutation_Forall2 (Permutation_sym P) F') as (ls & Pl' & Fl').
  assert (Fl : Forall2 (row_for c) ls df) by (clear - Fl'; induction Fl'; constructor; auto). pose proof (Permutation_sym Pl') as Pl.
  unfold volatilized_fraction_bsed. rewrite Fr. cbn [bind]. unfold volatile_rows, drawable.
  destruct (insert_spec mean) as [[N1 ->]|[N1 ->]]; [|right; split; [tauto|reflexivity]]. cbn [bind].
  destruct (insert_spec std) as [[N2 ->]|[N2 ->]]; [|right; split; [tauto|reflexivity]]. cbn [bind t_temps t_mrs t_vals].
  destruct (least_spec (100 :: t_temps mean)) as [(tmin & -> & Hmin)|[H _]]; [|discriminate]. cbn [bind].
  destruct (greatest_spec (100 :: t_temps mean)) as [(tmax & -> & Hmax)|[H _]]; [|discriminate]. cbn [bind].
  destruct (greatest_spec (map percent (t_mrs mean))) as [(top & -> & Htop)|[H ->]]; cbn [bind].
  2:{ apply map_eq_nil in H. right. split; [tauto|reflexivity]. }
  assert (Nm : t_mrs mean <> []) by (intros Q; destruct Htop as [I _]; rewrite Q in I; exact I).
  rewrite (aparts c craters basins ls df Pl Fl ND Dm). cbn [bind]. rewrite mixing_aparts.
  rewrite (marked c ls df Fl false). replace (map s_basin (map site_of df)) with (map (fun t => Bool.eqb (fst t) true) ls) by (symmetry; exact (marked c ls df Fl true)).
  pose proof (percents_in c craters basins ls Pl false) as Ic. pose proof (percents_in c craters basins ls Pl true) as Ib.
  destruct (least_spec (percents (map (fun t => Bool.eqb (fst t) false) ls) (map (fun t => map (fun n => option_map (oberbeck c) (apart c craters basins t n)) (r_names c)) ls)))
    as [(cl & -> & Hcl)|[H ->]]; cbn [bind].
  2:{ right. split; [|reflexivity]. intros (_ & _ & _ & (p & Hp) & _). apply Ic in Hp. rewrite H in Hp. exact Hp. }
  destruct (greatest_spec (percents (map (fun t => Bool.eqb (fst t) false) ls) (map (fun t => map (fun n => option_map (oberbeck c) (apart c craters basins t n)) (r_names c)) ls)))
    as [(ch & -> & Hch)|[H _]]; cbn [bind]; [|destruct Hcl as [I _]; rewrite H in I; destruct I].
  destruct (least_spec (percents (map (fun t => Bool.eqb (fst t) true) ls) (map (fun t => map (fun n => option_map (oberbeck c) (apart c craters basins t n)) (r_names c)) ls)))
    as [(bl & -> & Hbl)|[H ->]]; cbn [bind].
  2:{ right. split; [|reflexivity]. intros (_ & _ & _ & _ & (p & Hp)). apply Ib in Hp. rewrite H in Hp. exact Hp. }
  destruct (greatest_spec (percents (map (fun t => Bool.eqb (fst t) true) ls) (map (fun t => map (fun n => option_map (oberbeck c) (apart c craters basins t n)) (r_names c)) ls)))
    as [(bh & -> & Hbh)|[H _]]; cbn [bind]; [|destruct Hbl as [I _]; rewrite H in I; destruct I].
  left. split.
  { split; [exact N1|]. split; [exact N2|]. split; [exact Nm|]. split; [exists cl; apply Ic; apply Hcl|exists bl; apply Ib; apply Hbl]. }
  eexists. split; [reflexivity|]. cbn [f_mean f_std f_crater f_cold f_warm].
  assert (Im : forall vals, image_of (t_mrs mean) (t_temps mean) vals (mk_image tmin tmax 0 top (map (map (fun v => v * 100)) (map (cons 0) vals)))).
  { intros vals. constructor; cbn [im_left im_right im_bottom im_top im_rows]; [| |reflexivity| |].
    - eapply least_iff; [|exact Hmin]. intros x. cbn [In]. intuition congruence.
    - eapply greatest_iff; [|exact Hmax]. intros x. cbn [In]. intuition congruence.
    - eapply greatest_iff; [|exact Htop]. intros x. rewrite in_map_iff. split; intros (m & A & B); exists m; [rewrite <- percent_share|rewrite percent_share]; auto.
    - rewrite map_map. apply map_ext. intros row. cbn [map]. f_equal; [lra|]. apply map_ext. intros v. lra. }
  split; [apply Im|]. split; [apply Im|].
  assert (Mk : forall b temp lo hi l, (forall p, In p l <-> share_of c craters basins b p) -> is_least (fun x => In x l) lo -> is_greatest (fun x => In x l) hi ->
    marker_of c craters basins b temp (mk_marker temp lo hi)).
  { intros b temp lo hi l I A B. split; [reflexivity|]. split; [eapply least_iff; [exact I|exact A]|eapply greatest_iff; [exact I|exact B]]. }
  repeat split; try apply (Mk _ _ _ _ _ Ic Hcl Hch); apply (Mk _ _ _ _ _ Ib Hbl Hbh).
Qed.

(** ** Pixels *)
Lemma slot_unique (z h y : R) (i i' : nat) : z - (INR i + 1) * h < y < z - INR i * h -> z - (INR i' + 1) * h < y < z - INR i' * h -> i = i'.
Proof.
  intros A B. assert (H : 0 < h) by nra.
  assert (L : forall a b : nat, INR a * h < (INR b + 1) * h -> (a <= b)%nat).
  { intros a b Q. apply Rmult_lt_reg_r in Q; [|exact H]. rewrite <- S_INR in Q. apply INR_lt in Q. lia. }
  pose proof (L i i' ltac:(lra)). pose proof (L i' i ltac:(lra)). lia.
Qed.
Lemma pixel_unique im n x y v v' : (forall row, In row (im_rows im) -> length row = n) -> pixel im x y v -> pixel im x y v' -> v = v'.
Proof.
  intros L (i & j & row & A1 & A2 & A3) (i' & j' & row' & B1 & B2 & B3). cbv zeta in A3, B3.
  rewrite (L row), (L row') in * by (eapply nth_error_In; eauto).
  assert (i = i') as <- by (eapply slot_unique; [apply A3|apply B3]).
  assert (j = j') as <-.
  { destruct A3 as [A3 _], B3 as [B3 _]. set (w := (im_right im - im_left im) / INR n) in *. apply (slot_unique (- im_left im) w (- x)); lra. }
  congruence.
Qed.

Lemma regular_ends s t vals im : regular s t -> image_of (t_mrs t) (t_temps t) vals im ->
  im_left im = 100 /\ im_right im = 100 + s * (if t_temps t then 0 else INR (length (t_temps t)) + 1) /\ im_bottom im = 0 /\ im_top im = 100.
Proof.
  intros (Hs & T & (rest & M) & Nn & _) [L Rr B Tp _]. assert (Pos : forall x, In x (t_temps t) -> 100 < x).
  { intros x I. rewrite T in I. apply in_map_iff in I as (j & <- & _). pose proof (pos_INR j). nra. }
  split.
  { apply (least_unique _ _ _ L). split; [now left|]. intros x [->|I]; [lra|]. apply Pos in I. lra. }
  split.
  { apply (greatest_unique _ _ _ Rr). destruct (t_temps t) as [|a l] eqn:E.
    - split; [left; lra|]. intros x [->|[]]. lra.
    - set (n := length (a :: l)) in *. assert (Hn : n = S (length l)) by reflexivity. split.
      + right. rewrite T. apply in_map_iff. exists (length l). split; [|apply in_seq; lia]. rewrite Hn, S_INR. lra.
      + intros x [->|I]; [pose proof (pos_INR n); nra|]. rewrite T in I. apply in_map_iff in I as (j & <- & Ij). apply in_seq in Ij.
        assert (INR j + 1 <= INR n) by (rewrite <- S_INR; apply le_INR; lia). nra. }
  split; [exact B|]. apply (greatest_unique _ _ _ Tp). rewrite M. split.
  - exists 0. split; [now left|]. unfold share. lra.
  - intros x (mr & I & ->). rewrite Forall_forall in Nn. rewrite <- M in I. apply Nn in I. unfold share.
    apply Rmult_le_reg_r with (1 + mr); [lra|]. unfold Rdiv. rewrite Rmult_assoc, Rinv_l by lra. lra.
Qed.

Lemma regular_pixel s t vals im : regular s t -> image_of (t_mrs t) (t_temps t) vals im ->
  length vals = length (t_mrs t) -> Forall (fun row => length row = length (t_temps t)) vals ->
  let n := INR (length (t_mrs t)) in
  forall i x y, (i < length (t_mrs t))%nat -> 100 - 100 * (INR i + 1) / n < y < 100 - 100 * INR i / n ->
  (forall j temp v, nth_error (t_temps t) j = Some temp -> entry vals i j v -> temp - s < x < temp -> pixel im x y (100 * v)) /\
  (t_temps t <> [] -> 100 < x < 100 + s -> pixel im x y 0).
Proof.
  intros Rg Im Lv Fv n i x y Hi Hy. destruct (regular_ends s t vals im Rg Im) as (E1 & E2 & E3 & E4). destruct Rg as (Hs & T & _). destruct Im as [_ _ _ _ Rw].
  assert (N0 : 0 < n) by (apply lt_0_INR; lia).
  assert (Wd : t_temps t <> [] -> (im_right im - im_left im) / INR (S (length (t_temps t))) = s).
  { intros Ne. rewrite E1, E2, S_INR. destruct (t_temps t); [congruence|]. set (k := INR _). assert (0 <= k) by apply pos_INR. field. lra. }
  assert (Ht : (im_top im - im_bottom im) / INR (length (im_rows im)) = 100 / n).
  { rewrite E3, E4, Rw, map_length, Lv. fold n. lra. }
  assert (Row : forall row, nth_error vals i = Some row -> nth_error (im_rows im) i = Some (0 :: map (fun v => 100 * v) row) /\
    length (0 :: map (fun v => 100 * v) row) = S (length (t_temps t))).
  { intros row E. split; [rewrite Rw, nth_error_map, E; reflexivity|]. cbn [length]. rewrite map_length. f_equal. rewrite Forall_forall in Fv. apply Fv. eapply nth_error_In; exact E. }
  assert (Hy' : im_top im - (INR i + 1) * (100 / n) < y < im_top im - INR i * (100 / n)) by (rewrite E4; lra).
  split.
  - intros j temp v Ej (row & Er & Ev) Hx. destruct (Row row Er) as [R1 R2]. assert (Ne : t_temps t <> []) by (intros Q; rewrite Q in Ej; destruct j; discriminate).
    exists i, (S j). eexists. split; [exact R1|]. split; [cbn [nth_error]; rewrite nth_error_map, Ev; reflexivity|]. cbv zeta. rewrite R2, (Wd Ne), Ht. split; [|exact Hy'].
    assert (Et : temp = 100 + s * (INR j + 2)).
    { assert (Lj : (j < length (t_temps t))%nat) by (apply nth_error_Some; congruence).
      rewrite T, nth_error_map, nth_error_seq in Ej by exact Lj. cbn [option_map] in Ej. congruence. }
    rewrite E1, S_INR. lra.
  - intros Ne Hx. destruct (nth_error vals i) as [row|] eqn:Er; [|apply nth_error_None in Er; lia]. destruct (Row row eq_refl) as [R1 R2].
    exists i, 0%nat. eexists. split; [exact R1|]. split; [reflexivity|]. cbv zeta. rewrite R2, (Wd Ne), Ht, E1. split; [|exact Hy']. cbn [INR]. lra.
Qed.
