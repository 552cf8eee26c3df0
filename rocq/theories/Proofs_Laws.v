(** Proofs about the figures of laws. *)
From Coq Require Import String List ZArith Reals Bool Lra Lia.
From Verif Require Import Base Model_Geo Model_Time Model_Crater Model_Ice Model_Curves Model_Laws Spec_Laws Proofs_Base Proofs_Crater Proofs_Scaling Proofs_Ice Proofs_Curves Proofs_Time.
Import ListNotations.
Open Scope R_scope.

(** * Powers of rational numbers *)
Lemma pw_hi x p q h : 0 < x -> 0 < h -> (0 < q)%nat -> x ^ p < h ^ q -> Rpower x (INR p / INR q) < h.
Proof.
  intros X H Q L. assert (P : 0 < INR q) by (apply lt_0_INR; exact Q).
  rewrite <- (Rpower_inv_exp h (INR q)) by lra.
  replace (INR p / INR q) with (INR p * (1 / INR q)) by (field; lra). rewrite <- Rpower_mult.
  apply Rpower_lt_pos; [|apply Rpower_pos|]. { apply Rdiv_lt_0_compat; lra. }
  rewrite !Rpower_pow by assumption. exact L.
Qed.
Lemma pw_lo x p q h : 0 < x -> 0 < h -> (0 < q)%nat -> h ^ q < x ^ p -> h < Rpower x (INR p / INR q).
Proof.
  intros X H Q L. assert (P : 0 < INR q) by (apply lt_0_INR; exact Q).
  rewrite <- (Rpower_inv_exp h (INR q)) by lra.
  replace (INR p / INR q) with (INR p * (1 / INR q)) by (field; lra). rewrite <- Rpower_mult.
  apply Rpower_lt_pos; [|apply Rpower_pos|]. { apply Rdiv_lt_0_compat; lra. }
  rewrite !Rpower_pow by assumption. exact L.
Qed.

(** [n / d] to the [p] is below [m / e] to the [q], in integers. *)
Lemma ratio_pow n d p m e q : (0 < d)%Z -> (0 < e)%Z ->
  (n ^ Z.of_nat p * e ^ Z.of_nat q <? m ^ Z.of_nat q * d ^ Z.of_nat p)%Z = true ->
  (IZR n / IZR d) ^ p < (IZR m / IZR e) ^ q.
Proof.
  intros D E H. apply Z.ltb_lt in H. apply IZR_lt in H. rewrite !mult_IZR, <- !pow_IZR in H.
  assert (0 < IZR d ^ p) by (apply pow_lt, IZR_lt, D). assert (0 < IZR e ^ q) by (apply pow_lt, IZR_lt, E).
  assert (forall a b k, IZR b <> 0 -> (IZR a / IZR b) ^ k = IZR a ^ k / IZR b ^ k) as W.
  { intros a b k B. unfold Rdiv. rewrite Rpow_mult_distr, pow_inv. reflexivity. }
  rewrite !W by (apply not_0_IZR; lia).
  apply Rmult_lt_reg_r with (IZR d ^ p * IZR e ^ q); [apply Rmult_lt_0_compat; lra|].
  replace (IZR n ^ p / IZR d ^ p * (IZR d ^ p * IZR e ^ q)) with (IZR n ^ p * IZR e ^ q) by (field; lra).
  replace (IZR m ^ q / IZR e ^ q * (IZR d ^ p * IZR e ^ q)) with (IZR m ^ q * IZR d ^ p) by (field; lra). exact H.
Qed.

(** Bounds of a power with an exponent written as a quotient of integers. *)
Lemma power_below n d p q m e x : (0 < n)%Z -> (0 < d)%Z -> (0 < m)%Z -> (0 < e)%Z -> (0 < q)%nat ->
  (n ^ Z.of_nat p * e ^ Z.of_nat q <? m ^ Z.of_nat q * d ^ Z.of_nat p)%Z = true ->
  x = INR p / INR q -> Rpower (IZR n / IZR d) x < IZR m / IZR e.
Proof.
  intros N D M E Q H ->. apply pw_hi; [apply Rdiv_lt_0_compat; apply IZR_lt; assumption..|exact Q|]. now apply ratio_pow.
Qed.
Lemma power_above n d p q m e x : (0 < n)%Z -> (0 < d)%Z -> (0 < m)%Z -> (0 < e)%Z -> (0 < q)%nat ->
  (m ^ Z.of_nat q * d ^ Z.of_nat p <? n ^ Z.of_nat p * e ^ Z.of_nat q)%Z = true ->
  x = INR p / INR q -> IZR m / IZR e < Rpower (IZR n / IZR d) x.
Proof.
  intros N D M E Q H ->. apply pw_lo; [apply Rdiv_lt_0_compat; apply IZR_lt; assumption..|exact Q|]. now apply ratio_pow.
Qed.
Ltac expo := rewrite ?INR_IZR_INZ; cbn [Z.of_nat Pos.of_succ_nat Pos.succ]; field.
Ltac pbelow n d p q m e := apply (power_below n d p q m e); [lia|lia|lia|lia|lia|vm_compute; reflexivity|expo].
Ltac pabove n d p q m e := apply (power_above n d p q m e); [lia|lia|lia|lia|lia|vm_compute; reflexivity|expo].

Lemma between_mult a b x c d y : a < x < b -> c < y < d -> 0 < a -> 0 < c -> a * c < x * y < b * d.
Proof. intros. split; apply Rmult_gt_0_lt_compat; lra. Qed.

Lemma half_sin : sin (deg2rad 45) = Rpower (1 / 2) (1 / 2).
Proof.
  unfold deg2rad. replace (45 * (PI / 180)) with (PI / 4) by field. rewrite sin_PI4.
  pose proof (sqrt_lt_R0 2 ltac:(lra)) as S. pose proof (sqrt_sqrt 2 ltac:(lra)) as Q.
  replace (1 / 2) with ((1 / sqrt 2) ^ 2) at 1.
  2: { unfold Rdiv. rewrite Rmult_1_l. cbn [pow]. rewrite Rmult_1_r, <- Rinv_mult, Q. lra. }
  rewrite <- Rpower_pow by (apply Rdiv_lt_0_compat; lra). rewrite Rpower_mult.
  replace (INR 2 * (1 / 2)) with 1 by (cbn; lra). rewrite Rpower_1; [reflexivity|apply Rdiv_lt_0_compat; lra].
Qed.

Lemma collins_bounds : 6920 / 100 < collins_denom 20000 1300 1500 (162 / 100) 45 < 6926 / 100.
Proof.
  unfold collins_denom. rewrite half_sin, Rpower_mult.
  assert (A : 95341 / 100000 < Rpower (1300 / 1500) (1 / 3) < 95343 / 100000).
  { replace (1300 / 1500) with (13 / 15) by lra. split; [pabove 13%Z 15%Z 1%nat 3%nat 95341%Z 100000%Z|pbelow 13%Z 15%Z 1%nat 3%nat 95343%Z 100000%Z]. }
  assert (B : 7806 / 100 < Rpower 20000 (44 / 100) < 7807 / 100).
  { replace 20000 with (20000 / 1) by lra. split; [pabove 20000%Z 1%Z 11%nat 25%nat 7806%Z 100%Z|pbelow 20000%Z 1%Z 11%nat 25%nat 7807%Z 100%Z]. }
  assert (C : 89930 / 100000 < Rpower (162 / 100) (- (22 / 100)) < 89931 / 100000).
  { replace (Rpower (162 / 100) (- (22 / 100))) with (Rpower (100 / 162) (22 / 100)).
    - split; [pabove 100%Z 162%Z 11%nat 50%nat 89930%Z 100000%Z|pbelow 100%Z 162%Z 11%nat 50%nat 89931%Z 100000%Z].
    - replace (100 / 162) with (/ (162 / 100)) by field. rewrite Rpower_Ropp. unfold Rpower. rewrite ln_Rinv by lra. rewrite <- exp_Ropp. f_equal. ring. }
  assert (D : 89089 / 100000 < Rpower (1 / 2) (1 / 2 * (1 / 3)) < 89090 / 100000).
  { split; [pabove 1%Z 2%Z 1%nat 6%nat 89089%Z 100000%Z|pbelow 1%Z 2%Z 1%nat 6%nat 89090%Z 100000%Z]. }
  assert (E : 1160999 / 1000000 < 1161 / 1000 < 1161001 / 1000000) by lra.
  pose proof (between_mult _ _ _ _ _ _ E A ltac:(lra) ltac:(lra)) as F1.
  pose proof (between_mult _ _ _ _ _ _ F1 B ltac:(lra) ltac:(lra)) as F2.
  pose proof (between_mult _ _ _ _ _ _ F2 C ltac:(lra) ltac:(lra)) as F3.
  pose proof (between_mult _ _ _ _ _ _ F3 D ltac:(lra) ltac:(lra)) as F4. lra.
Qed.

Lemma johnson_bounds : 4424 / 100 < johnson_denom 20000 1300 1500 (162 / 100) 45 18000 < 4427 / 100.
Proof.
  unfold johnson_denom. rewrite half_sin, Rpower_mult.
  assert (A : 94706 / 100000 < Rpower (1300 / 1500) (38 / 100) < 94708 / 100000).
  { replace (1300 / 1500) with (13 / 15) by lra. split; [pabove 13%Z 15%Z 19%nat 50%nat 94706%Z 100000%Z|pbelow 13%Z 15%Z 19%nat 50%nat 94708%Z 100000%Z]. }
  assert (B : 14142 / 100 < Rpower 20000 (1 / 2) < 14143 / 100).
  { replace 20000 with (20000 / 1) by lra. split; [pabove 20000%Z 1%Z 1%nat 2%nat 14142%Z 100%Z|pbelow 20000%Z 1%Z 1%nat 2%nat 14143%Z 100%Z]. }
  assert (I : forall n e, 0 < n -> Rpower n (- e) = Rpower (/ n) e).
  { intros n e Hn. rewrite Rpower_Ropp. unfold Rpower. rewrite ln_Rinv by lra. rewrite <- exp_Ropp. f_equal. ring. }
  assert (C : 88638 / 100000 < Rpower (162 / 100) (- (1 / 4)) < 88639 / 100000).
  { rewrite I by lra. replace (/ (162 / 100)) with (100 / 162) by field.
    split; [pabove 100%Z 162%Z 1%nat 4%nat 88638%Z 100000%Z|pbelow 100%Z 162%Z 1%nat 4%nat 88639%Z 100000%Z]. }
  assert (D : 27977 / 100000 < Rpower 18000 (- (13 / 100)) < 27979 / 100000).
  { rewrite I by lra. replace (/ 18000) with (1 / 18000) by lra.
    split; [pabove 1%Z 18000%Z 13%nat 100%nat 27977%Z 100000%Z|pbelow 1%Z 18000%Z 13%nat 100%nat 27979%Z 100000%Z]. }
  assert (E : 87660 / 100000 < Rpower (1 / 2) (1 / 2 * (38 / 100)) < 87661 / 100000).
  { split; [pabove 1%Z 2%Z 19%nat 100%nat 87660%Z 100000%Z|pbelow 1%Z 2%Z 19%nat 100%nat 87661%Z 100000%Z]. }
  assert (F0 : 1519999 / 1000000 < 152 / 100 < 1520001 / 1000000) by lra.
  pose proof (between_mult _ _ _ _ _ _ F0 A ltac:(lra) ltac:(lra)) as F1.
  pose proof (between_mult _ _ _ _ _ _ F1 B ltac:(lra) ltac:(lra)) as F2.
  pose proof (between_mult _ _ _ _ _ _ F2 C ltac:(lra) ltac:(lra)) as F3.
  pose proof (between_mult _ _ _ _ _ _ F3 D ltac:(lra) ltac:(lra)) as F4.
  pose proof (between_mult _ _ _ _ _ _ F4 E ltac:(lra) ltac:(lra)) as F5. lra.
Qed.

Lemma root_below t k e h : 0 < t -> 0 < k -> 0 < e -> 0 < h -> t < k * Rpower h e -> Rpower (t / k) (1 / e) < h.
Proof.
  intros T K E H L. rewrite <- (Rpower_inv_exp h e) at 1 by lra. apply Rpower_lt_pos.
  - apply Rdiv_lt_0_compat; lra.
  - apply Rdiv_lt_0_compat; lra.
  - apply Rmult_lt_reg_r with k; [exact K|]. unfold Rdiv. rewrite Rmult_assoc, Rinv_l by lra. lra.
Qed.
Lemma root_above t k e h : 0 < t -> 0 < k -> 0 < e -> 0 < h -> k * Rpower h e < t -> h < Rpower (t / k) (1 / e).
Proof.
  intros T K E H L. rewrite <- (Rpower_inv_exp h e) at 1 by lra. apply Rpower_lt_pos.
  - apply Rdiv_lt_0_compat; lra.
  - apply Rpower_pos.
  - apply Rmult_lt_reg_r with k; [exact K|]. unfold Rdiv. rewrite Rmult_assoc, Rinv_l by lra. lra.
Qed.

(** The largest simple crater and the smallest complex one. *)
Lemma simple_end : 740 < diam2len_collins 12000 20000 1300 1500 (162 / 100) 45 < 744.
Proof.
  pose proof collins_bounds as K. unfold diam2len_collins.
  assert (A : Rpower 740 (78 / 100) < 17299 / 100).
  { replace 740 with (740 / 1) by lra. pbelow 740%Z 1%Z 39%nat 50%nat 17299%Z 100%Z. }
  assert (B : 1736 / 10 < Rpower 744 (78 / 100)).
  { replace 744 with (744 / 1) by lra. pabove 744%Z 1%Z 39%nat 50%nat 1736%Z 10%Z. }
  pose proof (Rpower_pos 740 (78 / 100)). pose proof (Rpower_pos 744 (78 / 100)).
  split; [apply root_above|apply root_below]; try lra.
  - apply Rlt_trans with (6926 / 100 * (17299 / 100)); [apply Rmult_gt_0_lt_compat; lra|lra].
  - apply Rlt_trans with (6920 / 100 * (1736 / 10)); [lra|apply Rmult_gt_0_lt_compat; lra].
Qed.
Lemma complex_start : 580 < diam2len_johnson 12000 20000 1300 1500 (162 / 100) 45 18000 < 584.
Proof.
  pose proof johnson_bounds as K. unfold diam2len_johnson.
  assert (A : Rpower 580 (88 / 100) < 271).
  { replace 580 with (580 / 1) by lra. replace 271 with (271 / 1) by lra. pbelow 580%Z 1%Z 22%nat 25%nat 271%Z 1%Z. }
  assert (B : 2718 / 10 < Rpower 584 (88 / 100)).
  { replace 584 with (584 / 1) by lra. pabove 584%Z 1%Z 22%nat 25%nat 2718%Z 10%Z. }
  pose proof (Rpower_pos 580 (88 / 100)). pose proof (Rpower_pos 584 (88 / 100)).
  split; [apply root_above|apply root_below]; try lra.
  - apply Rlt_trans with (4427 / 100 * 271); [apply Rmult_gt_0_lt_compat; lra|lra].
  - apply Rlt_trans with (4424 / 100 * (2718 / 10)); [lra|apply Rmult_gt_0_lt_compat; lra].
Qed.
Lemma complex_start' : 754 < diam2len_johnson (final2transient CFG0 19000) 20000 1300 1500 (162 / 100) 45 18000 < 760.
Proof.
  pose proof johnson_bounds as K. unfold diam2len_johnson.
  assert (T : 15100 < final2transient CFG0 19000 < 15110).
  { destruct (f2t_cases CFG0 19000 ltac:(lra) ltac:(cbn; lra)) as [[A ->]|[[A E]|[A _]]]; cbn [simple2complex complex2peakring CFG0] in *; try lra.
    rewrite E. clear E A. unfold fm, f2t_melosh.
    assert (S : Rpower (19000 * Rpower 18000 (13 / 100)) (1 / (1 + 13 / 100)) = Rpower 19000 (100 / 113) * Rpower 18000 (13 / 113)).
    { rewrite <- Rpower_mult_distr by (try lra; apply Rpower_pos). rewrite Rpower_mult. f_equal; f_equal; lra. }
    rewrite S.
    assert (A : 6116 < Rpower 19000 (100 / 113) < 6117).
    { replace 19000 with (19000 / 1) by lra. replace 6116 with (6116 / 1) by lra. replace 6117 with (6117 / 1) by lra.
      split; [pabove 19000%Z 1%Z 100%nat 113%nat 6116%Z 1%Z|pbelow 19000%Z 1%Z 100%nat 113%nat 6117%Z 1%Z]. }
    assert (B : 3087 / 1000 < Rpower 18000 (13 / 113) < 30872 / 10000).
    { replace 18000 with (18000 / 1) by lra. split; [pabove 18000%Z 1%Z 13%nat 113%nat 3087%Z 1000%Z|pbelow 18000%Z 1%Z 13%nat 113%nat 30872%Z 10000%Z]. }
    pose proof (between_mult _ _ _ _ _ _ A B ltac:(lra) ltac:(lra)). lra. }
  assert (A : Rpower 754 (88 / 100) < 34049 / 100).
  { replace 754 with (754 / 1) by lra. pbelow 754%Z 1%Z 22%nat 25%nat 34049%Z 100%Z. }
  assert (B : 34285 / 100 < Rpower 760 (88 / 100)).
  { replace 760 with (760 / 1) by lra. pabove 760%Z 1%Z 22%nat 25%nat 34285%Z 100%Z. }
  pose proof (Rpower_pos 754 (88 / 100)). pose proof (Rpower_pos 760 (88 / 100)).
  split; [apply root_above|apply root_below]; try lra.
  - apply Rlt_trans with (4427 / 100 * (34049 / 100)); [apply Rmult_gt_0_lt_compat; lra|lra].
  - apply Rlt_trans with (4424 / 100 * (34285 / 100)); [lra|apply Rmult_gt_0_lt_compat; lra].
Qed.

(** * Impactor against crater *)
Lemma geom2 lo hi : 0 < lo -> 0 < hi -> geomspace lo hi 2 = [lo; hi].
Proof.
  intros L H. unfold geomspace. cbn [seq map Nat.sub INR]. f_equal; [|f_equal].
  - replace (0 / 1) with 0 by lra. rewrite Rpower_O by (apply Rdiv_lt_0_compat; lra). lra.
  - replace (1 / 1) with 1 by lra. rewrite Rpower_1 by (apply Rdiv_lt_0_compat; lra). field. lra.
Qed.

Lemma marks_two c lo hi regime : scaling_sane c -> 0 < lo < hi -> In regime ["c"; "d"; "e"; "f"]%string -> (regime = "c"%string -> hi <= simple2complex c) ->
  exists y z, marks c [lo; hi] regime = Ok [(lo / 1000, y); (hi / 1000, z)] /\
    makes c regime (final2transient c hi) lo y /\ makes c regime (final2transient c hi) hi z.
Proof.
  intros (S1 & S2 & S3 & S4) L R C. unfold marks. cbn [length repeat map].
  destruct R as [<-|[<-|R]].
  - specialize (C eq_refl). unfold diam2len. rewrite String.eqb_refl. cbn [map].
    assert (T : forall d, 0 < d <= simple2complex c -> final2transient c d = d / (125 / 100)).
    { intros d D. destruct (f2t_cases c d ltac:(lra) S1) as [[A E]|[[A _]|[A _]]]; [exact E|lra|lra]. }
    destruct (prieur_spec 20000 (impactor_density c) (target_density c) (grav_moon c) (final2transient c lo) [final2transient c hi])
      as (ls & E & Len & P & _); [lra|assumption..|rewrite T; lra|cbn [last]; rewrite !T by lra; lra|].
    rewrite E. cbn [bind]. destruct ls as [|y [|z [|]]]; cbn [length] in Len; try discriminate. cbn [combine].
    cbn [last] in P. pose proof (P 0%nat _ y eq_refl eq_refl) as (P1 & P2). pose proof (P 1%nat _ z eq_refl eq_refl) as (P3 & P4).
    rewrite (T lo) in * by lra. rewrite (T hi) in * by lra.
    exists y, z. split; [reflexivity|]. unfold makes. rewrite (T lo) by lra. rewrite (T hi) by lra.
    split; (split; [lra|]); (split; [|split; [discriminate|intros [?|?]; discriminate]]).
    + intros _ M A B. eapply Rle_trans; [apply P2; [lra|symmetry; exact B]|]. lra.
    + intros _ M A B. eapply Rle_trans; [apply P4; [lra|symmetry; exact B]|]. lra.
  - destruct (diam2len_d c [lo; hi] [20000; 20000] 0 lo 20000 eq_refl eq_refl S1 ltac:(lra) ltac:(lra)) as (ls & y & E & N & Y & W).
    destruct (diam2len_d c [lo; hi] [20000; 20000] 1 hi 20000 eq_refl eq_refl S1 ltac:(lra) ltac:(lra)) as (ls' & z & E' & N' & Z & W').
    rewrite E in E'. injection E' as <-. rewrite E. cbn [bind].
    assert (Len : length ls = 2%nat) by (unfold diam2len in E; cbn in E; injection E as <-; reflexivity).
    destruct ls as [|a [|b [|]]]; cbn in Len; try discriminate. cbn in N, N'. injection N as ->. injection N' as ->.
    exists y, z. split; [reflexivity|]. split; (split; [assumption|]); (split; [discriminate|]); (split; [|intros [?|?]; discriminate]); intros _; assumption.
  - assert (EF : regime = "e"%string \/ regime = "f"%string) by (destruct R as [<-|[<-|[]]]; auto).
    destruct (diam2len_ef c [lo; hi] [20000; 20000] regime 0 lo 20000 EF eq_refl eq_refl S1 ltac:(lra) ltac:(lra)) as (ls & y & E & N & Y & W).
    destruct (diam2len_ef c [lo; hi] [20000; 20000] regime 1 hi 20000 EF eq_refl eq_refl S1 ltac:(lra) ltac:(lra)) as (ls' & z & E' & N' & Z & W').
    rewrite E in E'. injection E' as <-. rewrite E. cbn [bind].
    assert (Len : length ls = 2%nat) by (unfold diam2len in E; destruct EF as [-> | ->]; cbn in E; injection E as <-; reflexivity).
    destruct ls as [|a [|b [|]]]; cbn in Len; try discriminate. cbn in N, N'. injection N as ->. injection N' as ->.
    exists y, z. split; [reflexivity|]. split; (split; [assumption|]);
      (split; [intros ->; destruct EF; discriminate|]); (split; [intros ->; destruct EF; discriminate|]); intros _; assumption.
Qed.

Lemma label_ok regime : In regime ["c"; "d"; "e"; "f"]%string -> exists s, regime_label regime = Ok s /\ says regime s.
Proof. unfold says. intros [<-|[<-|[<-|[<-|[]]]]]; eexists; (split; [reflexivity|cbn; tauto]). Qed.

Lemma lines_ok c first rs : scaling_sane c -> regimes_sane c rs ->
  exists ls, regime_lines c first rs = Ok ls /\ Forall2 (line_of c (if first then "-" else "rx")%string first) (drawn_regimes rs) ls.
Proof.
  intros S G. induction rs as [|(r, (lo, hi)) rs IH]; [exists []; split; [reflexivity|constructor]|].
  cbn [regime_lines]. unfold regimes_sane, drawn_regimes in *. cbn [filter fst] in *.
  destruct (String.eqb r "a" || String.eqb r "b") eqn:B; cbn [negb] in *; [apply IH; exact G|].
  destruct IH as (ls & E & F); [intros; apply G; right; assumption|].
  destruct (G r lo hi (or_introl eq_refl)) as (K & L & C).
  destruct (marks_two c lo hi r S L K C) as (y & z & M & Y & Z).
  unfold regime_line. rewrite (proj2 (Reqb_false lo 0)) by lra. rewrite (proj2 (Reqb_false hi 0)) by lra. cbn [orb].
  rewrite geom2 by lra. rewrite M. cbn [bind].
  destruct (label_ok r K) as (s & LS & SS).
  exists (mk_line (if first then "-" else "rx")%string (if first then Some s else None) [(lo / 1000, y); (hi / 1000, z)] :: ls). split.
  - destruct first; [rewrite LS|]; cbn [bind]; rewrite E; reflexivity.
  - constructor; [|exact F]. cbn. split; [reflexivity|]. split; [destruct first; eauto|].
    exists y, z. auto.
Qed.

Lemma basins_ok c bs : simple2complex c <= complex2peakring c -> Forall (fun d => 0 < d) bs ->
  exists ms, marks c bs "f" = Ok ms /\ Forall2 (fun d m => fst m = d / 1000 /\ makes c "f" (final2transient c d) d (snd m)) bs ms.
Proof.
  intros S F. unfold marks, diam2len. cbn [String.eqb Ascii.eqb Bool.eqb orb bind]. eexists. split; [reflexivity|].
  induction F as [|d bs D F IH]; cbn [map length repeat combine]; constructor; [|exact IH]. cbn [fst snd]. split; [reflexivity|].
  destruct (diam2len_ef c [d] [20000] "f" 0 d 20000 (or_intror eq_refl) eq_refl eq_refl S D ltac:(lra)) as (ls & l & E & N & P & W).
  unfold diam2len in E. cbn in E. injection E as <-. cbn in N. injection N as <-.
  split; [exact P|]. split; [discriminate|]. split; [discriminate|]. intros _. exact W.
Qed.

Lemma scaling_bad c rs1 r lo hi rs2 bs : scaling_sane c -> regimes_sane c rs1 -> 0 < lo -> 0 < hi ->
  ~ In r ["a"; "b"; "c"; "d"; "e"; "f"]%string -> crater_scaling c (rs1 ++ (r, (lo, hi)) :: rs2) bs = Err ValueError.
Proof.
  intros S G L H N. unfold crater_scaling.
  enough (E : regime_lines c true (rs1 ++ (r, (lo, hi)) :: rs2) = Err ValueError) by (rewrite E; reflexivity).
  revert G. induction rs1 as [|(r0, (a, b)) rs1 IH]; intros G; cbn [app regime_lines].
  - destruct (String.eqb_spec r "a") as [-> |_]; [exfalso; apply N; cbn; tauto|].
    destruct (String.eqb_spec r "b") as [-> |_]; [exfalso; apply N; cbn; tauto|]. cbn [orb].
    unfold regime_line. rewrite (proj2 (Reqb_false lo 0)) by lra. rewrite (proj2 (Reqb_false hi 0)) by lra. cbn [orb].
    rewrite geom2 by lra. unfold marks, diam2len.
    destruct (String.eqb_spec r "c") as [-> |_]; [exfalso; apply N; cbn; tauto|].
    destruct (String.eqb_spec r "d") as [-> |_]; [exfalso; apply N; cbn; tauto|].
    destruct (String.eqb_spec r "e") as [-> |_]; [exfalso; apply N; cbn; tauto|].
    destruct (String.eqb_spec r "f") as [-> |_]; [exfalso; apply N; cbn; tauto|]. reflexivity.
  - unfold regimes_sane, drawn_regimes in *. cbn [filter fst] in *.
    destruct (String.eqb r0 "a" || String.eqb r0 "b") eqn:B; cbn [negb] in *; [apply IH; exact G|].
    destruct (lines_ok c true [(r0, (a, b))] S) as (ls & E & _).
    { intros r' lo' hi' I. unfold drawn_regimes in I. cbn [filter fst] in I. rewrite B in I. cbn [negb] in I.
      destruct I as [I|[]]. apply G. left. exact I. }
    cbn [regime_lines] in E. rewrite B in E. destruct (regime_line c true r0 a b) as [l|]; [|discriminate E]. cbn [bind].
    rewrite IH; [reflexivity|]. intros; apply G; right; assumption.
Qed.

(** * Retention against speed *)
Lemma curve_point c i : (i < Z.to_nat 7000)%nat -> nth_error (retention_curve c) i = Some (70 * INR i / 6999, ice_retention_factor c (70 * INR i / 6999 * 1000)).
Proof.
  intros H. unfold retention_curve.
  assert (E : nth_error (linspace 0 70 (Z.to_nat 7000)) i = Some (70 * INR i / 6999)).
  { assert (N : INR (Z.to_nat 7000) = 7000) by (rewrite INR_IZR_INZ, Z2Nat.id by lia; reflexivity).
    pose proof (linspace_nth 0 70 (Z.to_nat 7000) i) as P. rewrite N in P. rewrite P by lia. f_equal. field. }
  rewrite nth_error_map, E. reflexivity.
Qed.

Lemma fit_value c x : mode c = "moonpies"%string -> 10 <= x -> ice_retention_factor c (x * 1000) = 16600 / (x ^ 4 * Rpower x (4 / 25)).
Proof.
  intros M X. rewrite retention_fast by lra. rewrite M. cbn [String.eqb Ascii.eqb Bool.eqb].
  replace (x * 1000 * (1 / 1000)) with x by lra. rewrite Rpower_Ropp.
  replace (416 / 100) with (INR 4 + 4 / 25) by (cbn; lra). rewrite Rpower_plus, Rpower_pow by lra. reflexivity.
Qed.

Lemma above_one c x : mode c = "cannon"%string \/ mode c = "moonpies"%string -> 10 <= x <= 10002 / 1000 -> 1 < ice_retention_factor c (x * 1000).
Proof.
  intros [M|M] X.
  - rewrite retention_fast by lra. rewrite M. cbn [String.eqb Ascii.eqb Bool.eqb].
    replace (x * 1000 * (1 / 1000)) with x by lra.
    replace (- (3464 / 10000) * x) with (- (3464 / 1000) + - (3464 / 10000) * (x - 10)) by lra. rewrite exp_plus.
    pose proof exp_3464. pose proof (exp_ineq1_le (- (3464 / 10000) * (x - 10))).
    assert (999 / 1000 <= exp (- (3464 / 10000) * (x - 10))) by lra.
    apply Rlt_le_trans with (3626 / 100 * (28 / 1000 * (999 / 1000))); [lra|]. apply Rmult_le_compat_l; [lra|]. apply Rmult_le_compat; lra.
  - rewrite fit_value by (auto; lra).
    assert (A : x ^ 4 <= (10002 / 1000) ^ 4) by (apply pow_incr; lra).
    assert (B : Rpower x (4 / 25) < 145 / 100).
    { apply Rle_lt_trans with (Rpower (10002 / 1000) (4 / 25)); [apply Rle_Rpower_l; lra|]. pbelow 10002%Z 1000%Z 4%nat 25%nat 145%Z 100%Z. }
    pose proof (Rpower_pos x (4 / 25)). assert (0 < x ^ 4) by (apply pow_lt; lra).
    assert (x ^ 4 * Rpower x (4 / 25) < 16600).
    { apply Rle_lt_trans with ((10002 / 1000) ^ 4 * (145 / 100)); [apply Rmult_le_compat; lra|lra]. }
    assert (0 < x ^ 4 * Rpower x (4 / 25)) by (apply Rmult_lt_0_compat; lra).
    apply Rmult_lt_reg_r with (x ^ 4 * Rpower x (4 / 25)); [assumption|]. unfold Rdiv. rewrite Rmult_assoc, Rinv_l by lra. lra.
Qed.

(** The fit between two numbers, from bounds of the small power. *)
Lemma fit_between c x lo hi : mode c = "moonpies"%string -> 10 <= x -> lo < Rpower x (4 / 25) < hi -> 0 < lo ->
  16600 / (x ^ 4 * hi) < ice_retention_factor c (x * 1000) < 16600 / (x ^ 4 * lo).
Proof.
  intros M X B L. rewrite fit_value by assumption. assert (0 < x ^ 4) by (apply pow_lt; lra).
  assert (forall u v, 0 < u -> u < v -> 16600 / (x ^ 4 * v) < 16600 / (x ^ 4 * u)) as W.
  { intros u v U V. apply Rmult_lt_compat_l; [lra|]. apply Rinv_lt_contravar; [|apply Rmult_lt_compat_l; lra].
    apply Rmult_lt_0_compat; apply Rmult_lt_0_compat; lra. }
  split; apply W; lra.
Qed.

Lemma ong_near c x y : mode c = "moonpies"%string -> In (x, y) ong -> x <= 45 -> Rabs (ice_retention_factor c (x * 1000) - y) <= y / 4.
Proof.
  intros M I X. unfold ong in I.
  destruct I as [I|[I|[I|[I|[I|[]]]]]]; injection I as <- <-; try lra.
  - assert (B : 14 / 10 < Rpower 10 (4 / 25) < 145 / 100).
    { replace (Rpower 10 (4 / 25)) with (Rpower (10 / 1) (4 / 25)) by (f_equal; lra).
      split; [pabove 10%Z 1%Z 4%nat 25%nat 14%Z 10%Z|pbelow 10%Z 1%Z 4%nat 25%nat 145%Z 100%Z]. }
    pose proof (fit_between c 10 _ _ M ltac:(lra) B ltac:(lra)) as F. cbn [pow] in F. apply Rabs_le. split; lra.
  - assert (B : 15 / 10 < Rpower 15 (4 / 25) < 16 / 10).
    { replace (Rpower 15 (4 / 25)) with (Rpower (15 / 1) (4 / 25)) by (f_equal; lra).
      split; [pabove 15%Z 1%Z 4%nat 25%nat 15%Z 10%Z|pbelow 15%Z 1%Z 4%nat 25%nat 16%Z 10%Z]. }
    pose proof (fit_between c 15 _ _ M ltac:(lra) B ltac:(lra)) as F. cbn [pow] in F. apply Rabs_le. split; lra.
  - assert (B : 17 / 10 < Rpower 30 (4 / 25) < 175 / 100).
    { replace (Rpower 30 (4 / 25)) with (Rpower (30 / 1) (4 / 25)) by (f_equal; lra).
      split; [pabove 30%Z 1%Z 4%nat 25%nat 17%Z 10%Z|pbelow 30%Z 1%Z 4%nat 25%nat 175%Z 100%Z]. }
    pose proof (fit_between c 30 _ _ M ltac:(lra) B ltac:(lra)) as F. cbn [pow] in F. apply Rabs_le. split; lra.
  - assert (B : 18 / 10 < Rpower 45 (4 / 25) < 185 / 100).
    { replace (Rpower 45 (4 / 25)) with (Rpower (45 / 1) (4 / 25)) by (f_equal; lra).
      split; [pabove 45%Z 1%Z 4%nat 25%nat 18%Z 10%Z|pbelow 45%Z 1%Z 4%nat 25%nat 185%Z 100%Z]. }
    pose proof (fit_between c 45 _ _ M ltac:(lra) B ltac:(lra)) as F. cbn [pow] in F. apply Rabs_le. split; lra.
Qed.

Lemma ong_far c : mode c = "moonpies"%string -> 90 * (66 / 10000000) < ice_retention_factor c (60 * 1000).
Proof.
  intros M. assert (B : 1 < Rpower 60 (4 / 25) < 195 / 100).
  { replace (Rpower 60 (4 / 25)) with (Rpower (60 / 1) (4 / 25)) by (f_equal; lra). replace 1 with (1 / 1) at 1 by lra.
    split; [pabove 60%Z 1%Z 4%nat 25%nat 1%Z 1%Z|pbelow 60%Z 1%Z 4%nat 25%nat 195%Z 100%Z]. }
  pose proof (fit_between c 60 _ _ M ltac:(lra) B ltac:(lra)) as [F _]. cbn [pow] in F. lra.
Qed.

(** * Least squares *)
Section Fit.
  Variable pts : list (R * R).
  Let n := INR (length pts).
  Let sx := Rsum (map fst pts).
  Let sy := Rsum (map snd pts).
  Let sxx := Rsum (map (fun p => fst p * fst p) pts).
  Let sxy := Rsum (map (fun p => fst p * snd p) pts).
  Let syy := Rsum (map (fun p => snd p * snd p) pts).

  Lemma misfit_sums a b : misfit pts a b = syy - 2 * a * sy - 2 * b * sxy + n * (a * a) + 2 * a * b * sx + b * b * sxx.
  Proof.
    unfold misfit, n, sx, sy, sxx, sxy, syy. induction pts as [|(x, y) l IH]; [cbn; ring|].
    cbn [map length fst snd]. unfold Rsum in *. cbn [fold_right]. rewrite IH, S_INR. ring.
  Qed.

  Lemma fit_best b a : 0 < n -> 0 < n * sxx - sx * sx -> polyfit1 pts = (b, a) -> forall a' b', misfit pts a b <= misfit pts a' b' /\ (misfit pts a' b' <= misfit pts a b -> a' = a /\ b' = b).
  Proof.
    intros N D E a' b'. unfold polyfit1 in E. fold n sx sy sxx sxy in E. injection E as Eb Ea.
    assert (B : b * (n * sxx - sx * sx) = n * sxy - sx * sy) by (rewrite <- Eb; field; lra).
    assert (A : a * n = sy - b * sx) by (rewrite <- Ea, <- Eb; field; split; lra).
    assert (C : a * sx + b * sxx = sxy).
    { apply Rmult_eq_reg_l with n; [|lra]. replace (n * (a * sx + b * sxx)) with (a * n * sx + b * (n * sxx - sx * sx) + b * sx * sx) by ring.
      rewrite A, B. ring. }
    assert (W : misfit pts a' b' - misfit pts a b = n * (a' - a) ^ 2 + 2 * (a' - a) * (b' - b) * sx + (b' - b) ^ 2 * sxx).
    { rewrite !misfit_sums. replace sy with (a * n + b * sx) by lra. rewrite <- C. ring. }
    assert (Q : n * (misfit pts a' b' - misfit pts a b) = (n * (a' - a) + (b' - b) * sx) ^ 2 + (b' - b) ^ 2 * (n * sxx - sx * sx)) by (rewrite W; ring).
    pose proof (pow2_ge_0 (n * (a' - a) + (b' - b) * sx)) as P1. pose proof (pow2_ge_0 (b' - b)) as P2.
    assert (P3 : 0 <= (b' - b) ^ 2 * (n * sxx - sx * sx)) by (apply Rmult_le_pos; lra).
    split.
    - apply Rnot_lt_le. intros L. assert (n * (misfit pts a' b' - misfit pts a b) < 0).
      { replace 0 with (n * 0) by ring. apply Rmult_lt_compat_l; lra. } lra.
    - intros L. assert (n * (misfit pts a' b' - misfit pts a b) <= 0).
      { replace 0 with (n * 0) by ring. apply Rmult_le_compat_l; lra. }
      assert (Z : (b' - b) ^ 2 = 0).
      { apply Rmult_eq_reg_r with (n * sxx - sx * sx); [|lra]. lra. }
      assert (Z' : b' - b = 0) by (destruct (Rmult_integral _ _ (eq_trans (eq_sym (ltac:(ring) : (b' - b) ^ 2 = (b' - b) * (b' - b))) Z)); assumption).
      rewrite Z' in Q. assert (Y : n * (a' - a) = 0).
      { assert (Y2 : (n * (a' - a)) * (n * (a' - a)) = 0) by (replace ((n * (a' - a)) * (n * (a' - a))) with ((n * (a' - a) + 0 * sx) ^ 2) by ring; rewrite Z' in P1; lra).
        destruct (Rmult_integral _ _ Y2); assumption. }
      split; [|lra]. destruct (Rmult_integral _ _ Y); lra.
  Qed.
End Fit.
