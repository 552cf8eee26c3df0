From Coq Require Import String List ZArith Reals Lia Lra Psatz Bool Sorted.
From Verif Require Import Base Model_Time Model_Geo Model_Interp Model_Crater Model_Ice Model_Rng Spec_Ice Proofs_Base
  Proofs_Time Proofs_Geo Proofs_Interp Proofs_Crater Proofs_Scaling Proofs_Ice.
Import ListNotations.
Open Scope R_scope.

(** * Reasoning about random computations *)
Definition ok {A} (m : rand A) (P : A -> Prop) : Prop :=
  forall u k, draws u -> exists a k', m u k = Ok (a, k') /\ P a.

Lemma ok_ret {A} (a : A) (P : A -> Prop) : P a -> ok (ret a) P.
Proof. intros H u k _. now exists a, k. Qed.
Lemma ok_lift {A} (r : result A) (P : A -> Prop) : (exists a, r = Ok a /\ P a) -> ok (lift r) P.
Proof. intros (a & -> & H) u k _. now exists a, k. Qed.
Lemma ok_bind {A B} (m : rand A) (f : A -> rand B) P Q :
  ok m P -> (forall a, P a -> ok (f a) Q) -> ok (rbind m f) Q.
Proof.
  intros Hm Hf u k Hu. destruct (Hm u k Hu) as (a & k' & E & Ha). unfold rbind. rewrite E. cbn [bind].
  exact (Hf a Ha u k' Hu).
Qed.
Lemma ok_weaken {A} (m : rand A) (P Q : A -> Prop) : ok m P -> (forall a, P a -> Q a) -> ok m Q.
Proof.
  intros Hm H u k Hu. destruct (Hm u k Hu) as (a & k' & E & Ha). exists a, k'. auto.
Qed.
Lemma ok_random n : ok (random n) (fun us => length us = n /\ Forall (fun x => 0 <= x < 1) us).
Proof.
  intros u k Hu. eexists. eexists. split; [reflexivity|]. rewrite map_length, seq_length. split; auto.
  apply Forall_forall. intros x Hx. apply in_map_iff in Hx as (i & <- & _). apply Hu.
Qed.

Lemma rbind_ok {A B} (m : rand A) (f : A -> rand B) u k b k' :
  rbind m f u k = Ok (b, k') -> exists a k1, m u k = Ok (a, k1) /\ f a u k1 = Ok (b, k').
Proof.
  unfold rbind. destruct (m u k) as [[a k1]|]; cbn [bind]; intros H; [|discriminate]. now exists a, k1.
Qed.
Lemma lift_ok {A} (r : result A) u k a k' : lift r u k = Ok (a, k') -> r = Ok a /\ k' = k.
Proof. unfold lift. destruct r; cbn [bind]; intros H; inversion H; auto. Qed.
Lemma ret_ok {A} (a : A) u k b k' : ret a u k = Ok (b, k') -> b = a /\ k' = k.
Proof. unfold ret. intros H. inversion H. auto. Qed.

(** * Weighted choice *)
Lemma filter_lt {A} (f : A -> bool) l x : In x l -> f x = false -> (length (filter f l) < length l)%nat.
Proof.
  induction l as [|y l IH]; intros Hin Hf; [destruct Hin|]. cbn [filter].
  assert (Hle : forall l : list A, (length (filter f l) <= length l)%nat).
  { clear. induction l as [|z l IH]; cbn; [lia|]. destruct (f z); cbn; lia. }
  destruct Hin as [->|Hin].
  - rewrite Hf. cbn. specialize (Hle l). lia.
  - destruct (f y); cbn; specialize (IH Hin Hf); lia.
Qed.

Lemma cumsum_above acc w x : x < acc -> Forall (fun y => 0 <= y) w ->
  filter (fun y => Rleb y x) (cumsum_from acc w) = [].
Proof.
  revert acc. induction w as [|w0 w IH]; intros acc Ha HF; [reflexivity|]. inversion HF; subst.
  cbn [cumsum_from filter]. assert (E : Rleb (acc + w0) x = false) by (apply Rleb_false; lra).
  rewrite E. apply IH; auto. lra.
Qed.

Lemma cumsum_count acc w x : Forall (fun y => 0 <= y) w -> acc <= x < acc + Rsum w ->
  let i := searchsorted_right (cumsum_from acc w) x in
  (i < length w)%nat /\ acc + Rsum (firstn i w) <= x < acc + Rsum (firstn (S i) w).
Proof.
  unfold searchsorted_right. revert acc. induction w as [|w0 w IH]; intros acc HF Hx.
  - exfalso. unfold Rsum in Hx. cbn in Hx. lra.
  - inversion HF; subst. rewrite Rsum_cons in Hx. cbn [cumsum_from filter]. rcase x (acc + w0) Hc.
    + assert (E : Rleb (acc + w0) x = false) by (apply Rleb_false; lra). rewrite E.
      rewrite cumsum_above by (auto; lra). cbn [length firstn]. rewrite Rsum_cons.
      unfold Rsum. cbn [fold_right]. split; [lia|lra].
    + assert (E : Rleb (acc + w0) x = true) by (apply Rleb_true; lra). rewrite E. cbn [length].
      destruct (IH (acc + w0) H2) as [Hl Hb]; [lra|].
      split; [lia|]. rewrite !firstn_cons, !Rsum_cons in *. lra.
Qed.

Lemma last_cumsum acc w d : w <> [] -> last (cumsum_from acc w) d = acc + Rsum w.
Proof.
  revert acc. induction w as [|w0 w IH]; intros acc Hn; [congruence|]. cbn [cumsum_from].
  rewrite Rsum_cons. destruct w as [|w1 w].
  - unfold Rsum. cbn. lra.
  - change (last (acc + w0 :: cumsum_from (acc + w0) (w1 :: w)) d)
      with (last (cumsum_from (acc + w0) (w1 :: w)) d). rewrite IH by discriminate. rewrite Rsum_cons. lra.
Qed.

Lemma map_div1 l : map (fun y => y / 1) l = l.
Proof. rewrite <- (map_id l) at 2. apply map_ext. intros. lra. Qed.

Lemma choice_idx_spec w x : Forall (fun y => 0 <= y) w -> Rsum w = 1 -> 0 <= x < 1 ->
  let i := choice_idx w x in
  (i < length w)%nat /\ Rsum (firstn i w) <= x < Rsum (firstn (S i) w).
Proof.
  intros HF Hs Hx. unfold choice_idx, cumsum.
  assert (Hn : w <> []) by (intros ->; unfold Rsum in Hs; cbn in Hs; lra).
  rewrite last_cumsum by auto. replace (0 + Rsum w) with 1 by lra. rewrite map_div1.
  pose proof (cumsum_count 0 w x HF) as H. cbv zeta in H. rewrite !Rplus_0_l in H. apply H. lra.
Qed.

Lemma firstn_sum_mono w i j : Forall (fun y => 0 <= y) w -> (i <= j)%nat ->
  Rsum (firstn i w) <= Rsum (firstn j w).
Proof.
  revert i j. induction w as [|a w IH]; intros i j HF Hij.
  - rewrite !firstn_nil. lra.
  - inversion HF; subst. destruct i as [|i].
    + cbn [firstn]. unfold Rsum at 1. cbn [fold_right]. apply Rsum_nonneg.
      apply Forall_forall. intros y Hy. rewrite Forall_forall in HF. apply HF.
      rewrite <- (firstn_skipn j (a :: w)). apply in_or_app. now left.
    + destruct j as [|j]; [lia|]. rewrite !firstn_cons, !Rsum_cons. specialize (IH i j H2). assert (i <= j)%nat by lia. specialize (IH H). lra.
Qed.

Lemma choice_idx_iff w x i : Forall (fun y => 0 <= y) w -> Rsum w = 1 -> 0 <= x < 1 ->
  choice_idx w x = i <-> Rsum (firstn i w) <= x < Rsum (firstn (S i) w).
Proof.
  intros HF Hs Hx. destruct (choice_idx_spec w x HF Hs Hx) as [Hl Hb]. split.
  - intros <-. exact Hb.
  - intros Hi. set (j := choice_idx w x) in *.
    destruct (Nat.lt_trichotomy j i) as [H|[H|H]]; auto; exfalso.
    + pose proof (firstn_sum_mono w (S j) i HF ltac:(lia)). lra.
    + pose proof (firstn_sum_mono w (S i) j HF ltac:(lia)). lra.
Qed.

Lemma choice_ok {A} (pool : list A) n p : (0 <= n)%Z -> pool <> [] -> length p = length pool ->
  Forall (fun y => 0 <= y) p -> Rsum p = 1 ->
  ok (choice pool n p) (fun ds => length ds = Z.to_nat n /\ forall d, In d ds -> In d pool).
Proof.
  intros Hn Hp HL HF Hs. unfold choice. destruct (Z.ltb_spec n 0); [lia|].
  destruct pool as [|a0 pool]; [congruence|]. set (P := a0 :: pool) in *.
  eapply ok_bind; [apply ok_random|]. intros us [Hlen Hus]. apply ok_lift.
  destruct (mapM_total (fun x => get P (choice_idx p x)) us) as [ds Hds].
  { intros x Hx. rewrite Forall_forall in Hus.
    destruct (choice_idx_spec p x HF Hs (Hus x Hx)) as [Hi _].
    unfold get. destruct (nth_error P (choice_idx p x)) eqn:E; [eauto|].
    apply nth_error_None in E. lia. }
  exists ds. split; auto. destruct (mapM_nth _ _ _ Hds) as [H1 H2]. split; [congruence|].
  intros d Hd. apply In_nth_error in Hd as [i Hi].
  assert (Hlt : (i < length us)%nat) by (rewrite <- H1; apply nth_error_Some; congruence).
  destruct (nth_error us i) as [x|] eqn:Ex; [|apply nth_error_None in Ex; lia].
  destruct (H2 i x Ex) as (d' & Hd' & Hg). rewrite Hi in Hd'. injection Hd' as <-.
  unfold get in Hg. destruct (nth_error P (choice_idx p x)) eqn:E; [|discriminate].
  injection Hg as <-. eapply nth_error_In; eauto.
Qed.

(** * Rounding *)
Lemma round_one_spec x u : 0 <= u < 1 ->
  let f := Int_part x in let frac := x - IZR f in
  (round_one x u = f \/ round_one x u = (f + 1)%Z) /\
  (round_one x u = (f + 1)%Z <-> 1 - frac <= u) /\
  (forall z, x = IZR z -> round_one x u = z).
Proof.
  intros Hu f frac. unfold round_one. pose proof (Int_part_bounds x) as HB. fold f in HB.
  assert (Hlow : u < 1 - frac -> Int_part (x + u) = f).
  { intros H. apply Int_part_unique. unfold frac in H. lra. }
  assert (Hhigh : 1 - frac <= u -> Int_part (x + u) = (f + 1)%Z).
  { intros H. apply Int_part_unique. rewrite plus_IZR. unfold frac in H. lra. }
  split; [|split].
  - destruct (Rle_or_lt (1 - frac) u); auto.
  - split; auto. intros H. destruct (Rle_or_lt (1 - frac) u) as [|C]; auto.
    rewrite (Hlow C) in H. lia.
  - intros z ->. apply Int_part_unique. lra.
Qed.

Lemma prob_round_ok xs : Forall (fun x => 0 <= x) xs ->
  ok (probabilistic_round xs) (fun ns => length ns = length xs /\ Forall (fun n => (0 <= n)%Z) ns).
Proof.
  intros HF. unfold probabilistic_round. eapply ok_bind; [apply ok_random|]. intros us [Hl Hus].
  apply ok_ret. rewrite map_length, combine_length, Hl, Nat.min_id. split; auto.
  apply Forall_forall. intros n Hn. apply in_map_iff in Hn as ([x u] & <- & Hin).
  rewrite Forall_forall in HF, Hus. pose proof (HF _ (in_combine_l _ _ _ _ Hin)).
  pose proof (Hus _ (in_combine_r _ _ _ _ Hin)). unfold round_one.
  pose proof (Int_part_bounds (x + u)).
  assert (-1 < Int_part (x + u))%Z; [|lia]. apply lt_IZR. lra.
Qed.

(** * Speeds *)
Lemma scale_div s x : 0 < s -> s * (x / s) = x.
Proof. intros. field. lra. Qed.

Lemma asteroid_speed_ge c ppf u : ppf_support ppf -> 0 <= u < 1 -> 0 < impact_speed_sd c ->
  escape_vel c <= asteroid_speed c ppf u.
Proof.
  intros Hp Hu Hs. unfold asteroid_speed. cbv zeta.
  set (a := (escape_vel c - impact_speed_mean c) / impact_speed_sd c).
  pose proof (Hp a None u Hu) as H. cbv beta iota in H.
  assert (impact_speed_sd c * a = escape_vel c - impact_speed_mean c) by (unfold a; now apply scale_div).
  nra.
Qed.

Lemma trunc_range mean sd lo hi ppf u : ppf_support ppf -> 0 <= u < 1 -> 0 < sd -> 0 <= lo + hi ->
  mean - lo <= mean + sd * ppf (- lo / sd) (Some (hi / sd)) u <= mean + hi.
Proof.
  intros Hp Hu Hs Hlh. pose proof (Hp (- lo / sd) (Some (hi / sd)) u Hu) as H2. cbv beta iota in H2.
  assert (H3 : - lo / sd <= hi / sd) by (apply Rmult_le_compat_r; [left; now apply Rinv_0_lt_compat|lra]).
  specialize (H2 H3).
  pose proof (scale_div sd (- lo) Hs). pose proof (scale_div sd hi Hs). nra.
Qed.

Lemma sample_all_ok subs n u k :
  exists s, sample_all subs n u k = Ok (s, (k + length subs * n)%nat) /\ length s = length subs /\
    forall j f, nth_error subs j = Some f ->
      nth_error s j = Some (map f (map u (seq (k + j * n) n))).
Proof.
  revert k. induction subs as [|f subs IH]; intros k.
  - exists []. cbn. rewrite Nat.add_0_r. repeat split. intros j f H. destruct j; discriminate.
  - cbn [sample_all]. unfold rbind at 1. unfold random. cbn [bind].
    destruct (IH (k + n)%nat) as (s & E & HL & HN). unfold rbind. rewrite E. cbn [bind]. unfold ret.
    eexists. split; [|split].
    + f_equal. f_equal. cbn [length]. lia.
    + cbn [length]. congruence.
    + intros j g Hj. destruct j as [|j].
      * cbn [nth_error] in *. injection Hj as <-. rewrite Nat.mul_0_l, Nat.add_0_r. reflexivity.
      * cbn [nth_error] in *. rewrite (HN j g Hj). do 3 f_equal. f_equal. lia.
Qed.

Lemma mixture_rvs_spec subs w n u k : draws u -> length w = length subs ->
  Forall (fun y => 0 <= y) w -> Rsum w = 1 ->
  exists xs, mixture_rvs subs w n u k = Ok (xs, (k + n + length subs * n)%nat) /\ length xs = n /\
    forall i, (i < n)%nat ->
      exists ch f, nth_error subs ch = Some f /\
        Rsum (firstn ch w) <= u (k + i)%nat < Rsum (firstn (S ch) w) /\
        nth_error xs i = Some (f (u (k + n + ch * n + i)%nat)).
Proof.
  intros Hu HL HF Hs. unfold mixture_rvs. unfold rbind at 1. unfold random at 1. cbn [bind].
  destruct (sample_all_ok subs n u (k + n)) as (s & Es & Hls & Hns).
  unfold rbind. rewrite Es. cbn [bind]. unfold lift.
  set (g := fun '(i, ch) => let* row := get s ch in get row i).
  assert (Hg : forall i, (i < n)%nat -> exists ch f, nth_error subs ch = Some f /\
     choice_idx w (u (k + i)%nat) = ch /\
     Rsum (firstn ch w) <= u (k + i)%nat < Rsum (firstn (S ch) w) /\
     g (i, ch) = Ok (f (u (k + n + ch * n + i)%nat))).
  { intros i Hi. destruct (choice_idx_spec w (u (k + i)%nat) HF Hs (Hu _)) as [Hc Hb].
    set (ch := choice_idx w (u (k + i)%nat)) in *. exists ch.
    destruct (nth_error subs ch) as [f|] eqn:Ef; [|apply nth_error_None in Ef; lia].
    exists f. split; auto. split; auto. split; auto. unfold g, get. rewrite (Hns ch f Ef). cbn [bind].
    rewrite !nth_error_map.
    rewrite (nth_error_nth' _ O) by (rewrite seq_length; exact Hi). rewrite seq_nth by auto.
    reflexivity. }
  set (pairs := combine (seq 0 n) (map (choice_idx w) (map u (seq k n)))).
  assert (Hp : forall i, (i < n)%nat -> nth_error pairs i = Some (i, choice_idx w (u (k + i)%nat))).
  { intros i Hi. unfold pairs. apply combine_nth_error.
    - rewrite (nth_error_nth' _ O) by (rewrite seq_length; exact Hi). now rewrite seq_nth.
    - rewrite !nth_error_map. rewrite (nth_error_nth' _ O) by (rewrite seq_length; exact Hi).
      rewrite seq_nth by auto. reflexivity. }
  assert (Hlp : length pairs = n).
  { unfold pairs. rewrite combine_length, !map_length, !seq_length. apply Nat.min_id. }
  destruct (mapM_total g pairs) as [xs Hxs].
  { intros [i ch] Hin. apply In_nth_error in Hin as [j Hj].
    assert (Hjn : (j < n)%nat) by (rewrite <- Hlp; apply nth_error_Some; congruence).
    rewrite (Hp j Hjn) in Hj. injection Hj as <- <-.
    destruct (Hg j Hjn) as (ch & f & _ & <- & _ & E). eauto. }
  rewrite Hxs. cbn [bind]. destruct (mapM_nth _ _ _ Hxs) as [HLx HNx].
  exists xs. split; [reflexivity|]. split; [congruence|].
  intros i Hi. destruct (Hg i Hi) as (ch & f & Hf & Hc & Hb & E). exists ch, f. split; auto. split; auto.
  destruct (HNx i _ (Hp i Hi)) as (x & Hx & Gx). rewrite Hc, E in Gx. injection Gx as <-. exact Hx.
Qed.

Lemma mixture_weights_ok nsub w : Forall (fun x => 0 < x) w -> length w = nsub -> w <> [] ->
  exists w', mixture_weights nsub (Some w) = Ok w' /\ length w' = nsub /\
    Forall (fun x => 0 < x) w' /\ Rsum w' = 1.
Proof.
  intros HF HL Hn. unfold mixture_weights. rewrite HL, Nat.eqb_refl.
  eexists; split; [reflexivity|]. rewrite map_length. pose proof (Rsum_pos w Hn HF). repeat split; auto.
  - apply Forall_forall. intros x Hx. apply in_map_iff in Hx as (y & <- & Hy).
    rewrite Forall_forall in HF. apply Rdiv_lt_0_compat; auto.
  - rewrite Rsum_div by lra. field. lra.
Qed.

(** * Mixture distribution functions *)
Lemma dotsum_cons x a y b : dotsum (x :: a) (y :: b) = x * y + dotsum a b.
Proof. unfold dotsum. cbn [combine map]. apply Rsum_cons. Qed.

Lemma weighted_range vals w lo hi : length vals = length w -> Forall (fun x => 0 <= x) w ->
  Forall (fun v => lo <= v <= hi) vals -> lo * Rsum w <= weighted_sum w vals <= hi * Rsum w.
Proof.
  unfold weighted_sum. revert w. induction vals as [|v vals IH]; intros [|x w] HL Hw Hv; try discriminate.
  - unfold dotsum, Rsum. cbn. lra.
  - inversion Hw; inversion Hv; subst. rewrite dotsum_cons, Rsum_cons.
    destruct (IH w ltac:(now injection HL) H2 H6). nra.
Qed.

Lemma weighted_mono vals vals' w : length vals = length w -> Forall (fun x => 0 <= x) w ->
  Forall2 Rle vals vals' -> weighted_sum w vals <= weighted_sum w vals'.
Proof.
  unfold weighted_sum. intros HL Hw H. revert w HL Hw.
  induction H as [|v v' vals vals' Hv H IH]; intros [|x w] HL Hw; try discriminate.
  - apply Rle_refl.
  - inversion Hw; subst. rewrite !dotsum_cons. specialize (IH w ltac:(now injection HL) H3). nra.
Qed.

Lemma weighted_compl vals vals' w : length vals = length w -> Rsum w = 1 ->
  Forall2 (fun v v' => v + v' = 1) vals vals' -> weighted_sum w vals + weighted_sum w vals' = 1.
Proof.
  unfold weighted_sum. intros HL Hs H. enough (E : dotsum vals w + dotsum vals' w = Rsum w) by lra.
  clear Hs. revert w HL.
  induction H as [|v v' vals vals' Hv H IH]; intros [|x w] HL; try discriminate.
  - unfold dotsum, Rsum. cbn. lra.
  - rewrite !dotsum_cons, Rsum_cons. specialize (IH w ltac:(now injection HL)).
    replace v' with (1 - v) by lra. lra.
Qed.

Lemma speeds_ok c ppf n : ppf_support ppf -> speeds_sane c ->
  ok (get_random_impactor_speeds c ppf n) (fun vs => length vs = n /\ Forall (speed_ok c) vs).
Proof.
  intros Hp (He & Hi & Hj & Hl & Hjf & Hlf & Hmm & _). unfold get_random_impactor_speeds, speed_ok.
  destruct (is_comet c).
  - destruct (mixture_weights_ok 2 [jfc_frac c; lpc_frac c]) as (w & Ew & HLw & HFw & Hsw);
      [repeat constructor; auto|reflexivity|discriminate|].
    eapply ok_bind; [apply ok_lift; exists w; split; [exact Ew|exact (eq_refl w)]|].
    intros w' <-. intros u k Hu.
    destruct (mixture_rvs_spec [jfc_speed c ppf; lpc_speed c ppf] w n u k Hu HLw) as (xs & E & HL & HN); auto.
    { eapply Forall_impl; [|exact HFw]. simpl; intros; lra. }
    exists xs. eexists. split; [exact E|]. split; auto. apply Forall_forall. intros x Hx.
    apply In_nth_error in Hx as [i Hx'].
    assert (Hin : (i < n)%nat) by (rewrite <- HL; apply nth_error_Some; congruence).
    destruct (HN i Hin) as (ch & f & Hf & _ & Hv). rewrite Hv in Hx'. injection Hx' as <-.
    destruct ch as [|[|ch]]; cbn [nth_error] in Hf.
    + injection Hf as <-. left. unfold jfc_speed. cbv zeta. apply trunc_range; auto.
    + injection Hf as <-. right. unfold lpc_speed. cbv zeta. apply trunc_range; auto.
    + destruct ch; discriminate.
  - eapply ok_bind; [apply ok_random|]. intros us [HL HF]. apply ok_ret. rewrite map_length. split; auto.
    apply Forall_forall. intros v Hv. apply in_map_iff in Hv as (u & <- & Hu).
    rewrite Forall_forall in HF. apply asteroid_speed_ge; auto.
Qed.

(** * Basin marks *)
Lemma marks_exclusive c u : comets_on c = true -> 0 <= u < 1 ->
  0 <= comet_ast_frac c <= 1 -> 0 <= ctype_frac c <= 1 -> 0 <= ctype_hydrated c <= 1 ->
  ~ (fst (basin_marks c u) = true /\ snd (basin_marks c u) = true).
Proof.
  intros Hc Hu H1 H2 H3. unfold basin_marks. rewrite Hc. cbn [fst snd]. rewrite !Rltb_true. intros [A B].
  assert ((1 - comet_ast_frac c) * ctype_frac c * ctype_hydrated c <= 1 - comet_ast_frac c).
  { assert (0 <= ctype_frac c * ctype_hydrated c <= 1) by nra. nra. }
  lra.
Qed.

Lemma label_cases c m : icy_label c m = "no"%string \/
  icy_label c m = "hyd_ctype"%string /\ basins_on c = true /\ fst m = true /\ (comets_on c && snd m = false) \/
  icy_label c m = "comet"%string /\ basins_on c = true /\ comets_on c = true /\ snd m = true.
Proof.
  unfold icy_label. destruct (basins_on c), (comets_on c), m as [[] []]; cbn; auto 10.
Qed.

(** * Ice of one set of craters *)
Lemma large_craters_ok c ds vs regime :
  In regime ["d"; "e"; "f"]%string -> 0 <= hydrated_wt_pct c -> 0 <= impactor_density (crat c) ->
  exists m, ice_large_craters c ds vs regime = Ok m /\ 0 <= m.
Proof.
  intros Hr Hh Hd. unfold ice_large_craters.
  assert (HL : exists ls, diam2len (crat c) ds vs regime = Ok ls /\ Forall (fun l => 0 < l) ls).
  { unfold diam2len. destruct Hr as [<-|[<-|[<-|[]]]]; cbn [String.eqb Ascii.eqb Bool.eqb orb];
      (eexists; split; [reflexivity|]); apply Forall_forall; intros l Hl;
      apply in_map_iff in Hl as ([d v] & <- & _); apply Rpower_pos. }
  destruct HL as (ls & -> & HF). cbn [bind]. eexists; split; [reflexivity|].
  apply Rsum_nonneg. apply Forall_forall. intros x Hx. apply in_map_iff in Hx as ([m v] & <- & Hin).
  apply in_combine_l in Hin. apply in_map_iff in Hin as (l & <- & Hl).
  rewrite Forall_forall in HF. specialize (HF l Hl).
  pose proof (retention_nonneg c v). pose proof (diam2vol_1).
  assert (0 <= diam2vol l).
  { unfold diam2vol. pose proof PI_RGT_0. apply Rmult_le_pos; [lra|]. apply pow_le. lra. }
  apply Rmult_le_pos; auto. apply Rmult_le_pos; auto. apply Rmult_le_pos; auto.
Qed.

Lemma hydrated_ok c n : ok (get_random_hydrated_craters c n) (fun m => length m = n).
Proof.
  unfold get_random_hydrated_craters. eapply ok_bind; [apply ok_random|]. intros us [H _].
  apply ok_ret. now rewrite map_length.
Qed.

Lemma stochastic_loop_ok c ppf regime diams prob counts :
  In regime ["d"; "e"; "f"]%string -> 0 <= hydrated_wt_pct c -> 0 <= impactor_density (crat c) ->
  ppf_support ppf -> speeds_sane c ->
  diams <> [] -> length prob = length diams -> Forall (fun y => 0 <= y) prob -> Rsum prob = 1 ->
  Forall (fun n => (0 <= n)%Z) counts ->
  ok (stochastic_loop c ppf regime diams prob counts)
     (fun ms => length ms = length counts /\ Forall (fun m => 0 <= m) ms).
Proof.
  intros Hr Hh Hd Hp Hs Hn HL HF HS. induction counts as [|n counts IH]; intros Hc.
  - apply ok_ret. auto.
  - inversion Hc; subst. cbn [stochastic_loop].
    eapply ok_bind; [apply choice_ok; auto|]. intros ds [Hds _].
    eapply ok_bind; [apply hydrated_ok|]. intros hyd _. cbv zeta.
    eapply ok_bind; [apply speeds_ok; auto|]. intros vs _.
    eapply ok_bind; [apply ok_lift; apply large_craters_ok; auto|]. intros m Hm.
    eapply ok_bind; [apply IH; auto|]. intros ms [Hms HFm]. apply ok_ret. split; cbn; auto.
Qed.

(** * Whole runs *)
Lemma sane_comet c : sane c -> sane (get_comet_cfg c).
Proof. intros []. constructor; cbn; auto. Qed.

Lemma thickness_all c ms : sane c -> Forall (fun m => 0 <= m) ms ->
  exists ts, mapM (get_ice_thickness c) ms = Ok ts /\ length ts = length ms /\ Forall (fun m => 0 <= m) ts.
Proof.
  intros [] HF. rewrite mapM_thickness by auto. eexists; split; [reflexivity|]. rewrite map_length.
  split; auto. apply Forall_forall. intros x Hx. apply in_map_iff in Hx as (m & <- & Hm).
  rewrite Forall_forall in HF. specialize (HF m Hm). unfold area. rewrite s_species. cbn [String.eqb Ascii.eqb Bool.eqb].
  repeat (apply Rmult_le_pos; try lra); left; apply Rinv_0_lt_compat; lra.
Qed.

Lemma share_nonneg c n : 0 <= comet_ast_frac c <= 1 -> 0 <= n -> 0 <= share c n.
Proof. intros H Hn. unfold share. destruct (is_comet c), (comets_on c); nra. Qed.

Lemma sfd_ok c r : regime_sane c r -> exists dmin dmax step slope diams prob,
  regimes c r = Some (dmin, dmax, step, slope) /\ get_crater_sfd dmin dmax step slope = Ok (diams, prob) /\
  diams <> [] /\ length prob = length diams /\ Forall (fun y => 0 <= y) prob /\ Rsum prob = 1 /\
  Forall (fun d => dmin <= d) diams /\ 0 < dmin < dmax /\ hd 0 diams = dmin /\ last diams 0 = dmax.
Proof.
  intros (dmin & dmax & step & slope & E & H1 & H2 & H3).
  destruct (diam_array_spec dmin dmax step H2 H3) as (ds & n & Ed & Hn & Hl & Hb & Hi).
  exists dmin, dmax, step, slope, ds, (get_sfd_prob ds slope).
  assert (Hne : ds <> []) by (intros ->; discriminate).
  destruct (sfd_facts ds slope Hne) as (A & B & C).
  repeat split; auto; try lra.
  - unfold get_crater_sfd. rewrite Ed. reflexivity.
  - eapply Forall_impl; [|exact B]. simpl; intros; lra.
  - apply Forall_forall. intros d Hd. apply In_nth_error in Hd as [i Hdi].
    assert (Hin : (i < S n)%nat) by (rewrite <- Hl; apply nth_error_Some; congruence).
    rewrite Hi in Hdi by lia. injection Hdi as <-.
    assert (0 < INR n) by (apply lt_0_INR; lia). pose proof (pos_INR i).
    assert (0 <= (dmax - dmin) / INR n) by (apply Rmult_le_pos; [lra|left; now apply Rinv_0_lt_compat]). nra.
  - pose proof (Hi O ltac:(lia)) as H0. destruct ds as [|d ds]; [congruence|]. cbn [nth_error hd] in *.
    injection H0 as ->. cbn [INR]. lra.
  - pose proof (last_nth ds 0 Hne) as HLast. rewrite Hl in HLast.
    replace (S n - 1)%nat with n in HLast by lia. rewrite (Hi n (le_n n)) in HLast. injection HLast as HLast.
    rewrite <- HLast. field. assert (0 < INR n) by (apply lt_0_INR; lia). lra.
Qed.

Lemma chron_nonneg c dmin dmax t : 0 <= sa_moon c -> 0 <= timestep c -> neukum c dmax <= neukum c dmin ->
  0 <= num_craters_chronology c dmin dmax t.
Proof.
  intros. unfold num_craters_chronology. pose proof (scaling_pos t).
  set (f := impact_flux_scaling t) in *. clearbody f.
  repeat (apply Rmult_le_pos; try lra).
Qed.

Lemma crater_pop_ok c time r : sane c -> In r ["c"; "d"; "e"]%string ->
  exists diams nt prob dmin dmax step slope, get_crater_pop c time r = Ok (diams, nt, prob) /\
  regimes c r = Some (dmin, dmax, step, slope) /\
  length nt = length time /\ Forall (fun n => 0 <= n) nt /\
  diams <> [] /\ length prob = length diams /\ Forall (fun y => 0 <= y) prob /\ Rsum prob = 1 /\
  Forall (fun d => 0 < d) diams /\ hd 0 diams = dmin /\ last diams 0 = dmax.
Proof.
  intros Hs Hr. pose proof Hs as [].
  destruct (s_counts r Hr) as (d1 & d2 & st & sl & E & Hneu).
  destruct (sfd_ok c r) as (dmin & dmax & step & slope & diams & prob & E' & Esfd & A & B & C & D & F & G & H & I).
  { apply s_reg. destruct Hr as [<-|[<-|[<-|[]]]]; simpl; auto. }
  rewrite E' in E. injection E as <- <- <- <-.
  exists diams. eexists. exists prob, dmin, dmax, step, slope.
  split. { unfold get_crater_pop, regime_of. rewrite E'. cbn [bind]. rewrite Esfd. reflexivity. }
  split; auto. rewrite map_length. repeat split; auto.
  - apply Forall_forall. intros x Hx. apply in_map_iff in Hx as (t & <- & _).
    apply share_nonneg; auto. now apply chron_nonneg.
  - eapply Forall_impl; [|exact F]. simpl; intros; lra.
Qed.

Lemma water_nonneg c m : sane c -> 0 <= m -> 0 <= impactor_mass2water c m.
Proof.
  intros [] Hm. unfold impactor_mass2water. destruct (is_comet c); repeat (apply Rmult_le_pos; try lra).
Qed.

Lemma dotsum_nonneg a b : Forall (fun x => 0 <= x) a -> Forall (fun x => 0 <= x) b -> 0 <= dotsum a b.
Proof.
  intros Ha Hb. unfold dotsum. apply Rsum_nonneg. apply Forall_forall. intros x Hx.
  apply in_map_iff in Hx as ([p q] & <- & Hin). rewrite Forall_forall in Ha, Hb.
  apply Rmult_le_pos; [apply Ha; eapply in_combine_l|apply Hb; eapply in_combine_r]; eauto.
Qed.

Lemma vol_nonneg d : 0 <= d -> 0 <= diam2vol d.
Proof. intros. unfold diam2vol. pose proof PI_RGT_0. apply Rmult_le_pos; [lra|]. apply pow_le. lra. Qed.

Lemma micro_ok c time : sane c -> exists t, get_micrometeorite_ice c time = Ok t /\ good (length time) t.
Proof.
  intros Hs. unfold get_micrometeorite_ice.
  destruct (thickness_all c (map (ice_micrometeorites c) time) Hs) as (ts & E & HL & HF).
  - apply Forall_forall. intros x Hx. apply in_map_iff in Hx as (t & <- & _). destruct Hs.
    unfold ice_micrometeorites. cbv zeta. pose proof (scaling_pos t).
    set (f := impact_flux_scaling t) in *. clearbody f.
    destruct (is_comet c), (comets_on c); repeat apply Rmult_le_pos; lra.
  - exists ts. rewrite map_length in HL. split; [exact E|split; auto].
Qed.

Lemma small_imp_ok c time : sane c -> exists t, get_small_impactor_ice c time = Ok t /\ good (length time) t.
Proof.
  intros Hs. pose proof Hs as []. unfold get_small_impactor_ice, get_small_impactor_pop, regime_of.
  destruct (sfd_ok c "b" (s_reg "b"%string ltac:(simpl; auto)))
    as (dmin & dmax & step & slope & diams & prob & -> & Esfd & A & B & C & D & F & G & _).
  cbn [bind]. rewrite Esfd. cbn [bind]. unfold ice_small_impactors.
  match goal with |- exists t, mapM _ ?l = _ /\ _ => destruct (thickness_all c l Hs) as (ts & E & HL & HF) end.
  - apply Forall_forall. intros x Hx. apply in_map_iff in Hx as (row & <- & Hrow).
    apply in_map_iff in Hrow as (t & <- & _). apply water_nonneg; auto. apply dotsum_nonneg.
    + apply Forall_forall. intros y Hy. apply in_map_iff in Hy as (p & <- & Hp).
      rewrite Forall_forall in C. specialize (C p Hp). pose proof (scaling_pos t).
      set (f := impact_flux_scaling t) in *. clearbody f. apply Rmult_le_pos; auto. apply Rmult_le_pos; [|lra].
      unfold get_impactors_brown. apply share_nonneg; auto.
      assert (Rpower 10 (brown_c0 c - brown_d0 c * log10 dmax) <= Rpower 10 (brown_c0 c - brown_d0 c * log10 dmin)).
      { apply Rle_Rpower; [lra|]. assert (log10 dmin <= log10 dmax); [|nra].
        unfold log10. apply Rmult_le_compat_r.
        - left. apply Rinv_0_lt_compat. rewrite <- ln_1. apply ln_increasing; lra.
        - left. apply ln_increasing; lra. }
      repeat apply Rmult_le_pos; try lra. left. now apply Rinv_0_lt_compat.
    + apply Forall_forall. intros y Hy. apply in_map_iff in Hy as (d & <- & Hd).
      rewrite Forall_forall in F. specialize (F d Hd). apply Rmult_le_pos; [|lra]. apply vol_nonneg. lra.
  - exists ts. rewrite !map_length in HL. split; [exact E|split; auto].
Qed.

Lemma small_crater_ok c time : sane c ->
  exists t, get_small_simple_crater_ice c time = Ok t /\ good (length time) t.
Proof.
  intros Hs. pose proof Hs as []. unfold get_small_simple_crater_ice.
  destruct (crater_pop_ok c time "c" Hs ltac:(simpl; auto))
    as (diams & nt & prob & dmin & dmax & step & slope & -> & Er & HLn & HFn & A & B & C & D & F & G & I).
  cbn [bind]. unfold ice_small_craters, diam2len. cbn [String.eqb Ascii.eqb Bool.eqb].
  destruct diams as [|d0 diams]; [congruence|]. cbn [map].
  destruct s_trans_c as (d1 & d2 & st' & sl' & Er' & Hle). rewrite Er in Er'. injection Er' as <- <- <- <-.
  cbn [hd] in G. subst d0.
  assert (Hlast : last (map (final2transient (crat c)) (dmin :: diams)) (final2transient (crat c) dmin)
                  = final2transient (crat c) dmax).
  { rewrite <- I. generalize (final2transient (crat c) dmin). clear. revert dmin.
    induction diams as [|d l IH]; intros x y; [reflexivity|].
    change (last (map (final2transient (crat c)) (x :: d :: l)) y) with (last (map (final2transient (crat c)) (d :: l)) y).
    rewrite IH. reflexivity. }
  assert (Hpos : 0 < final2transient (crat c) dmin).
  { apply f2t_pos; auto. inversion F; auto. }
  pose proof (prieur_spec (impact_speed_mean c) (impactor_density (crat c)) (target_density (crat c))
    (grav_moon (crat c)) (final2transient (crat c) dmin) (map (final2transient (crat c)) diams)
    s_v s_rho s_rhot s_grav Hpos) as HP.
  cbn [map] in Hlast.
  destruct HP as (ls & El & HLl & Hr & _). { rewrite Hlast. auto. }
  cbv zeta in El. rewrite El. cbn [bind].
  match goal with |- exists t, mapM _ ?l = _ /\ _ => destruct (thickness_all c l Hs) as (ts & E & HL & HF) end.
  - apply Forall_forall. intros x Hx. apply in_map_iff in Hx as (row & <- & Hrow).
    apply in_map_iff in Hrow as (n & <- & Hn). apply water_nonneg; auto. apply dotsum_nonneg.
    + apply Forall_forall. intros y Hy. apply in_map_iff in Hy as (l & <- & Hl).
      apply Rmult_le_pos; [|lra]. apply vol_nonneg. apply In_nth_error in Hl as [i Hl].
      assert (Hi : (i < length ls)%nat) by (apply nth_error_Some; congruence). rewrite HLl in Hi.
      destruct (nth_error (final2transient (crat c) dmin :: map (final2transient (crat c)) diams) i) as [t|] eqn:Et;
        [|apply nth_error_None in Et; lia].
      destruct (Hr i t l Et Hl) as [[H1 _] _]. lra.
    + apply Forall_forall. intros y Hy. apply in_map_iff in Hy as (p & <- & Hp).
      rewrite Forall_forall in C, HFn. apply Rmult_le_pos; auto.
  - exists ts. rewrite !map_length, HLn in HL. split; [exact E|split; auto].
Qed.

Lemma stochastic_ok c ppf time r : sane c -> ppf_support ppf -> In r ["d"; "e"]%string ->
  ok (get_stochastic_thickness c ppf time r) (good (length time)).
Proof.
  intros Hs Hp Hr. pose proof Hs as []. unfold get_stochastic_thickness, get_ice_stochastic.
  destruct (crater_pop_ok c time r Hs ltac:(destruct Hr as [<-|[<-|[]]]; simpl; auto))
    as (diams & nt & prob & dmin & dmax & step & slope & Epop & Er & HLn & HFn & A & B & C & D & F & G & I).
  eapply (ok_bind _ _ (good (length time))).
  - eapply ok_bind. { apply ok_lift. exists (diams, nt, prob). split; [exact Epop|exact (eq_refl (diams, nt, prob))]. }
    intros x <-. eapply ok_bind; [apply prob_round_ok; auto|]. intros ns [Hn1 Hn2].
    eapply ok_weaken; [apply stochastic_loop_ok; auto|].
    + destruct Hr as [<-|[<-|[]]]; simpl; auto.
    + lra.
    + intros ms [H1 H2]. split; [congruence|auto].
  - intros ms [H1 H2]. apply ok_lift. destruct (thickness_all c ms Hs H2) as (ts & E & HL & HF).
    exists ts. split; auto. split; [congruence|auto].
Qed.

Lemma ages2time_nonneg tol time evs : time <> [] -> Forall (fun e => 0 <= snd e) evs ->
  exists r, ages2time Rplus 0 tol time evs = Ok r /\ good (length time) r.
Proof.
  intros Hn HF. unfold ages2time. destruct time as [|t0 time]; [congruence|].
  cbn [minmax_rtol bind]. eexists; split; [reflexivity|].
  set (T := t0 :: time). match goal with |- good _ (fold_left _ (filter ?f evs) _) => set (kept := filter f evs) end.
  assert (HK : Forall (fun e => 0 <= snd e) kept).
  { apply Forall_forall. intros e He. apply filter_In in He as [He _]. rewrite Forall_forall in HF. auto. }
  assert (H0 : good (length T) (repeat 0 (length T))).
  { split; [apply repeat_length|]. apply Forall_forall. intros x Hx. apply repeat_spec in Hx. lra. }
  clearbody kept. revert H0. generalize (repeat 0 (length T)).
  induction HK as [|e kept He HK IH]; intros acc Hacc; cbn [fold_left]; auto.
  apply IH. destruct Hacc as [HL HFa]. unfold place.
  destruct (nth_error acc (nearest_idx T (fst e))) as [old|] eqn:E; [|split; auto].
  split; [now rewrite upd_length|].
  assert (Hold : 0 <= old) by (apply (Forall_nth_error _ _ _ _ HFa E)).
  apply Forall_forall. intros x Hx. apply In_nth_error in Hx as [j Hj].
  destruct (Nat.eq_dec j (nearest_idx T (fst e))) as [->|Hne].
  - rewrite upd_nth_same in Hj by (apply nth_error_Some; congruence). injection Hj as <-. lra.
  - rewrite upd_nth_other in Hj by auto. apply (Forall_nth_error _ _ _ _ HFa Hj).
Qed.

Lemma basin_ok c ppf tol df time : sane c -> ppf_support ppf -> time <> [] ->
  ok (get_basin_ice c ppf tol df time) (good (length time)).
Proof.
  intros Hs Hp Hn. pose proof Hs as []. unfold get_basin_ice.
  eapply (ok_bind _ _ (good (length time))).
  - unfold ice_basins. cbv zeta. set (bdf := filter _ df).
    eapply ok_bind; [apply speeds_ok; auto|]. intros vs [Hv _].
    eapply (ok_bind _ _ (fun ms => Forall (fun m => 0 <= m) ms)).
    + apply ok_lift.
      assert (HT : forall a, In a (combine bdf vs) -> exists m,
        (fun '(b, v) => ice_large_craters c [2 * i_rad b] [v] "f") a = Ok m /\ 0 <= m).
      { intros [b v] _. apply large_craters_ok; [simpl; auto| |]; lra. }
      destruct (mapM_total (fun '(b, v) => ice_large_craters c [2 * i_rad b] [v] "f") (combine bdf vs)) as [ms Hms].
      { intros a Ha. destruct (HT a Ha) as (m & E & _). eauto. }
      exists ms. split; auto. destruct (mapM_nth _ _ _ Hms) as [HL HN]. apply Forall_forall. intros m Hm.
      apply In_nth_error in Hm as [i Hi].
      assert (Hlt : (i < length (combine bdf vs))%nat) by (rewrite <- HL; apply nth_error_Some; congruence).
      destruct (nth_error (combine bdf vs) i) as [a|] eqn:Ea; [|apply nth_error_None in Ea; lia].
      destruct (HN i a Ea) as (m' & Hm' & Hf). rewrite Hi in Hm'. injection Hm' as <-.
      destruct (HT a (nth_error_In _ _ Ea)) as (m' & E & H0). rewrite E in Hf. injection Hf as <-. exact H0.
    + intros ms Hms. apply ok_lift. apply ages2time_nonneg; auto. apply Forall_forall.
      intros [a m] He. apply in_combine_r in He. rewrite Forall_forall in Hms. cbn. auto.
  - intros ms [H1 H2]. apply ok_lift. destruct (thickness_all c ms Hs H2) as (ts & E & HL & HF).
    exists ts. split; auto. split; [congruence|auto].
Qed.

Lemma vadd_good n a b : good n a -> good n b -> good n (vadd a b).
Proof. intros [A B] [C D]. split; [rewrite vadd_length; congruence|now apply vadd_nonneg]. Qed.

Lemma zeros_good {A} (time : list A) : good (length time) (map (fun _ => 0) time).
Proof.
  split; [apply map_length|]. apply Forall_forall. intros x Hx. apply in_map_iff in Hx as (t & <- & _). lra.
Qed.

Lemma impact_ice_ok c ppf tol df time : sane c -> ppf_support ppf -> time <> [] ->
  ok (get_impact_ice c ppf tol df time) (good (length time)).
Proof.
  intros Hs Hp Hn. unfold get_impact_ice. cbv zeta.
  eapply ok_bind; [apply ok_lift; apply micro_ok; auto|]. intros mm Hmm.
  eapply ok_bind; [apply ok_lift; apply small_imp_ok; auto|]. intros si Hsi.
  eapply ok_bind; [apply ok_lift; apply small_crater_ok; auto|]. intros ssc Hssc.
  eapply ok_bind; [apply (stochastic_ok c ppf time "d"); simpl; auto|]. intros lsc Hlsc.
  eapply ok_bind; [apply (stochastic_ok c ppf time "e"); simpl; auto|]. intros cc Hcc.
  eapply ok_bind; [apply (basin_ok c ppf tol df time); auto|]. intros b Hb.
  apply ok_ret. pose proof (zeros_good time). destruct (basins_on c); repeat apply vadd_good; auto.
Qed.

Lemma Rle_list_max l : exists m, Forall (fun r : R * R => snd r <= m) l.
Proof.
  induction l as [|a l [m IH]]; [now exists 0|]. exists (Rmax (snd a) m). constructor.
  - apply Rmax_l.
  - eapply Forall_impl; [|exact IH]. simpl. intros r Hr. pose proof (Rmax_r (snd a) m). lra.
Qed.

Lemma solar_ok c table time : sane c -> sun_sane c table ->
  exists t, get_solar_wind_ice c table time = Ok t /\ good (length time) t.
Proof.
  intros Hs Hsun. unfold get_solar_wind_ice. unfold sun_sane in Hsun. destruct (solar_wind_on c).
  - destruct (Hsun eq_refl) as (Hm & Htab).
    apply sw_names in Hm. destruct (sw_supply_ok c Hm) as (rate & Es & Er).
    assert (H0 : 0 <= rate * (60 * 60 * 24 * 365 * timestep c)).
    { destruct Hs. apply Rmult_le_pos; [|nra]. destruct (String.eqb _ _); lra. }
    assert (HM : exists m, solar_wind_ice_mass c table time = Ok m /\ length m = length time /\
                           Forall (fun x => 0 <= x) m).
    { destruct (faint_young_sun c) eqn:Hf.
      - destruct (Htab eq_refl) as (Hne & Hinc & Hpos). destruct (Rle_list_max table) as [hi Hhi].
        destruct (solar_wind_spec c table time _ 0 hi Es H0 Hne Hinc) as (m & E & HL & HF).
        { apply Forall_forall. intros r Hr. rewrite Forall_forall in Hpos, Hhi. split; auto. }
        exists m. split; auto. split; auto. rewrite Hf in HF.
        eapply Forall_impl; [|exact HF]. cbv beta. intros; nra.
      - unfold solar_wind_ice_mass. rewrite Es, Hf. cbn [bind]. eexists. split; [reflexivity|].
        rewrite map_length. split; auto. apply Forall_forall. intros x Hx.
        apply in_map_iff in Hx as (? & <- & _). lra. }
    destruct HM as (m & E & HL & HF).
    rewrite E. cbn [bind]. destruct (thickness_all c m Hs) as (ts & Et & HLt & HFt).
    + exact HF.
    + exists ts. split; auto. split; [congruence|auto].
  - eexists; split; [reflexivity|]. apply zeros_good.
Qed.

Lemma polar_ok c ppf tol table df time : sane c -> sun_sane c table -> ppf_support ppf -> time <> [] ->
  ok (get_polar_ice c ppf tol table df time) (good (length time)).
Proof.
  intros Hs Hsun Hp Hn. unfold get_polar_ice. cbv zeta.
  eapply ok_bind; [apply (impact_ice_ok c ppf tol df time); auto|]. intros imp Hi.
  eapply ok_bind; [apply (impact_ice_ok (get_comet_cfg c) ppf tol df time); auto; now apply sane_comet|]. intros com Hc.
  eapply ok_bind; [apply ok_lift; apply (solar_ok c table time); auto|]. intros sw Hsw.
  apply ok_ret. destruct (comets_on c); repeat apply vadd_good; auto.
Qed.

Lemma volc_ok c time : sane c -> volc_sane c ->
  exists t, get_volcanic_ice c time = Ok t /\ good (length time) t.
Proof.
  intros Hs (Hm & H1 & H2 & H3 & H4 & H5 & _). unfold get_volcanic_ice. rewrite Hm.
  cbn [String.eqb Ascii.eqb Bool.eqb bind].
  destruct (thickness_all c (volcanic_ice_head c time) Hs) as (ts & E & HL & HF).
  - destruct Hs. assert (0 <= volc_ice_total c) by (unfold volc_ice_total; repeat apply Rmult_le_pos; lra).
    apply Forall_forall. intros x Hx. apply in_map_iff in Hx as (t & <- & _). cbv zeta.
    unfold volc_rate_late, volc_rate_early.
    destruct (in_epoch (volc_late c) t), (in_epoch (volc_early c) t); repeat apply Rmult_le_pos; lra.
  - exists ts. split; auto. unfold volcanic_ice_head in HL. rewrite map_length in HL. split; auto.
Qed.

Lemma ice_cols_ok c ppf tol table bhop names df time :
  sane c -> sun_sane c table -> volc_sane c -> ppf_support ppf -> time <> [] ->
  (hop_moores c = true -> forall n, In n names -> exists h, bhop n = Some h /\ 0 <= h) ->
  ok (get_ice_cols_time c ppf tol table bhop names df time)
     (fun rows => length rows = length time /\ Forall (good (length names)) rows).
Proof.
  intros Hs Hsun Hv Hp Hn Hb. unfold get_ice_cols_time.
  eapply ok_bind; [apply (polar_ok c ppf tol table df time); auto|]. intros polar [HLp HFp].
  eapply ok_bind; [apply ok_lift; apply (volc_ok c time); auto|]. intros volc [HLv HFv].
  apply ok_lift.
  destruct (distribute_spec c bhop names polar volc) as (rows & E & HL & HN); [congruence| |].
  { intros Hm n Hin. destruct (Hb Hm n Hin) as (h & Hh & _). eauto. }
  exists rows. split; auto. split; [congruence|].
  apply Forall_forall. intros row Hrow. apply In_nth_error in Hrow as [i Hi].
  assert (Hlt : (i < length polar)%nat) by (rewrite <- HL; apply nth_error_Some; congruence).
  destruct (nth_error polar i) as [p|] eqn:Ep; [|apply nth_error_None in Ep; lia].
  destruct (nth_error volc i) as [v|] eqn:Ev; [|apply nth_error_None in Ev; lia].
  assert (HLr : length row = length names).
  { destruct names as [|n0 names].
    - unfold distribute_ice in E.
      destruct (if use_volc_dep c then _ else _) as [P V].
      assert (Ho : exists rs, (if hop_moores c
          then let* bhops := get_ballistic_hop_coldtraps bhop [] in
               Ok (map (fun p => map (fun b => b / hop_effcy c * p) bhops) P)
          else Ok (map (fun p => map (fun _ : string => p) []) P)) = Ok rs /\ Forall (fun r => r = []) rs).
      { destruct (hop_moores c); cbn; eexists; (split; [reflexivity|]); apply Forall_forall; intros r Hr;
          apply in_map_iff in Hr as (? & <- & _); reflexivity. }
      destruct Ho as (rs & Ers & Hrs). rewrite Ers in E. cbn [bind] in E. injection E as <-.
      rewrite nth_error_map in Hi. destruct (nth_error (combine rs V) i) as [[r v']|] eqn:Ec; [|discriminate].
      cbn [option_map] in Hi. injection Hi as <-. rewrite map_length.
      apply nth_error_In, in_combine_l in Ec. rewrite Forall_forall in Hrs. now rewrite (Hrs _ Ec).
    - destruct (HN i O p v n0 Ep Ev eq_refl) as (row' & x & Hr & Hl & _). rewrite Hi in Hr.
      injection Hr as <-. exact Hl. }
  split; auto.
  apply Forall_forall. intros x Hx. apply In_nth_error in Hx as [j Hj].
  assert (Hjn : (j < length names)%nat) by (rewrite <- HLr; apply nth_error_Some; congruence).
  destruct (nth_error names j) as [n|] eqn:En; [|apply nth_error_None in En; lia].
  destruct (HN i j p v n Ep Ev En) as (row' & x' & Hr & _ & Hx' & Hval). rewrite Hi in Hr.
  injection Hr as <-. rewrite Hj in Hx'. injection Hx' as <-. cbv zeta in Hval. rewrite Hval.
  pose proof (Forall_nth_error _ _ _ _ HFp Ep) as P0. pose proof (Forall_nth_error _ _ _ _ HFv Ev) as V0.
  cbv beta in P0, V0.
  assert (H0 : 0 < / hop_effcy c) by (destruct Hs; now apply Rinv_0_lt_compat).
  destruct Hv as (_ & _ & _ & _ & _ & _ & Hdep).
  assert (Hd0 : 0 <= volc_dep_effcy c / hop_effcy c) by (apply Rmult_le_pos; lra).
  assert (Hhop : 0 <= (if hop_moores c then match bhop n with Some h => h / hop_effcy c | None => 0 end else 1)).
  { destruct (hop_moores c); [|lra]. destruct (Hb eq_refl n (nth_error_In _ _ En)) as (h & -> & Hh).
    apply Rmult_le_pos; lra. }
  destruct (use_volc_dep c); nra.
Qed.

Lemma lin_support : ppf_support lin_ppf.
Proof. intros a [b|] u Hu; cbn; [intros; nra|lra]. Qed.
Lemma lin_onto : ppf_onto lin_ppf.
Proof.
  intros a b x H. exists ((x - a) / (b - a)). cbn. split.
  - split; [apply Rmult_le_pos; [lra|left; apply Rinv_0_lt_compat; lra]|].
    apply Rmult_lt_reg_r with (b - a); [lra|]. replace ((x - a) / (b - a) * (b - a)) with (x - a) by (field; lra). lra.
  - field. lra.
Qed.

(** ** Which sources are added up *)
Lemma impact_sources c ppf tol df time u k out k' :
  get_impact_ice c ppf tol df time u k = Ok (out, k') ->
  exists mm si ssc lsc k1 cc k2 b,
    get_micrometeorite_ice c time = Ok mm /\ get_small_impactor_ice c time = Ok si /\
    get_small_simple_crater_ice c time = Ok ssc /\
    get_stochastic_thickness c ppf time "d" u k = Ok (lsc, k1) /\
    get_stochastic_thickness c ppf time "e" u k1 = Ok (cc, k2) /\
    get_basin_ice c ppf tol df time u k2 = Ok (b, k') /\
    forall i x1 x2 x3 x4 x5 x6, (i < length time)%nat ->
      nth_error mm i = Some x1 -> nth_error si i = Some x2 -> nth_error ssc i = Some x3 ->
      nth_error lsc i = Some x4 -> nth_error cc i = Some x5 -> nth_error b i = Some x6 ->
      nth_error out i = Some (x1 + x2 + x3 + x4 + x5 + (if basins_on c then x6 else 0)).
Proof.
  unfold get_impact_ice. cbv zeta. intros H.
  apply rbind_ok in H as (mm & j1 & H1 & H). apply lift_ok in H1 as [H1 ->].
  apply rbind_ok in H as (si & j2 & H2 & H). apply lift_ok in H2 as [H2 ->].
  apply rbind_ok in H as (ssc & j3 & H3 & H). apply lift_ok in H3 as [H3 ->].
  apply rbind_ok in H as (lsc & j4 & H4 & H).
  apply rbind_ok in H as (cc & j5 & H5 & H).
  apply rbind_ok in H as (b & j6 & H6 & H). apply ret_ok in H as [-> ->].
  exists mm, si, ssc, lsc, j4, cc, j5, b. repeat (split; [assumption|]).
  intros i x1 x2 x3 x4 x5 x6 Hi N1 N2 N3 N4 N5 N6.
  assert (N0 : nth_error (map (fun _ : R => 0) time) i = Some 0).
  { rewrite nth_error_map. destruct (nth_error time i) eqn:E; auto. apply nth_error_None in E. lia. }
  pose proof (vadd_nth _ _ _ _ _ (vadd_nth _ _ _ _ _ (vadd_nth _ _ _ _ _ (vadd_nth _ _ _ _ _ (vadd_nth _ _ _ _ _ N0 N1) N2) N3) N4) N5) as N.
  destruct (basins_on c).
  - rewrite (vadd_nth _ _ _ _ _ N N6). f_equal. lra.
  - rewrite N. f_equal. lra.
Qed.

Lemma polar_sources c ppf tol table df time u k out k' :
  get_polar_ice c ppf tol table df time u k = Ok (out, k') ->
  exists imp k1 com sw,
    get_impact_ice c ppf tol df time u k = Ok (imp, k1) /\
    get_impact_ice (get_comet_cfg c) ppf tol df time u k1 = Ok (com, k') /\
    get_solar_wind_ice c table time = Ok sw /\
    forall i x y z, nth_error imp i = Some x -> nth_error com i = Some y -> nth_error sw i = Some z ->
      nth_error out i = Some (x + (if comets_on c then y else 0) + z).
Proof.
  unfold get_polar_ice. cbv zeta. intros H.
  apply rbind_ok in H as (imp & j1 & H1 & H).
  apply rbind_ok in H as (com & j2 & H2 & H).
  apply rbind_ok in H as (sw & j3 & H3 & H). apply lift_ok in H3 as [H3 ->].
  apply ret_ok in H as [-> ->].
  exists imp, j1, com, sw. repeat (split; [assumption|]). intros i x y z N1 N2 N3.
  destruct (comets_on c).
  - apply vadd_nth; auto. now apply vadd_nth.
  - rewrite Rplus_0_r. now apply vadd_nth.
Qed.
