(** Properties of the figure of ice by source over time. *)
From Coq Require Import String List ZArith Reals Lia Lra Psatz Bool Permutation.
From Verif Require Import Base Model_Time Model_Crater Model_Ice Model_Rng Model_Strat Model_Main Model_Module Model_Cumulative
  Spec_Time Spec_Ice Spec_Main Spec_Module Spec_Cumulative Proofs_Base Proofs_Time Proofs_Ice Proofs_Rng Proofs_Bsed Proofs_Main Proofs_Module Proofs_Cumulative Props_Rng Props_Main Props_Module.
Import ListNotations.
Open Scope R_scope.

(** ** C89: ice by source over time *)

(** Each of the equal parts of the time axis takes the steps within it, and every step is in
    one part. *)
Theorem C89_parts : forall time n lo hi, (0 < n)%nat -> is_min time lo -> is_max time hi -> lo < hi ->
  Permutation (concat (map (part time n lo hi) (seq 0 n))) (seq 0 (length time)).
Proof.
  intros time n lo hi Hn [_ Mn] [_ Mx] H. apply parts_cover; [exact Hn|exact H|]. apply Forall_forall. intros x I. split; [now apply Mn|now apply Mx].
Qed.

(** The left panel: 85 points on each curve, the means of the steps of each of 85 equal parts
    of the time axis. *)
Theorem C89_means : forall c ppf sort craters basins stream unseeded seeds bins,
  module_sane c ppf sort craters basins stream unseeded -> Forall (fun s => (0 <= s)%Z) seeds -> seeds <> [] ->
  exists time t, get_time_array (r_rnd c) (r_start c) (r_end c) (r_step c) = Ok time /\
    get_ice_ast_comet_seeds c ppf sort craters basins stream unseeded seeds = Ok t /\
    forall lo hi, is_min time lo -> is_max time hi -> lo < hi ->
    exists left right, plot_by_module_time c ppf sort craters basins stream unseeded seeds bins = Ok (left, right) /\
      Forall2 (fun n cv => labelled n cv /\ length (cv_points cv) = 85%nat /\
        forall k, (k < 85)%nat -> exists xs ys, Forall2 (entry t "time") (part time 85 lo hi k) xs /\
          Forall2 (entry t n) (part time 85 lo hi k) ys /\
          nth_error (cv_points cv) k = Some (mean_of xs, mean_of ys)) curve_names left.
Proof.
  intros c ppf sort craters basins stream unseeded seeds bins H Hs Hn.
  destruct (panels_ok _ _ _ _ _ _ _ _ bins H Hs Hn) as (time & t & F & H1 & H2 & H3 & H4 & H5 & H6). exists time, t. split; [exact H1|]. split; [exact H3|].
  intros lo hi Mn Mx Lt. destruct (H6 lo hi Mn Mx Lt) as (p & q & E & L & _). exists p, q. split; [exact E|]. clear -L H4 H5.
  assert (K : incl curve_names curve_names) by apply incl_refl. revert L K. generalize curve_names at 1 2 4. intros ns L K.
  induction L as [|n cv ns p [Lb P] L IH]; [constructor|]. constructor; [|apply IH; intros y Y; apply K; now right]. split; [exact Lb|]. rewrite P. unfold left_points. split.
  { rewrite combine_length, !map_length, !seq_length. reflexivity. }
  intros k Hk. exists (map (fun i => nth i time 0) (part time 85 lo hi k)), (map (F n) (part time 85 lo hi k)).
  assert (I : forall i, In i (part time 85 lo hi k) -> (i < length time)%nat) by (intros i J; apply filter_In in J as [J _]; apply in_seq in J; lia).
  assert (Kn : In n curve_names) by (apply K; now left).
  assert (Nk : nth_error (seq 0 85) k = Some k) by (rewrite nth_error_nth' with (d := 0%nat) by (rewrite seq_length; exact Hk); now rewrite seq_nth).
  split; [|split].
  - clear -I H5. induction (part time 85 lo hi k) as [|i l IH]; [constructor|]. cbn [map]. constructor; [|apply IH; intros; apply I; now right].
    apply H5. apply nth_error_nth'. apply I. now left.
  - clear -I H4 Kn. induction (part time 85 lo hi k) as [|i l IH]; [constructor|]. cbn [map]. constructor; [|apply IH; intros; apply I; now right]. apply H4; [exact Kn|]. apply I. now left.
  - apply combine_nth_error; rewrite nth_error_map, Nk; cbn [option_map]; f_equal; apply agg_mean_of.
Qed.

(** The right panel: at each step the sum of all steps up to it, the oldest first. *)
Theorem C89_sums : forall c ppf sort craters basins stream unseeded seeds bins,
  module_sane c ppf sort craters basins stream unseeded -> Forall (fun s => (0 <= s)%Z) seeds -> seeds <> [] ->
  exists time t, get_time_array (r_rnd c) (r_start c) (r_end c) (r_step c) = Ok time /\
    get_ice_ast_comet_seeds c ppf sort craters basins stream unseeded seeds = Ok t /\
    forall lo hi, is_min time lo -> is_max time hi -> lo < hi ->
    exists left right, plot_by_module_time c ppf sort craters basins stream unseeded seeds bins = Ok (left, right) /\
      Forall2 (fun n cv => labelled n cv /\ length (cv_points cv) = length time /\
        forall i x, nth_error time i = Some x -> exists ys, Forall2 (entry t n) (seq 0 (S i)) ys /\
          nth_error (cv_points cv) i = Some (Some x, Some (Rsum ys))) curve_names right.
Proof.
  intros c ppf sort craters basins stream unseeded seeds bins H Hs Hn.
  destruct (panels_ok _ _ _ _ _ _ _ _ bins H Hs Hn) as (time & t & F & H1 & H2 & H3 & H4 & H5 & H6). exists time, t. split; [exact H1|]. split; [exact H3|].
  intros lo hi Mn Mx Lt. destruct (H6 lo hi Mn Mx Lt) as (p & q & E & _ & L). exists p, q. split; [exact E|]. clear -L H4.
  assert (K : incl curve_names curve_names) by apply incl_refl. revert L K. generalize curve_names at 1 2 4. intros ns L K.
  induction L as [|n cv ns p [Lb P] L IH]; [constructor|]. constructor; [|apply IH; intros y Y; apply K; now right]. split; [exact Lb|]. rewrite P. unfold right_points. split.
  { rewrite combine_length, cumsum_length, !map_length, seq_length. apply Nat.min_id. }
  intros i x E. assert (Hi : (i < length time)%nat) by (apply nth_error_Some; congruence). exists (map (F n) (seq 0 (S i))). split.
  - assert (Kn : In n curve_names) by (apply K; now left). assert (I : forall j, In j (seq 0 (S i)) -> (j < length time)%nat) by (intros j J; apply in_seq in J; lia).
    clear -I H4 Kn. induction (seq 0 (S i)) as [|j l IH]; [constructor|]. cbn [map]. constructor; [|apply IH; intros; apply I; now right]. apply H4; [exact Kn|]. apply I. now left.
  - apply combine_nth_error; [rewrite nth_error_map, E; reflexivity|]. rewrite cumsum_nth by exact Hi. now rewrite Rplus_0_l.
Qed.

(** Steps at equal distances, [m] for each of [n] parts: each part has [m] steps in a row. *)
Theorem C89_even : forall time n m hi h, (0 < n)%nat -> (2 <= m * n)%nat -> 0 < h -> length time = (m * n)%nat ->
  (forall i, (i < m * n)%nat -> nth_error time i = Some (hi - INR i * h)) ->
  let lo := hi - (INR (m * n) - 1) * h in
  is_min time lo /\ is_max time hi /\ lo < hi /\ forall k, (k < n)%nat -> part time n lo hi k = seq (m * (n - 1 - k)) m.
Proof.
  intros time n m hi h Hn Hmn Hh Len T lo. assert (P2 : 2 <= INR (m * n)) by (apply (le_INR 2); exact Hmn). assert (Pn : 0 < INR n) by (apply lt_0_INR; lia).
  assert (Tx : forall x, In x time -> exists i, (i < m * n)%nat /\ x = hi - INR i * h).
  { intros x I. apply In_nth_error in I as [i E]. assert (Hi : (i < m * n)%nat) by (rewrite <- Len; apply nth_error_Some; congruence). exists i. split; [exact Hi|]. rewrite (T i Hi) in E. congruence. }
  assert (Lt : lo < hi) by (unfold lo; nra).
  split; [|split; [|split; [exact Lt|]]].
  - split.
    + apply (nth_error_In time (m * n - 1)). rewrite T by lia. f_equal. unfold lo. rewrite minus_INR by lia. cbn [INR]. lra.
    + intros x I. destruct (Tx x I) as (i & Hi & ->). unfold lo. assert (INR i + 1 <= INR (m * n)) by (rewrite <- S_INR; apply le_INR; lia). nra.
  - split.
    + apply (nth_error_In time 0). rewrite T by lia. f_equal. cbn [INR]. lra.
    + intros x I. destruct (Tx x I) as (i & Hi & ->). pose proof (pos_INR i). nra.
  - intros k Hk. unfold part. rewrite Len.
    assert (W : forall i, (i < m * n)%nat -> (match nth_error time i with Some x => within n lo hi k x | None => false end) = (Nat.leb (m * (n - 1 - k)) i && Nat.ltb i (m * (n - 1 - k) + m))%bool).
    { intros i Hi. rewrite T by exact Hi.
      (* in steps from the youngest: j = m n - 1 - i, between m k and m k + m - 1 *)
      set (j := (m * n - 1 - i)%nat). assert (Ej : INR i = INR (m * n) - 1 - INR j) by (unfold j; rewrite minus_INR, minus_INR by lia; cbn [INR]; lra).
      assert (Mn : INR (m * n) = INR m * INR n) by apply mult_INR.
      assert (Wd : (hi - lo) / INR n = (INR m - / INR n) * h) by (unfold lo; rewrite Mn; field; lra).
      assert (X : hi - INR i * h = lo + INR j * h) by (unfold lo; rewrite Ej; lra). rewrite X.
      assert (In1 : 0 < / INR n <= 1) by (split; [now apply Rinv_0_lt_compat|]; rewrite <- Rinv_1; apply Rinv_le_contravar; [lra|]; apply (le_INR 1); exact Hn).
      assert (Kn : INR (S k) * / INR n <= 1) by (apply (Rmult_le_reg_r (INR n)); [exact Pn|]; rewrite Rmult_assoc, Rinv_l, Rmult_1_r, Rmult_1_l by lra; apply le_INR; lia).
      assert (Pk : 0 < INR (S k)) by (apply lt_0_INR; lia).
      assert (Up : Rleb (lo + INR j * h) (lo + INR (S k) * ((hi - lo) / INR n)) = Nat.ltb j (m * S k)).
      { rewrite Wd. destruct (Nat.ltb_spec j (m * S k)) as [L|L].
        - apply Rleb_true. assert (B : INR j + 1 <= INR m * INR (S k)) by (rewrite <- S_INR, <- mult_INR; apply le_INR; lia).
          assert (INR j <= INR (S k) * (INR m - / INR n)) by lra. nra.
        - apply Rleb_false. assert (B : INR m * INR (S k) <= INR j) by (rewrite <- mult_INR; apply le_INR; lia).
          assert (INR (S k) * (INR m - / INR n) < INR j) by nra. nra. }
      assert (Dn : (Rltb (lo + INR k * ((hi - lo) / INR n)) (lo + INR j * h) || (Nat.eqb k 0 && Reqb (lo + INR j * h) lo))%bool = Nat.leb (m * k) j).
      { rewrite Wd. destruct k as [|k].
        - cbn [INR Nat.eqb andb]. rewrite Rmult_0_l, Rplus_0_r, Nat.mul_0_r. cbn [Nat.leb]. destruct (Reqb (lo + INR j * h) lo) eqn:E; [apply orb_true_r|]. apply Reqb_false in E. rewrite orb_false_r. apply Rltb_true.
          pose proof (pos_INR j). nra.
        - cbn [Nat.eqb andb]. rewrite orb_false_r. assert (Kn' : INR (S k) * / INR n < 1).
          { apply (Rmult_lt_reg_r (INR n)); [exact Pn|]. rewrite Rmult_assoc, Rinv_l, Rmult_1_r, Rmult_1_l by lra. apply lt_INR. lia. }
          assert (Pk' : 0 < INR (S k)) by (apply lt_0_INR; lia).
          destruct (Nat.leb_spec (m * S k) j) as [L|L].
          + apply Rltb_true. assert (B : INR m * INR (S k) <= INR j) by (rewrite <- mult_INR; apply le_INR; lia). assert (INR (S k) * (INR m - / INR n) < INR j) by nra. nra.
          + apply Rltb_false. assert (B : INR j + 1 <= INR m * INR (S k)) by (rewrite <- S_INR, <- mult_INR; apply le_INR; lia). assert (INR j <= INR (S k) * (INR m - / INR n)) by lra. nra. }
      unfold within. rewrite Up, Dn. unfold j. clear -Hi Hk. 
      assert (E : (m * n = m * (n - 1 - k) + m + m * k)%nat) by nia.
      destruct (Nat.leb_spec (m * k) (m * n - 1 - i)), (Nat.ltb_spec (m * n - 1 - i) (m * S k)), (Nat.leb_spec (m * (n - 1 - k)) i), (Nat.ltb_spec i (m * (n - 1 - k) + m)); cbn [andb]; try reflexivity; nia. }
    assert (Sp : (m * n = m * (n - 1 - k) + (m + m * k))%nat) by nia.
    rewrite (filter_ext_in _ (fun i => Nat.leb (m * (n - 1 - k)) i && Nat.ltb i (m * (n - 1 - k) + m))%bool) by (intros i I; apply in_seq in I; apply W; lia).
    clear -Sp. rewrite Sp. set (a := (m * (n - 1 - k))%nat). clearbody a. rewrite seq_app, seq_app, !filter_app. cbn [Nat.add].
    assert (Z1 : forall p l, (forall i, In i l -> p i = false) -> @filter nat p l = []).
    { intros p. induction l as [|x l IH]; intros Z; [reflexivity|]. cbn [filter]. rewrite (Z x (or_introl eq_refl)). apply IH. intros; apply Z; now right. }
    assert (Z2 : forall p l, (forall i, In i l -> p i = true) -> @filter nat p l = l).
    { intros p. induction l as [|x l IH]; intros Z; [reflexivity|]. cbn [filter]. rewrite (Z x (or_introl eq_refl)). f_equal. apply IH. intros; apply Z; now right. }
    rewrite (Z1 _ (seq 0 a)), (Z2 _ (seq a m)), Z1, app_nil_r; [reflexivity| | |]; intros i I; apply in_seq in I;
      destruct (Nat.leb_spec a i), (Nat.ltb_spec i (a + m)); first [reflexivity|lia].
Qed.

(** With the default axis of 425 steps each of the 85 points is the mean of five steps in a
    row, at the time of the third of them. *)
Theorem C89_default : forall c ppf sort craters basins stream unseeded seeds bins,
  module_sane c ppf sort craters basins stream unseeded -> Forall (fun s => (0 <= s)%Z) seeds -> seeds <> [] ->
  r_rnd c = (fun x => x) -> r_end c = 0%Z -> r_start c = (425 * r_step c)%Z ->
  exists t left right, get_ice_ast_comet_seeds c ppf sort craters basins stream unseeded seeds = Ok t /\
    plot_by_module_time c ppf sort craters basins stream unseeded seeds bins = Ok (left, right) /\
    Forall2 (fun n cv => labelled n cv /\ length (cv_points cv) = 85%nat /\
      forall k, (k < 85)%nat -> exists ys, Forall2 (entry t n) (seq (5 * (84 - k)) 5) ys /\
        nth_error (cv_points cv) k = Some (Some (IZR (r_start c) - INR (5 * (84 - k) + 2) * IZR (r_step c)), Some (Rsum ys / 5))) curve_names left.
Proof.
  intros c ppf sort craters basins stream unseeded seeds bins H Hs Hn R0 E0 S0. destruct H as [h1 h2 h3 h4 Hst h6 h7 h8 h9] eqn:Eh.
  destruct (time_array_axis (r_start c) (r_step c) 425 Hst ltac:(lia) S0) as (time & Et & Lt & Nt). rewrite <- R0, <- E0 in Et.
  destruct (C89_means c ppf sort craters basins stream unseeded seeds bins H Hs Hn) as (time' & t & Et' & E & P). rewrite Et in Et'. injection Et' as <-.
  assert (Ps : 0 < IZR (r_step c)) by (apply IZR_lt; exact Hst).
  change (Z.to_nat 425) with (5 * 85)%nat in Lt, Nt.
  destruct (C89_even time 85 5 (IZR (r_start c)) (IZR (r_step c)) ltac:(lia) ltac:(lia) Ps Lt Nt) as (Mn & Mx & Ltt & Pa).
  destruct (P _ _ Mn Mx Ltt) as (p & q & Ef & F). exists t, p, q. split; [exact E|]. split; [exact Ef|].
  assert (Im : forall (A B : string -> curve -> Prop) l l', (forall n cv, A n cv -> B n cv) -> Forall2 A l l' -> Forall2 B l l') by (intros A B l l' I G; induction G; constructor; auto).
  eapply Im; [|exact F]. clear F Im. intros n cv (Lb & Lp & Pt). split; [exact Lb|]. split; [exact Lp|]. intros k Hk.
  destruct (Pt k Hk) as (xs & ys & X & Y & Np). rewrite Pa in X, Y by exact Hk. change (85 - 1 - k)%nat with (84 - k)%nat in X, Y. exists ys. split; [exact Y|]. rewrite Np. f_equal.
  assert (En : forall i x, (i < 5 * 85)%nat -> entry t "time" i x -> x = IZR (r_start c) - INR i * IZR (r_step c)).
  { intros i x Hi Ex. destruct (C87_table c ppf sort craters basins stream unseeded seeds H Hs Hn) as (time2 & t2 & _ & _ & T1 & T2 & _ & _ & T3 & _).
    rewrite Et in T1. injection T1 as <-. rewrite E in T2. assert (Inj : forall u v : mtable, Ok u = Ok v -> u = v) by congruence. apply Inj in T2. subst t2.
    exact (entry_unique _ _ _ _ _ Ex (T3 i _ (Nt i Hi))). }
  assert (Bd : (5 * (84 - k) + 5 <= 5 * 85)%nat) by lia. set (a := (5 * (84 - k))%nat) in *. clearbody a.
  cbn [seq] in X, Y.
  do 5 (let K := fresh in inversion X as [|? ? ? ? ? K]; subst; clear X; rename K into X). inversion X; subst. clear X.
  do 5 (let K := fresh in inversion Y as [|? ? ? ? ? K]; subst; clear Y; rename K into Y). inversion Y; subst. clear Y.
  repeat match goal with He : entry t "time" _ _ |- _ => apply En in He; [|lia]; subst end.
  f_equal.
  - unfold mean_of, mean. f_equal. cbn [length]. rewrite !Rsum_cons. change (Rsum []) with 0. rewrite !S_INR, plus_INR. cbn [INR]. field.
  - unfold mean_of, mean. cbn [length]. f_equal. replace (INR 5) with 5 by (cbn; lra). reflexivity.
Qed.

(** The lines of ice on the right are never negative and never fall from an older step to a
    younger one. *)
Theorem C89_grows : forall c ppf sort craters basins stream unseeded seeds bins time lo hi left right,
  module_sane c ppf sort craters basins stream unseeded -> Forall (fun s => (0 <= s)%Z) seeds -> seeds <> [] ->
  get_time_array (r_rnd c) (r_start c) (r_end c) (r_step c) = Ok time -> is_min time lo -> is_max time hi -> lo < hi ->
  plot_by_module_time c ppf sort craters basins stream unseeded seeds bins = Ok (left, right) ->
  Forall (fun cv => cv_shade cv = false -> forall i j x y x' y', (i <= j)%nat ->
    nth_error (cv_points cv) i = Some (x, Some y) -> nth_error (cv_points cv) j = Some (x', Some y') -> 0 <= y <= y') right.
Proof.
  intros c ppf sort craters basins stream unseeded seeds bins time lo hi left right H Hs Hn Et Mn Mx Lt Ep.
  destruct (C89_sums _ _ _ _ _ _ _ _ bins H Hs Hn) as (time' & t & Et' & E & P). rewrite Et in Et'. injection Et' as <-.
  destruct (P lo hi Mn Mx Lt) as (p & q & Eq & F). rewrite Ep in Eq. injection Eq as <- <-. clear P Ep.
  induction F as [|n cv ns r (Lb & Lp & Pt) F IH]; constructor; [|exact IH]. clear IH F. intros Sh i j x y x' y' Hij Ni Nj.
  destruct Lb as [(_ & Q & _)|(In_ & _ & _)]; [congruence|].
  assert (Hj : (j < length time)%nat) by (rewrite <- Lp; apply nth_error_Some; congruence).
  destruct (nth_error time i) as [ti|] eqn:Ti; [|apply nth_error_None in Ti; lia]. destruct (nth_error time j) as [tj|] eqn:Tj; [|apply nth_error_None in Tj; lia].
  destruct (Pt i ti Ti) as (ys & Y1 & Y2). destruct (Pt j tj Tj) as (zs & Z1 & Z2). rewrite Ni in Y2. rewrite Nj in Z2. injection Y2 as -> ->. injection Z2 as -> ->.
  assert (Nn : forall l vs, Forall2 (entry t n) l vs -> Forall (fun v => 0 <= v) vs).
  { intros l vs FF. induction FF as [|a b l vs Ha FF IH]; constructor; [|exact IH]. eapply entry_nonneg; eauto. }
  replace (S j) with (S i + (j - i))%nat in Z1 by lia. rewrite seq_app in Z1. apply Forall2_app_inv_l in Z1 as (z1 & z2 & Z1 & Z3 & ->).
  assert (Eq : z1 = ys).
  { clear -Y1 Z1. revert z1 Z1. induction Y1 as [|a b l vs Ha FF IH]; intros z1 Z1; inversion Z1; subst; [reflexivity|]. f_equal; [eapply entry_unique; eauto|]. now apply IH. }
  subst z1. rewrite Rsum_app. pose proof (Rsum_nonneg _ (Nn _ _ Y1)). pose proof (Rsum_nonneg _ (Nn _ _ Z3)). lra.
Qed.

(** Nothing is lost between the panels: each point of a curve on the left, as often as there
    are steps behind it, adds up to the last point of the curve on the right. *)
Theorem C89_conserved : forall c ppf sort craters basins stream unseeded seeds bins time lo hi left right,
  module_sane c ppf sort craters basins stream unseeded -> Forall (fun s => (0 <= s)%Z) seeds -> seeds <> [] ->
  get_time_array (r_rnd c) (r_start c) (r_end c) (r_step c) = Ok time -> is_min time lo -> is_max time hi -> lo < hi ->
  plot_by_module_time c ppf sort craters basins stream unseeded seeds bins = Ok (left, right) ->
  Forall2 (fun l r => cv_label l = cv_label r /\ exists x total, nth_error (cv_points r) (length time - 1) = Some (Some x, Some total) /\
    Rsum (map (fun k => INR (length (part time 85 lo hi k)) * or0 (snd (nth k (cv_points l) (None, None)))) (seq 0 85)) = total) left right.
Proof.
  intros c ppf sort craters basins stream unseeded seeds bins time lo hi left right H Hs Hn Et Mn Mx Lt Ep.
  destruct (panels_ok _ _ _ _ _ _ _ _ bins H Hs Hn) as (time' & t & F & H1 & Ne & H3 & H4 & H5 & H6). rewrite Et in H1. injection H1 as <-.
  destruct (H6 lo hi Mn Mx Lt) as (p & q & E & A & B). rewrite Ep in E. injection E as <- <-.
  assert (Lp : (0 < length time)%nat) by (destruct time; [now elim Ne|cbn; lia]).
  clear -A B Mn Mx Lt Lp. revert right B. induction A as [|n l ns p [L1 P1] A IH]; intros right B; inversion B as [|? r ? ? [L2 P2] B']; subst; constructor; [|now apply IH].
  split; [destruct L1 as [(a1 & _ & ->)|(a1 & _ & ->)], L2 as [(a2 & _ & ->)|(a2 & _ & ->)]; auto; exfalso; revert a1 a2; clear; unfold depths, all_ice, crater_ice; cbn [app In]; intuition (subst; discriminate)|].
  destruct (nth_error time (length time - 1)) as [x|] eqn:Ex; [|apply nth_error_None in Ex; lia].
  exists x, (Rsum (map (F n) (seq 0 (length time)))). split.
  - rewrite P2. unfold right_points. apply combine_nth_error; [rewrite nth_error_map, Ex; reflexivity|]. rewrite cumsum_nth by lia. rewrite Rplus_0_l. replace (S (length time - 1)) with (length time) by lia. reflexivity.
  - rewrite P1. rewrite <- (parts_sum time 85 lo hi (F n)); [|lia|exact Lt|apply Forall_forall; intros y I; split; [now apply Mn|now apply Mx]].
    apply (f_equal Rsum). apply map_ext_in. intros k I. apply in_seq in I. apply (f_equal (Rmult _)). apply (f_equal or0). unfold left_points.
    rewrite combine_nth by now rewrite !map_length. cbn [snd]. rewrite nth_indep with (d' := agg_mean (map (F n) (part time 85 lo hi 0))) by (rewrite map_length, seq_length; lia).
    rewrite (map_nth (fun k => agg_mean (map (F n) (part time 85 lo hi k)))). rewrite seq_nth by lia. apply agg_mean_of.
Qed.

(** ** A concrete figure *)
Example C89_case : exists left right, plot_by_module_time (mcfg true) lin_ppf isort_age [faustini] [basin_b] (fun _ => tape0) tape0 [0; 1; 7]%Z 85 = Ok (left, right) /\
  map cv_label left = ["Max Gardening depth"; "Max Ballistic sed depth"; "Volcanic ice"; "Solar wind ice"; "Micrometeorite ice"; "Small impactor ice";
    "Small simple crater ice"; "Large simple crater ice"; "Large complex crater ice"; "Basin ice"]%string /\
  Forall (fun cv => map fst (cv_points cv) <> [] /\ nth_error (map fst (cv_points cv)) 0 = Some (Some 30000000)) left.
Proof.
  destruct (C89_default _ _ _ _ _ _ _ [0; 1; 7]%Z 85 (mcfg_sane true)) as (t & p & q & E & Ef & F); [repeat constructor; lia|discriminate|reflexivity..|].
  exists p, q. split; [exact Ef|]. split.
  - assert (L : forall n cv, labelled n cv -> cv_label cv = if existsb (String.eqb n) depths then append "Max " n else n).
    { intros n cv [(I & _ & ->)|(I & _ & ->)]; repeat (destruct I as [<-|I]; [reflexivity|]); destruct I. }
    change (map cv_label p = map (fun n => if existsb (String.eqb n) depths then append "Max " n else n) curve_names). clear -F L.
    induction F as [|n cv l l' [Q _] F IH]; [reflexivity|]. cbn [map]. rewrite IH. f_equal. now apply L.
  - clear -F. induction F as [|n cv l l' (_ & Lp & Q) F IH]; constructor; [|exact IH]. split.
    + intros Z. assert (Z' : length (map fst (cv_points cv)) = 0%nat) by now rewrite Z. rewrite map_length, Lp in Z'. discriminate.
    + destruct (Q 0%nat ltac:(lia)) as (ys & _ & Np). rewrite nth_error_map, Np. cbn [option_map fst]. do 2 f_equal.
      change (5 * (84 - 0) + 2)%nat with (Z.to_nat 422). rewrite INR_IZR_INZ. rewrite Z2Nat.id by lia. cbn [mcfg r_start r_step]. lra.
Qed.

(** The number of bins that is asked for is never used. *)
Theorem C89_bins_refuted : ~ (forall c ppf sort craters basins stream unseeded seeds bins left right,
  module_sane c ppf sort craters basins stream unseeded -> Forall (fun s => (0 <= s)%Z) seeds -> seeds <> [] -> (0 < bins)%nat ->
  plot_by_module_time c ppf sort craters basins stream unseeded seeds bins = Ok (left, right) ->
  Forall (fun cv => length (cv_points cv) = bins) left).
Proof.
  intros C. destruct (C89_default _ _ _ _ _ _ _ [0]%Z 17 (mcfg_sane true)) as (t & p & q & E & Ef & F); [repeat constructor; lia|discriminate|reflexivity..|].
  specialize (C _ _ _ _ _ _ _ [0]%Z 17%nat p q (mcfg_sane true) ltac:(repeat constructor; lia) ltac:(discriminate) ltac:(lia) Ef).
  inversion F as [|n cv l l' (_ & Lp & _) F']; subst. inversion C; subst. lia.
Qed.

(** The shade "Max Gardening depth" on the right is no depth that is ever reached: it is the
    sum of the depths of all steps so far, although gardening starts anew at each step. *)
Theorem C89_max_refuted : ~ (forall c ppf sort craters basins stream unseeded seeds bins left right t cv i x d,
  module_sane c ppf sort craters basins stream unseeded -> Forall (fun s => (0 <= s)%Z) seeds -> seeds <> [] ->
  plot_by_module_time c ppf sort craters basins stream unseeded seeds bins = Ok (left, right) ->
  get_ice_ast_comet_seeds c ppf sort craters basins stream unseeded seeds = Ok t ->
  In cv right -> cv_label cv = "Max Gardening depth"%string -> nth_error (cv_points cv) i = Some (x, Some d) ->
  exists j y, entry t "Gardening depth" j y /\ d <= y).
Proof.
  intros C. pose proof (mcfg_sane true) as H. destruct (mcfg_time true) as (time & Et & Lt & Nt).
  assert (Hs : Forall (fun s => (0 <= s)%Z) [0%Z]) by (repeat constructor; lia). assert (Hn : [0%Z] <> []) by discriminate.
  destruct (C89_sums _ _ _ _ _ _ _ [0]%Z 85 H Hs Hn) as (time' & t & Et' & E & P). rewrite Et in Et'. injection Et' as <-.
  change (Z.to_nat 425) with (5 * 85)%nat in Lt, Nt.
  destruct (C89_even time 85 5 4250000000 10000000 ltac:(lia) ltac:(lia) ltac:(lra) Lt Nt) as (Mn & Mx & Ltt & _).
  destruct (P _ _ Mn Mx Ltt) as (p & q & Ef & F). inversion F as [|n cv ns q' (Lb & Lp & Pt) F']; subst. clear F'.
  destruct (volc_ok (r_i (mcfg true)) time) as (volc & Ev & _); [apply H..|].
  destruct (solar_ok (r_i (mcfg true)) (r_lum (mcfg true)) time) as (sw & Ew & _); [apply H..|].
  assert (Dep : forall i x, (i < 5 * 85)%nat -> entry t "Gardening depth" i x ->
    x <= 2025 / 10000 /\ (3000000000 <= 4250000000 - INR i * 10000000 -> x = 9 / 100 * (1 + 1 / 1000000000 * (4250000000 - INR i * 10000000 - 3000000000)))).
  { intros i x Hi Hx.
    destruct (C87_twice _ _ _ _ _ _ _ [0]%Z t time volc sw H Hs Hn E Et Ev Ew i ltac:(rewrite Lt; exact Hi))
      as (_ & _ & d & _ & _ & Hd & _ & _ & En). rewrite (entry_unique _ _ _ _ _ Hx En).
    destruct (overturn_shape (r_i (mcfg true)) time i _ d eq_refl ltac:(cbn; lra) ltac:(cbn; lra) (Nt i Hi) Hd) as (_ & Q2 & Q3).
    change (overturn_t0 (r_i (mcfg true))) with 3000000000 in *. change (overturn_present (r_i (mcfg true))) with (9 / 100) in *.
    change (overturn_slope (r_i (mcfg true))) with (1 / 1000000000) in *. split; [|exact Q3]. pose proof (pos_INR i).
    destruct (Rle_lt_dec 3000000000 (4250000000 - INR i * 10000000)) as [L|L]; [rewrite (Q3 L); lra|rewrite Q2 by lra; lra]. }
  assert (Lb' : cv_label cv = "Max Gardening depth"%string).
  { destruct Lb as [(_ & _ & Q)|(I & _ & _)]; [exact Q|]. exfalso. revert I. clear. unfold all_ice, crater_ice. cbn [app In]. intuition discriminate. }
  destruct (Pt 1%nat _ (Nt 1%nat ltac:(lia))) as (ys & Y1 & Y2).
  destruct (C _ _ _ _ _ _ _ [0]%Z 85%nat p (cv :: q') t cv 1%nat _ _ H Hs Hn Ef E (or_introl eq_refl) Lb' Y2) as (j & y & Ey & Le).
  assert (Hj : (j < length time)%nat) by (eapply (entry_short (mcfg true)); eauto; right; now left).
  rewrite Lt in Hj. destruct (Dep j y Hj Ey) as [U _]. cbn [seq] in Y1.
  inversion Y1 as [|? a ? ? Ea Y3]; subst. inversion Y3 as [|? b ? ? Eb Y4]; subst. inversion Y4; subst. rewrite !Rsum_cons in Le. change (Rsum []) with 0 in Le.
  destruct (Dep 0%nat a ltac:(lia) Ea) as [_ Va]. destruct (Dep 1%nat b ltac:(lia) Eb) as [_ Vb]. cbn [INR] in Va, Vb. specialize (Va ltac:(lra)). specialize (Vb ltac:(lra)). lra.
Qed.

Print Assumptions C89_parts.
Print Assumptions C89_means.
Print Assumptions C89_sums.
Print Assumptions C89_even.
Print Assumptions C89_default.
Print Assumptions C89_grows.
Print Assumptions C89_conserved.
Print Assumptions C89_bins_refuted.
Print Assumptions C89_max_refuted.
