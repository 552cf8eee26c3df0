From Coq Require Import String List ZArith Reals Lia Lra Bool Permutation Sorted.
From Verif Require Import Base Arith Model_Column Model_Time Model_Geo Model_Interp Model_Crater
  Model_Ice Model_Rng Model_Strat Model_Melt Model_Main Spec_Time Spec_Geo Spec_Ice Spec_Strat Spec_Melt Spec_Main
  Proofs_Base Proofs_Time Proofs_Geo Proofs_Ice Proofs_Rng Proofs_Column Proofs_ColumnR Proofs_ColumnP Proofs_Scaling Proofs_Crater Proofs_Strat Proofs_Labels Proofs_Melt Proofs_Bsed.
Import ListNotations.
Open Scope R_scope.

(** ** Dictionaries *)
Lemma dict_set_new {V} (d : list (string * V)) k v : ~ In k (map fst d) -> dict_set d k v = d ++ [(k, v)].
Proof.
  induction d as [|[k' v'] d IH]; intros H; [reflexivity|]. cbn [dict_set map fst In app] in *.
  destruct (String.eqb_spec k k'); [subst; tauto|]. rewrite IH by tauto. reflexivity.
Qed.
Lemma dict_set_all {V} (l : list (string * V)) : forall d, NoDup (map fst (d ++ l)) ->
  fold_left (fun d nv => dict_set d (fst nv) (snd nv)) l d = d ++ l.
Proof.
  induction l as [|[k v] l IH]; intros d H; [now rewrite app_nil_r|]. cbn [fold_left fst snd].
  rewrite dict_set_new.
  - rewrite IH; rewrite <- app_assoc; auto.
  - rewrite map_app in H. cbn [map fst] in H. apply NoDup_remove_2 in H. intros Hk. apply H. apply in_or_app. auto.
Qed.
Lemma dict_set_map {A V} (f : A -> string) (g : A -> V) (l : list A) : NoDup (map f l) ->
  fold_left (fun d x => dict_set d (f x) (g x)) l [] = map (fun x => (f x, g x)) l.
Proof.
  intros H. transitivity (fold_left (fun d nv => dict_set d (fst nv) (snd nv)) (map (fun x => (f x, g x)) l) []).
  - assert (Q : forall d, fold_left (fun d x => dict_set d (f x) (g x)) l d
        = fold_left (fun d nv => dict_set d (fst nv) (snd nv)) (map (fun x => (f x, g x)) l) d); [|apply Q].
    clear H. induction l as [|x l IH]; intros d; cbn; auto.
  - rewrite dict_set_all; auto. cbn [app]. rewrite map_map. exact H.
Qed.
Lemma lookup_nth (d : @dict R) i k v : NoDup (map fst d) -> nth_error d i = Some (k, v) -> lookup d k = Ok v.
Proof.
  revert i. induction d as [|[k' v'] d IH]; intros [|i] N H; try discriminate; cbn [nth_error] in H; cbn [lookup].
  - injection H as -> ->. now rewrite String.eqb_refl.
  - cbn [map fst] in N. inversion N; subst. destruct (String.eqb_spec k k'); [|eauto].
    subst. exfalso. apply H2. apply nth_error_In in H. change k' with (fst (k', v)). now apply in_map.
Qed.

(** ** Columns of a matrix *)
Lemma column_nth {A} (m : list (list A)) j col : column m j = Ok col ->
  length col = length m /\
  forall i, match nth_error m i with
            | Some r => exists x, nth_error r j = Some x /\ nth_error col i = Some x
            | None => True end.
Proof.
  intros H. destruct (mapM_nth _ _ _ H) as [L N]. split; auto. intros i. destruct (nth_error m i) as [r|] eqn:E; auto.
  destruct (N i r E) as (x & Hx & Hg). exists x. unfold get in Hg. destruct (nth_error r j); [|discriminate].
  injection Hg as ->. auto.
Qed.
Lemma column_total {A} (m : list (list A)) j : Forall (fun r => (j < length r)%nat) m -> exists col, column m j = Ok col.
Proof.
  intros H. apply mapM_total. intros r Hr. rewrite Forall_forall in H. specialize (H r Hr).
  unfold get. destruct (nth_error r j) eqn:E; [eauto|]. apply nth_error_None in E. lia.
Qed.

(** ** The crater list *)
Definition names_of (df : list (crater info)) : list string := map (fun r => d_name (c_rest r)) df.

Lemma combine_map_fst {A B C} (f : A -> C) (a : list A) (b : list B) : length a = length b ->
  map (fun '(x, _) => f x) (combine a b) = map f a.
Proof. revert b. induction a as [|x a IH]; intros [|y b] H; try discriminate; cbn; auto. f_equal. apply IH. now injection H. Qed.

Lemma mapM_ok_length {A B} (f : A -> result B) l l' : mapM f l = Ok l' -> length l' = length l.
Proof. intros H. apply (mapM_nth _ _ _ H). Qed.

Lemma random_length n u k us k' : random n u k = Ok (us, k') -> length us = n /\ us = map u (seq k n).
Proof. unfold random. intros H. assert (E : us = map u (seq k n)) by congruence. subst us. now rewrite map_length, seq_length. Qed.

Lemma list_ok c ppf sort craters basins u k df k1 : sorts_by_age sort ->
  get_crater_basin_list c ppf sort craters basins u k = Ok (df, k1) ->
  exists icy us, length icy = length basins /\
    let df0 := map (read_row false "no") craters ++ map (fun '(w, i) => read_row true i w) (combine basins icy) in
    length us = length df0 /\ us = map u (seq (k + length basins) (length df0)) /\
    Permutation df (map (fun '(r, v) => set_age r (new_age (IZR (r_step c)) r (ppf (trunc_a r) (Some (trunc_b r)) v))) (combine df0 us)).
Proof.
  intros Hs H. unfold get_crater_basin_list in H. cbv zeta in H.
  apply rbind_ok in H as (icy & k2 & Hi & H). apply rbind_ok in H as (vs & k3 & Hv & H). apply ret_ok in H as [H _].
  unfold random_icy_basins, get_random_hydrated_basins in Hi.
  apply rbind_ok in Hi as (ms & k4 & Hm & Hi). apply ret_ok in Hi as [-> ->].
  apply rbind_ok in Hm as (us0 & k5 & H0 & Hm). apply ret_ok in Hm as [-> ->].
  assert (K : k5 = (k + length basins)%nat) by (unfold random in H0; congruence).
  apply random_length in H0 as [L0 _].
  unfold draw_ages in Hv. apply rbind_ok in Hv as (us & k6 & Hu & Hv). apply ret_ok in Hv as [-> ->].
  apply random_length in Hu as [Lu Eu].
  exists (map (icy_label (r_i c)) (map (basin_marks (r_i c)) us0)), us. rewrite !map_length. split; auto. cbv zeta.
  split; auto. split; [now rewrite Eu, K|].
  rewrite H. unfold randomize_crater_ages. destruct (Hs (map (fun '(c0, u0) => set_age c0 (new_age (IZR (r_step c)) c0 u0))
    (combine (map (read_row false "no") craters ++
       map (fun '(w, i) => read_row true i w) (combine basins (map (icy_label (r_i c)) (map (basin_marks (r_i c)) us0))))
      (map (fun '(c0, u0) => ppf (trunc_a c0) (Some (trunc_b c0)) u0)
         (combine (map (read_row false "no") craters ++
            map (fun '(w, i) => read_row true i w) (combine basins (map (icy_label (r_i c)) (map (basin_marks (r_i c)) us0)))) us))))) as [P _].
  rewrite P. set (df0 := map _ craters ++ _). clear.
  assert (Q : map (fun '(c0, u0) => set_age c0 (new_age (IZR (r_step c)) c0 u0))
     (combine df0 (map (fun '(c0, u0) => ppf (trunc_a c0) (Some (trunc_b c0)) u0) (combine df0 us)))
   = map (fun '(r, v) => set_age r (new_age (IZR (r_step c)) r (ppf (trunc_a r) (Some (trunc_b r)) v))) (combine df0 us)).
  { generalize df0. clear. intros l. revert us. induction l as [|x l IH]; intros [|v us]; cbn; auto. f_equal. apply IH. }
  now rewrite Q.
Qed.

Lemma list_total c ppf sort craters basins u k :
  exists df k1, get_crater_basin_list c ppf sort craters basins u k = Ok (df, k1).
Proof.
  unfold get_crater_basin_list, rbind, random_icy_basins, get_random_hydrated_basins, draw_ages, rbind, random, ret.
  cbn [bind]. eauto.
Qed.

Lemma list_names c ppf sort craters basins u k df k1 : sorts_by_age sort ->
  get_crater_basin_list c ppf sort craters basins u k = Ok (df, k1) ->
  Permutation (names_of df) (map w_name (craters ++ basins)).
Proof.
  intros Hs H. apply list_ok in H as (icy & us & Li & Lu & _ & P); auto. cbv zeta in Lu, P. unfold names_of.
  rewrite P, map_map.
  rewrite (map_ext _ (fun '(r, _) => d_name (c_rest r))) by (intros [r v]; reflexivity).
  rewrite combine_map_fst by auto. rewrite map_app, !map_app, !map_map.
  rewrite (map_ext (fun x => d_name (c_rest (read_row false "no" x))) w_name) by reflexivity.
  rewrite (map_ext _ (fun '(w, _) => w_name w)) by (intros [w i]; reflexivity).
  now rewrite combine_map_fst by auto.
Qed.

Lemma list_from_lines c ppf sort craters basins u k df k1 : sorts_by_age sort ->
  get_crater_basin_list c ppf sort craters basins u k = Ok (df, k1) ->
  Forall (fun r => exists w, line_of craters basins r w) df.
Proof.
  intros Hs H. apply list_ok in H as (icy & us & Li & Lu & Eu & P); auto. cbv zeta in Lu, P, Eu.
  apply Forall_forall. intros r Hr. rewrite P in Hr. apply in_map_iff in Hr as ([r0 v] & <- & Hr).
  apply in_combine_l in Hr. apply in_app_iff in Hr as [Hr|Hr].
  - apply in_map_iff in Hr as (w & <- & Hw). exists w. split; auto. repeat split.
  - apply in_map_iff in Hr as ([w i] & <- & Hw). apply in_combine_l in Hw. exists w. split; auto. repeat split.
Qed.

Lemma list_lines c ppf sort craters basins u k df k1 : sorts_by_age sort -> ppf_support ppf -> draws u -> (0 < r_step c)%Z ->
  get_crater_basin_list c ppf sort craters basins u k = Ok (df, k1) ->
  Forall (fun w => 0 <= w_low w /\ 0 <= w_upp w /\ 0 < w_low w + w_upp w) (craters ++ basins) ->
  Forall (fun r => exists w, line_of craters basins r w /\
     (exists z, c_age r = IZR z * IZR (r_step c)) /\
     (w_age w - w_low w) * 1000000000 - IZR (r_step c) / 2 <= c_age r
        <= (w_age w + w_upp w) * 1000000000 + IZR (r_step c) / 2 /\
     (IZR (r_step c) <= (w_age w - w_low w) * 1000000000 -> IZR (r_step c) <= c_age r)) df.
Proof.
  intros Hs Hp Hu Hst H HF. apply list_ok in H as (icy & us & Li & Lu & Eu & P); auto. cbv zeta in Lu, P, Eu.
  apply Forall_forall. intros r Hr. rewrite P in Hr. apply in_map_iff in Hr as ([r0 v] & <- & Hr).
  assert (Hv : 0 <= v < 1).
  { apply in_combine_r in Hr. rewrite Eu in Hr. apply in_map_iff in Hr as (i & <- & _). apply Hu. }
  apply in_combine_l in Hr.
  assert (B : exists w bs i, In w (craters ++ basins) /\ r0 = read_row bs i w /\ (In w craters /\ bs = false \/ In w basins /\ bs = true)).
  { apply in_app_iff in Hr as [Hr|Hr].
    - apply in_map_iff in Hr as (w & <- & Hw). exists w, false, "no"%string. split; [apply in_or_app; auto|]. auto.
    - apply in_map_iff in Hr as ([w i] & <- & Hw). apply in_combine_l in Hw. exists w, true, i. split; [apply in_or_app; auto|]. auto. }
  destruct B as (w & bs & i & Hw & -> & B). rewrite Forall_forall in HF. destruct (HF w Hw) as (A1 & A2 & A3).
  exists w. split.
  { unfold line_of. cbn [set_age read_row c_rest d_name d_rad d_basin d_lon d_lat d_plon d_plat c_low c_upp]. repeat split; auto. }
  set (x := read_row bs i w).
  assert (Tst : 0 < IZR (r_step c)) by (apply (IZR_lt 0); auto).
  destruct (round_to_ts_spec (c_age x + age_sig x * ppf (trunc_a x) (Some (trunc_b x)) v) (IZR (r_step c)) Tst) as (Z1 & Z2 & _).
  change (c_age (set_age x ?a)) with a.
  assert (Ex : c_low x = w_low w * 1000000000 /\ c_upp x = w_upp w * 1000000000 /\ c_age x = w_age w * 1000000000) by (repeat split).
  destruct Ex as (E1' & E2' & E3'). 
  assert (Sup : c_age x - c_low x <= c_age x + age_sig x * ppf (trunc_a x) (Some (trunc_b x)) v <= c_age x + c_upp x).
  { apply (age_support x); try lra. eexists. split; [|reflexivity]. apply (Hp (trunc_a x) (Some (trunc_b x)) v Hv).
    unfold trunc_a, trunc_b. assert (0 < age_sig x) by (unfold age_sig; lra).
    apply Rmult_le_compat_r; [left; now apply Rinv_0_lt_compat|lra]. }
  unfold new_age.
  repeat split.
  - destruct Z1 as [z Hz]. exists z. exact Hz.
  - unfold Rabs in Z2. destruct (Rcase_abs _) in Z2; lra.
  - unfold Rabs in Z2. destruct (Rcase_abs _) in Z2; lra.
  - intros Hy. destruct (round_to_ts_spec (IZR (r_step c)) (IZR (r_step c)) Tst) as (_ & _ & Q & _).
    specialize (Q 1%Z ltac:(lra)).
    apply Rle_trans with (round_to_ts (IZR (r_step c)) (IZR (r_step c))); [lra|]. apply round_to_ts_mono; auto. lra.
Qed.

(** ** Distances *)
Lemma filter_name_unique {A} (f : A -> string) n l : NoDup (map f l) ->
  match filter (fun r => String.eqb (f r) n) l with
  | [] => ~ In n (map f l)
  | [x] => In x l /\ f x = n
  | _ => False
  end.
Proof.
  induction l as [|a l IH]; intros N; cbn [filter]; [intros []|]. cbn [map] in N. inversion N; subst.
  specialize (IH H2). destruct (String.eqb_spec (f a) n) as [E|E].
  - destruct (filter (fun r => String.eqb (f r) n) l) as [|x l'] eqn:F.
    + split; auto. now left.
    + exfalso. apply H1. destruct l'; [|tauto]. destruct IH as [IH1 IH2]. rewrite E, <- IH2. now apply in_map.
  - destruct (filter (fun r => String.eqb (f r) n) l) as [|x [|y l']].
    + cbn. intuition.
    + intuition.
    + auto.
Qed.

Lemma coldtrap_dist_total thr bthr sites s n : NoDup (map s_name sites) ->
  exists o, coldtrap_dist thr bthr sites s n = Ok o /\ forall d, o = Some d -> 0 < d <= PI * 1737400 /\ s_rad s < d.
Proof.
  intros N. unfold coldtrap_dist. destruct (String.eqb (s_name s) n); [eexists; split; [reflexivity|discriminate]|].
  pose proof (filter_name_unique s_name n sites N) as F.
  destruct (filter (fun r => String.eqb (s_name r) n) sites) as [|dst [|? ?]]; [eexists; split; [reflexivity|discriminate]| |destruct F].
  set (d := gc_dist default_rp (s_lon s) (s_lat s) (s_plon dst) (s_plat dst)). cbv zeta.
  rcase (s_rad s) d Hd; cbn [andb]; [|eexists; split; [reflexivity|discriminate]].
  destruct (below_limit d _ _); [|eexists; split; [reflexivity|discriminate]].
  destruct (Rleb d 0) eqn:E; [eexists; split; [reflexivity|discriminate]|]. apply Rleb_false in E.
  eexists. split; [reflexivity|]. intros x Hx. assert (x = d) by congruence. subst x. split; auto. split; [lra|].
  apply (gc_dist_range default_rp); unfold default_rp; lra.
Qed.

Lemma dists_total thr bthr names sites : NoDup (map s_name sites) ->
  exists m, get_coldtrap_dists thr bthr names sites = Ok m /\ length m = length sites /\
    Forall (fun r => length r = length names) m /\
    forall i j d, cell_is m i j (Some d) -> 0 < d <= PI * 1737400.
Proof.
  intros N. unfold get_coldtrap_dists.
  assert (T : forall s, exists r, mapM (coldtrap_dist thr bthr sites s) names = Ok r).
  { intros s. apply mapM_total. intros n _. destruct (coldtrap_dist_total thr bthr sites s n N) as (o & -> & _). eauto. }
  destruct (mapM_total (fun s => mapM (coldtrap_dist thr bthr sites s) names) sites) as [m Hm]; [eauto|].
  exists m. split; auto. destruct (mapM_nth _ _ _ Hm) as [L H]. split; auto.
  assert (R : forall i r, nth_error m i = Some r -> exists s, mapM (coldtrap_dist thr bthr sites s) names = Ok r).
  { intros i r Hr. destruct (nth_error sites i) as [s|] eqn:E.
    - destruct (H i s E) as (b & Hb & Hf). exists s. congruence.
    - apply nth_error_None in E. rewrite <- L in E. apply nth_error_None in E. congruence. }
  split.
  - apply Forall_forall. intros r Hr. apply In_nth_error in Hr as [i Hr]. destruct (R i r Hr) as [s Hs].
    now apply mapM_ok_length in Hs.
  - intros i j d (r & Hr & Hd). destruct (R i r Hr) as [s Hs]. destruct (mapM_nth _ _ _ Hs) as [L' H'].
    destruct (nth_error names j) as [n|] eqn:E.
    + destruct (H' j n E) as (o & Ho & Hf). rewrite Hd in Ho. injection Ho as <-.
      destruct (coldtrap_dist_total thr bthr sites s n N) as (o & Ho & Hp). rewrite Hf in Ho. injection Ho as <-.
      now apply Hp.
    + apply nth_error_None in E. rewrite <- L' in E. apply nth_error_None in E. congruence.
Qed.
Lemma dists_ok thr bthr names sites m : NoDup (map s_name sites) ->
  get_coldtrap_dists thr bthr names sites = Ok m -> length m = length sites /\
    Forall (fun r => length r = length names) m /\
    forall i j d, cell_is m i j (Some d) -> 0 < d <= PI * 1737400.
Proof. intros N H. destruct (dists_total thr bthr names sites N) as (m' & H' & R). rewrite H in H'. injection H' as <-. exact R. Qed.

(** ** Ballistic sedimentation *)
Lemma bsed_run c time df dists : bsed_sane c -> time <> [] -> length dists = length df ->
  Forall (fun r => length r = length (r_names c)) dists ->
  (forall i j d, cell_is dists i j (Some d) -> 0 < d <= PI * 1737400) ->
  exists bd bf, get_bsed_depth (crat (r_i c)) (r_bsed c) (r_melt c) (r_min c) (r_tol c) (length (r_names c)) time df dists = Ok (bd, bf) /\
    length bd = length time /\ length bf = length time /\
    Forall (fun r => length r = length (r_names c)) bd /\ Forall (fun r => length r = length (r_names c)) bf /\
    Forall (Forall (fun x => 0 <= x <= 1)) (map (map or_zero) bf).
Proof.
  intros HB Ne HL HF HD. destruct (bsed_on (r_bsed c)) eqn:On.
  - destruct (HB On) as (G & V & Fl & Wm & W1 & W2). cbv zeta in *.
    assert (AW : all_within (r_melt c) (ejecta_temp (r_bsed c) (length (r_names c)) df) (get_mixing_ratio_oberbeck (r_bsed c) dists)).
    { intros i j temp mr Ht Hm. apply mix_cell in Hm as ([d|] & Hd & E); [|discriminate].
      cbn in E. injection E as ->. split; [eauto|]. apply temp_cell in Ht as (s & Hs & -> & _). unfold site_temp.
      destruct (s_basin s); auto. }
    pose proof (ejecta_temp_shape (r_bsed c) (length (r_names c)) df dists HL HF) as Sh.
    destruct (melt_range (r_melt c) _ _ 0 1 G Sh AW ltac:(lra) V) as (melt & Em & Sm & Rm).
    destruct (get_bsed_spec (crat (r_i c)) (r_bsed c) (r_melt c) (r_min c) (r_tol c) (length (r_names c)) time df dists melt On Ne HL HF Em Sm)
      as (bd & bf & E & L1 & L2 & F1 & F2 & Cells).
    exists bd, bf. repeat split; auto. apply Forall_forall. intros r Hr. apply in_map_iff in Hr as (r0 & <- & Hr).
    apply Forall_forall. intros x Hx. apply in_map_iff in Hx as (o & <- & Ho).
    apply In_nth_error in Hr as [k Hk]. apply In_nth_error in Ho as [j Hj].
    assert (Lk : (k < length time)%nat) by (rewrite <- L2; apply nth_error_Some; congruence).
    assert (Lj : (j < length (r_names c))%nat).
    { rewrite <- (Forall_nth_error _ _ _ _ F2 Hk). apply nth_error_Some. congruence. }
    destruct (Cells k j Lk Lj) as (here & mr & mf & _ & _ & _ & (M0 & _ & M2) & _ & (r1 & Hr1 & Hx1)).
    rewrite Hk in Hr1. assert (r1 = r0) by congruence. subst r1. rewrite Hj in Hx1.
    assert (Q : forall x y : option R, Some x = Some y -> x = y) by congruence. apply Q in Hx1. subst o. cbn [or_zero].
    assert (U : mf <= 1).
    { destruct M2 as [->|(i & age & A1 & A2 & (row & A3 & A4))]; [lra|].
      assert (Cm : exists o, cell_is (get_mixing_ratio_oberbeck (r_bsed c) dists) i j o).
      { assert (S2 := Sm). apply Forall2_nth_error in S2 as [S2 S3].
        destruct (nth_error (get_mixing_ratio_oberbeck (r_bsed c) dists) i) as [row'|] eqn:Er.
        - specialize (S3 i _ _ A3 Er). destruct (nth_error row' j) as [o|] eqn:Eo; [exists o, row'; auto|].
          apply nth_error_None in Eo. rewrite <- S3 in Eo. apply nth_error_None in Eo. congruence.
        - apply nth_error_None in Er. rewrite <- S2 in Er. apply nth_error_None in Er. congruence. }
      destruct Cm as [o Co]. destruct (Rm i j o Co) as (v & (row2 & B1 & B2) & B3).
      rewrite A3 in B1. injection B1 as <-. rewrite A4 in B2. apply Q in B2. assert (mf = v) by congruence. lra. }
    nra.
  - destruct (bsed_off (crat (r_i c)) (r_bsed c) (r_melt c) (r_min c) (r_tol c) (length (r_names c)) time df dists On) as (z & E & L & F).
    exists z, z. assert (F' : Forall (fun r => length r = length (r_names c)) z).
    { eapply Forall_impl; [|exact F]. intros r ->. apply repeat_length. }
    repeat split; auto. apply Forall_forall. intros r Hr. apply in_map_iff in Hr as (r0 & <- & Hr).
    rewrite Forall_forall in F. rewrite (F r0 Hr). apply Forall_forall. intros x Hx. apply in_map_iff in Hx as (o & <- & Ho).
    apply repeat_spec in Ho. subst o. cbn. lra.
Qed.

(** ** Columns before the loop *)
Lemma nth_error_ext_eq {A} (a b : list A) : (forall i, nth_error a i = nth_error b i) -> a = b.
Proof.
  revert b. induction a as [|x a IH]; intros [|y b] H; auto; try (specialize (H 0%nat); discriminate).
  pose proof (H 0%nat) as H0. injection H0 as ->. f_equal. apply IH. intros i. apply (H (S i)).
Qed.
Lemma nth_combine_seq {A} (l : list A) : forall s j, nth_error (combine (seq s (length l)) l) j =
  option_map (fun x => ((s + j)%nat, x)) (nth_error l j).
Proof.
  induction l as [|x l IH]; intros s [|j]; try reflexivity; cbn [length seq combine nth_error].
  - cbn. now rewrite Nat.add_0_r.
  - rewrite IH. destruct (nth_error l j); cbn; auto. do 2 f_equal. lia.
Qed.

Lemma init_ok c ppf time df dists u k d0 k' : NoDup (r_names c) ->
  init_strat_columns c ppf time df dists u k = Ok (d0, k') ->
  exists ej src ice,
    get_ejecta_thickness_time (crat (r_i c)) (r_min c) (r_tol c) (length (r_names c)) time (map site_of df) dists = Ok (ej, src) /\
    get_ice_cols_time (r_i c) ppf (r_tol c) (r_lum c) (r_bhop c) (r_names c) (map impact_of df) time u k = Ok (ice, k') /\
    map fst d0 = r_names c /\
    forall j n, nth_error (r_names c) j = Some n ->
      exists x y s, column ice j = Ok x /\ column ej j = Ok y /\ column src j = Ok s /\ lookup d0 n = Ok (mk_strat x y s).
Proof.
  intros N H. unfold init_strat_columns in H. apply rbind_ok in H as ([ej src] & k1 & H1 & H).
  apply lift_ok in H1 as [H1 ->]. apply rbind_ok in H as (ice & k2 & H2 & H). apply lift_ok in H as [H ->].
  exists ej, src, ice. split; auto. split; auto.
  destruct (mapM _ _) as [cols|] eqn:E in H; [|discriminate]. cbn [bind] in H.
  assert (D : fold_left (fun d nv => dict_set d (fst nv) (snd nv)) cols [] = d0) by congruence. clear H.
  destruct (mapM_nth _ _ _ E) as [L M]. rewrite combine_length, seq_length, Nat.min_id in L.
  assert (P : forall j n, nth_error (r_names c) j = Some n ->
    exists x y s, column ice j = Ok x /\ column ej j = Ok y /\ column src j = Ok s /\ nth_error cols j = Some (n, mk_strat x y s)).
  { intros j n Hj. destruct (M j (j, n)) as (b & Hb & Hf).
    - rewrite nth_combine_seq, Hj. reflexivity.
    - destruct (column ice j) as [x|]; [|discriminate]. destruct (column ej j) as [y|]; [|discriminate].
      destruct (column src j) as [s|]; [|discriminate]. cbn [bind] in Hf. injection Hf as <-. exists x, y, s. auto. }
  assert (K : map fst cols = r_names c).
  { apply nth_error_ext_eq. intros j. rewrite nth_error_map. destruct (nth_error (r_names c) j) as [n|] eqn:Hj.
    - destruct (P j n Hj) as (x & y & s & _ & _ & _ & ->). reflexivity.
    - apply nth_error_None in Hj. rewrite <- L in Hj. apply nth_error_None in Hj. now rewrite Hj. }
  rewrite dict_set_all in D by (cbn [app]; now rewrite K). cbn [app] in D. subst d0.
  split; auto. intros j n Hj. destruct (P j n Hj) as (x & y & s & A & B & C & E'). exists x, y, s.
  repeat split; auto. eapply lookup_nth; eauto. now rewrite K.
Qed.

Lemma ejecta_shape c thick_min tol ncol time df dists : time <> [] ->
  length dists = length df -> Forall (fun r => length r = ncol) dists ->
  exists ej src, get_ejecta_thickness_time c thick_min tol ncol time df dists = Ok (ej, src) /\
    length ej = length time /\ length src = length time /\
    forall j, (j < ncol)%nat -> Forall (fun r => (j < length r)%nat) ej /\ Forall (fun r => (j < length r)%nat) src.
Proof.
  intros Ne HL HF. destruct (minmax_spec time tol Ne) as (lo & hi & Hlo & Hhi & _).
  destruct (ejecta_sources c thick_min tol ncol time df dists lo hi Hlo Hhi HL HF)
    as (at_ & ej & src & Hat & E & Le & Ls & Hej).
  exists ej, src. repeat split; auto; apply Forall_forall; intros r Hr; apply In_nth_error in Hr as [k Hk].
  - assert (Lk : (k < length time)%nat) by (rewrite <- Le; apply nth_error_Some; congruence).
    destruct (Hej k j Lk H) as (a & b & A & _ & B & _). rewrite Hk in A. injection A as <-. lia.
  - assert (Lk : (k < length time)%nat) by (rewrite <- Ls; apply nth_error_Some; congruence).
    destruct (Hej k j Lk H) as (a & b & _ & A & _ & B & _). rewrite Hk in A. injection A as <-. lia.
Qed.

Lemma ice_rows c ppf df time u k : ice_sane c -> ppf_support ppf -> draws u -> time <> [] ->
  exists rows k', get_ice_cols_time (r_i c) ppf (r_tol c) (r_lum c) (r_bhop c) (r_names c) df time u k = Ok (rows, k') /\
    length rows = length time /\
    Forall (fun row => length row = length (r_names c) /\ Forall (fun x => 0 <= x) row) rows.
Proof.
  intros [A B C D] Hp Hu Ne.
  destruct (ice_cols_ok (r_i c) ppf (r_tol c) (r_lum c) (r_bhop c) (r_names c) df time A B C Hp Ne D u k Hu) as (rows & k' & E & HL & HF).
  eauto.
Qed.

Lemma init_total c ppf time df dists u k : ice_sane c -> ppf_support ppf -> draws u -> time <> [] ->
  length dists = length df -> Forall (fun r => length r = length (r_names c)) dists ->
  exists d0 k', init_strat_columns c ppf time df dists u k = Ok (d0, k').
Proof.
  intros Hs Hp Hu Ne HL HF. unfold init_strat_columns.
  assert (HL' : length dists = length (map site_of df)) by now rewrite map_length.
  destruct (ejecta_shape (crat (r_i c)) (r_min c) (r_tol c) (length (r_names c)) time (map site_of df) dists Ne HL' HF)
    as (ej & src & E & Le & Ls & Sh).
  destruct (ice_rows c ppf (map impact_of df) time u k Hs Hp Hu Ne) as (ice & k' & Ei & Li & Fi).
  unfold rbind, lift. rewrite E. cbn [bind]. rewrite Ei. cbn [bind].
  destruct (mapM_total (fun '(i, n) =>
      let* x := column ice i in let* y := column ej i in let* s := column src i in
      Ok (n, mk_strat x y s)) (combine (seq 0 (length (r_names c))) (r_names c))) as [cols ->].
  - intros [i n] Hin. assert (Hi : (i < length (r_names c))%nat).
    { apply in_combine_l, in_seq in Hin. lia. }
    destruct (column_total ice i) as [x ->].
    { eapply Forall_impl; [|exact Fi]. intros r [-> _]. exact Hi. }
    destruct (Sh i Hi) as [S1 S2]. destruct (column_total ej i S1) as [y ->]. destruct (column_total src i S2) as [s ->].
    cbn [bind]. eauto.
  - cbn [bind]. eauto.
Qed.

(** ** Output tables *)
Lemma ages_unique df names cdf : NoDup (names_of df) -> ages_of df names = Ok cdf ->
  Forall2 (fun n na => fst na = n /\ exists r, In r df /\ d_name (c_rest r) = n /\ snd na = c_age r) names cdf.
Proof.
  intros N H. unfold ages_of in H. destruct (mapM _ names) as [l|] eqn:E; [|discriminate]. cbn [bind] in H.
  injection H as <-. revert l E. induction names as [|n names IH]; intros l E; cbn [mapM] in E.
  - injection E as <-. constructor.
  - pose proof (filter_name_unique (fun r => d_name (c_rest r)) n df N) as F.
    destruct (filter (fun r => String.eqb (d_name (c_rest r)) n) df) as [|r [|? ?]] eqn:Er; [discriminate| |destruct F].
    cbn [bind] in E. destruct (mapM _ names) as [l'|] eqn:E'; [|discriminate]. cbn [bind] in E. injection E as <-.
    cbn [concat map app]. constructor; [|now apply IH]. cbn. split; auto. exists r. tauto.
Qed.
Lemma ages_total df names : NoDup (names_of df) -> (forall n, In n names -> In n (names_of df)) -> exists cdf, ages_of df names = Ok cdf.
Proof.
  intros N H. unfold ages_of. destruct (mapM_total (fun n =>
    match filter (fun r => String.eqb (d_name (c_rest r)) n) df with
    | [] => Err KeyError
    | rows => Ok (map (fun r => (n, c_age r)) rows)
    end) names) as [l ->]; [|cbn [bind]; eauto].
  intros n Hn. pose proof (filter_name_unique (fun r => d_name (c_rest r)) n df N) as F.
  destruct (filter (fun r => String.eqb (d_name (c_rest r)) n) df) as [|r l] eqn:Er; [|eauto].
  elim F. apply H. exact Hn.
Qed.

Lemma format_ok c d time df out : NoDup (r_names c) -> NoDup (names_of df) -> format_csv_outputs c d time df = Ok out ->
  o_time out = time /\ map fst (o_strat out) = r_names c /\
  map fst (o_ice out) = r_names c /\ map fst (o_ej out) = r_names c /\
  forall j n, nth_error (r_names c) j = Some n ->
    exists r s layers, In r df /\ d_name (c_rest r) = n /\ lookup d n = Ok s /\
      make_strat_col (r_rnd c) (r_min c) (r_tol c) (r_after_age c) (c_age r) (steps_of time s) = Ok layers /\
      nth_error (o_strat out) j = Some (n, layers) /\ nth_error (o_ice out) j = Some (n, s_ice s) /\
      nth_error (o_ej out) j = Some (n, s_ej s).
Proof.
  intros N Nd H. unfold format_csv_outputs in H. destruct (ages_of df (r_names c)) as [cdf|] eqn:Ea; [|discriminate].
  cbn [bind] in H. destruct (mapM _ cdf) as [o|] eqn:Eo in H; [|discriminate]. cbn [bind] in H.
  assert (H' : mk_outputs time
        (fold_left (fun d '(n, s, _) => dict_set d n (s_ej s)) o [])
        (fold_left (fun d '(n, s, _) => dict_set d n (s_ice s)) o [])
        (fold_left (fun d '(n, _, t) => dict_set d n t) o []) = out) by congruence. clear H. subst out.
  cbn [o_time o_strat o_ice o_ej].
  pose proof (ages_unique df (r_names c) cdf Nd Ea) as FU. apply Forall2_nth_error in FU as [LU FU].
  destruct (mapM_nth _ _ _ Eo) as [L M].
  assert (P : forall j n, nth_error (r_names c) j = Some n ->
    exists r s layers, In r df /\ d_name (c_rest r) = n /\ lookup d n = Ok s /\
      make_strat_col (r_rnd c) (r_min c) (r_tol c) (r_after_age c) (c_age r) (steps_of time s) = Ok layers /\
      nth_error o j = Some (n, s, layers)).
  { intros j n Hj. destruct (nth_error cdf j) as [[n' age]|] eqn:Ec.
    2:{ apply nth_error_None in Ec. rewrite <- LU in Ec. apply nth_error_None in Ec. congruence. }
    destruct (FU j n (n', age) Hj Ec) as [Q (r & R1 & R2 & R3)]. cbn [fst snd] in Q, R3. subst n' age.
    destruct (M j _ Ec) as (b & Hb & Hf). destruct (lookup d n) as [s|]; [|discriminate]. cbn [bind] in Hf.
    destruct (make_strat_col _ _ _ _ _ _) as [layers|] eqn:Em; [|discriminate]. cbn [bind] in Hf.
    assert (b = (n, s, layers)) by congruence. subst b. exists r, s, layers. auto. }
  set (f := fun x : string * @strat R * list layer => fst (fst x)).
  assert (K : map f o = r_names c).
  { apply nth_error_ext_eq. intros j. rewrite nth_error_map. destruct (nth_error (r_names c) j) as [n|] eqn:Hj.
    - destruct (P j n Hj) as (r & s & l & _ & _ & _ & _ & ->). reflexivity.
    - apply nth_error_None in Hj. rewrite LU, <- L in Hj. apply nth_error_None in Hj. now rewrite Hj. }
  assert (G : forall V (g : string * @strat R * list layer -> V), 
    fold_left (fun d x => dict_set d (f x) (g x)) o [] = map (fun x => (f x, g x)) o).
  { intros V g. apply dict_set_map. now rewrite K. }
  assert (X : forall V (h : string -> @strat R -> list layer -> V),
    fold_left (fun d '(n, s, t) => dict_set d n (h n s t)) o [] = map (fun x => (f x, h (fst (fst x)) (snd (fst x)) (snd x))) o).
  { intros V h. rewrite <- (G V (fun x => h (fst (fst x)) (snd (fst x)) (snd x))).
    assert (Q : forall l d0, fold_left (fun d '(n, s, t) => dict_set d n (h n s t)) l d0
      = fold_left (fun d x => dict_set d (f x) (h (fst (fst x)) (snd (fst x)) (snd x))) l d0).
    { induction l as [|[[n s] t] l IHl]; intros d0; cbn; auto. } apply Q. }
  rewrite (X _ (fun n s t => s_ej s)), (X _ (fun n s t => s_ice s)), (X _ (fun n s t => t)).
  rewrite !map_map. cbn [fst].
  split; auto. split; [exact K|]. split; [exact K|]. split; [exact K|].
  intros j n Hj. destruct (P j n Hj) as (r & s & l & A & B & C & D & E). exists r, s, l.
  rewrite !nth_error_map, E. cbn. repeat split; auto.
Qed.

Lemma format_total c d time df : NoDup (names_of df) -> (forall n, In n (r_names c) -> In n (names_of df)) ->
  (forall n, In n (r_names c) -> exists s, lookup d n = Ok s) ->
  (forall n s r, In n (r_names c) -> In r df -> d_name (c_rest r) = n -> lookup d n = Ok s ->
     exists layers, make_strat_col (r_rnd c) (r_min c) (r_tol c) (r_after_age c) (c_age r) (steps_of time s) = Ok layers) ->
  exists out, format_csv_outputs c d time df = Ok out.
Proof.
  intros N Hk Hl Hm. unfold format_csv_outputs. destruct (ages_total df (r_names c) N Hk) as [cdf Ea].
  rewrite Ea. cbn [bind]. pose proof (ages_unique df (r_names c) cdf N Ea) as FU.
  destruct (mapM_total (fun '(n, age) =>
    let* s := lookup d n in
    let* strat := make_strat_col (r_rnd c) (r_min c) (r_tol c) (r_after_age c) age (steps_of time s) in
    Ok (n, s, strat)) cdf) as [o ->]; [|cbn [bind]; eauto].
  intros [n age] Hin. apply In_nth_error in Hin as [j Hj].
  apply Forall2_nth_error in FU as [LU FU]. destruct (nth_error (r_names c) j) as [n'|] eqn:En.
  2:{ apply nth_error_None in En. rewrite LU in En. apply nth_error_None in En. congruence. }
  destruct (FU j n' (n, age) En Hj) as [Q (r & R1 & R2 & R3)]. cbn [fst snd] in Q, R3. subst n' age.
  apply nth_error_In in En. destruct (Hl n En) as [s Hs]. rewrite Hs. cbn [bind].
  destruct (Hm n s r En R1 R2 Hs) as [l ->]. cbn [bind]. eauto.
Qed.

(** ** The run *)
Lemma main_ok c ppf sort craters basins u k out k' :
  main c ppf sort craters basins u k = Ok (out, k') ->
  exists time df k1 dists d0 bd bf d1,
    get_time_array (r_rnd c) (r_start c) (r_end c) (r_step c) = Ok time /\
    get_crater_basin_list c ppf sort craters basins u k = Ok (df, k1) /\
    get_coldtrap_dists (r_ejthr c) (r_basinthr c) (r_names c) (map site_of df) = Ok dists /\
    init_strat_columns c ppf time df dists u k1 = Ok (d0, k') /\
    get_bsed_depth (crat (r_i c)) (r_bsed c) (r_melt c) (r_min c) (r_tol c) (length (r_names c)) time (map site_of df) dists = Ok (bd, bf) /\
    update_strat_cols exactR (costello (r_i c)) (r_shield c) (r_names c) d0
      (overturn_depth_time (r_i c) time) (map (map or_zero) bd) (map (map or_zero) bf) = Ok d1 /\
    format_csv_outputs c d1 time df = Ok out.
Proof.
  intros H. unfold main in H. apply rbind_ok in H as (time & k0 & H1 & H). apply lift_ok in H1 as [H1 ->].
  apply rbind_ok in H as (df & k1 & H2 & H). cbv zeta in H.
  apply rbind_ok in H as (dists & k2 & H3 & H). apply lift_ok in H3 as [H3 ->].
  apply rbind_ok in H as (d0 & k3 & H4 & H).
  apply rbind_ok in H as ([bd bf] & k4 & H5 & H). apply lift_ok in H5 as [H5 ->].
  apply rbind_ok in H as (d1 & k5 & H6 & H). apply lift_ok in H6 as [H6 ->]. apply lift_ok in H as [H ->].
  exists time, df, k1, dists, d0, bd, bf, d1. auto 10.
Qed.

Lemma site_names df : map s_name (map site_of df) = names_of df.
Proof. rewrite map_map. reflexivity. Qed.

Lemma list_nodup c ppf sort craters basins u k df k1 : sorts_by_age sort ->
  get_crater_basin_list c ppf sort craters basins u k = Ok (df, k1) ->
  NoDup (map w_name (craters ++ basins)) -> NoDup (names_of df).
Proof. intros Hs H N. eapply Permutation_NoDup; [|exact N]. symmetry. eapply list_names; eauto. Qed.

Lemma Rsum_filter_le {A} (f : A -> R) p l : Forall (fun x => 0 <= f x) l -> Rsum (map f (filter p l)) <= Rsum (map f l).
Proof.
  induction 1 as [|x l Hx _ IH]; [cbn; lra|]. cbn [filter map]. destruct (p x); cbn [map]; rewrite !Rsum_cons; lra.
Qed.
Lemma Rsum_steps (f : R -> R) (a b c : list R) (d : list string) : Forall (fun x => 0 <= f x) b ->
  Rsum (map (fun '(_, i, _, _) => f i) (combine (combine (combine a b) c) d)) <= Rsum (map f b).
Proof.
  intros H. revert a c d. induction H as [|x b Hx Hb IH]; intros a c d.
  - destruct a; cbn; lra.
  - assert (Z : 0 <= Rsum (map f b)).
    { apply Rsum_nonneg. apply Forall_forall. intros y Hy. apply in_map_iff in Hy as (z & <- & Hz). rewrite Forall_forall in Hb. auto. }
    destruct a as [|t a]; [cbn [combine map]; rewrite Rsum_cons; cbn; lra|].
    destruct c as [|e c]; [cbn [combine map]; rewrite Rsum_cons; cbn; lra|].
    destruct d as [|s d]; [cbn [combine map]; rewrite Rsum_cons; cbn; lra|].
    cbn [combine map]. rewrite !Rsum_cons. specialize (IH a c d). lra.
Qed.
Lemma Rsum_map_le (f : R -> R) a b : (forall x y, x <= y -> f x <= f y) -> Forall2 (fun n o => 0 <= n <= o) a b ->
  Rsum (map f a) <= Rsum (map f b).
Proof. intros M. induction 1 as [|x y a b H _ IH]; [cbn; lra|]. cbn [map]. rewrite !Rsum_cons. specialize (M x y). lra. Qed.

Lemma time_ne c time : (0 < r_step c)%Z -> (2 * r_step c <= r_start c - r_end c)%Z ->
  get_time_array (r_rnd c) (r_start c) (r_end c) (r_step c) = Ok time -> time <> [] /\ In (r_rnd c (IZR (r_step c))) time.
Proof.
  intros H1 H2 H. unfold get_time_array in H. destruct (Z.eqb_spec (r_step c) 0) as [|_]; [lia|]. cbv zeta in H.
  assert (Q : (2 <= (r_start c - r_end c) ÷ r_step c)%Z).
  { rewrite Z.quot_div_nonneg by lia. apply Z.div_le_lower_bound; lia. }
  destruct (Z.ltb_spec ((r_start c - r_end c) ÷ r_step c) 0); [lia|].
  set (n := Z.to_nat ((r_start c - r_end c) ÷ r_step c)) in *. assert (Hn : (2 <= n)%nat) by (unfold n; lia).
  assert (E : time = map (r_rnd c) (linspace (IZR (r_start c)) (IZR (r_step c)) n)) by congruence. clear H. subst time.
  assert (I : In (IZR (r_step c)) (linspace (IZR (r_start c)) (IZR (r_step c)) n)).
  { unfold linspace. destruct n as [|[|n]]; [lia|lia|]. apply in_map_iff. exists (S n). split; [|apply in_seq; lia].
    rewrite (S_INR (S n)). replace (INR (S n) + 1 - 1) with (INR (S n)) by ring.
    assert (INR (S n) <> 0) by (apply not_0_INR; lia). field. auto. }
  split; [|now apply in_map]. intros E. apply (f_equal (@length _)) in E. rewrite map_length in E. cbn in E.
  destruct (linspace _ _ _); [destruct I|discriminate].
Qed.

Lemma strat_ice_nonneg rnd thick_min tol after_age age steps out :
  make_strat_col rnd thick_min tol after_age age steps = Ok out ->
  Forall (fun '(_, i, _, _) => 0 <= rnd i) steps -> Forall (fun l => 0 <= l_ice l) out.
Proof.
  intros H Hs. pose proof (strat_groups _ _ _ _ _ _ _ H) as (gs & Hc & Hl & _). cbv zeta in Hc.
  set (kept := filter _ steps) in *. set (rows := formation _ _ _ ++ _) in *.
  assert (HF : Forall (fun r : R * R * string * R => 0 <= fst (fst (fst r))) rows).
  { unfold rows. apply Forall_app. split.
    - unfold formation. destruct after_age, kept as [|[[[t i] e] s] ?]; repeat constructor; cbn; lra.
    - apply Forall_forall. intros r Hin. apply in_map_iff in Hin as ([[[t i] e] s] & <- & Hin).
      apply filter_In in Hin as [Hin _]. apply filter_In in Hin as [Hin _]. rewrite Forall_forall in Hs.
      apply (Hs _ Hin). }
  rewrite <- Hc in HF. clear -HF Hl. induction Hl as [|g l gs out Hgl _ IH]; constructor; cbn [concat] in HF;
    apply Forall_app in HF as [H1 H2]; auto.
  destruct Hgl as (_ & -> & _). apply Rsum_nonneg. apply Forall_forall. intros q Hq.
  apply in_map_iff in Hq as (r & <- & Hr). rewrite Forall_forall in H1. auto.
Qed.

Lemma ice_bound c ppf sort craters basins u k out k' :
  ice_sane c -> bsed_sane c -> ppf_support ppf -> sorts_by_age sort -> draws u ->
  NoDup (r_names c) -> NoDup (map w_name (craters ++ basins)) ->
  main c ppf sort craters basins u k = Ok (out, k') -> o_time out <> [] ->
  exists df k1 delivered,
    get_crater_basin_list c ppf sort craters basins u k = Ok (df, k1) /\
    get_ice_cols_time (r_i c) ppf (r_tol c) (r_lum c) (r_bhop c) (r_names c) (map impact_of df) (o_time out) u k1 = Ok (delivered, k') /\
    map fst (o_strat out) = r_names c /\ map fst (o_ice out) = r_names c /\
    forall j n, nth_error (r_names c) j = Some n ->
      exists layers ice col, nth_error (o_strat out) j = Some (n, layers) /\ nth_error (o_ice out) j = Some (n, ice) /\
        column delivered j = Ok col /\
        Forall2 (fun now then_ => 0 <= now <= then_) ice col /\
        (keeps_order (r_rnd c) ->
           Forall (fun l => 0 <= l_ice l) layers /\
           Rsum (map l_ice layers) <= Rsum (map (r_rnd c) ice) /\
           0 <= Rsum (map l_ice layers) <= Rsum (map (r_rnd c) col)).
Proof.
  intros Hi Hb Hp Hs Hu N Nr H Ne.
  apply main_ok in H as (time & df & k1 & dists & d0 & bd & bf & d1 & H1 & H2 & H3 & H4 & H5 & H6 & H7).
  pose proof (list_nodup _ _ _ _ _ _ _ _ _ Hs H2 Nr) as Nd.
  destruct (format_ok c d1 time df out N Nd H7) as (Et & K1 & K2 & _ & F). rewrite Et in *.
  destruct (dists_ok _ _ _ _ _ ltac:(rewrite site_names; exact Nd) H3) as (Ld & Fd & Rd).
  rewrite map_length in Ld.
  destruct (init_ok c ppf time df dists u k1 d0 k' N H4) as (ej & src & ice & I1 & I2 & I3 & I4).
  destruct (ice_rows c ppf (map impact_of df) time u k1 Hi Hp Hu Ne) as (rows & k2 & R1 & R2 & R3).
  rewrite I2 in R1. assert (rows = ice) by congruence. subst rows.
  assert (Ld' : length dists = length (map site_of df)) by now rewrite map_length.
  destruct (bsed_run c time (map site_of df) dists Hb Ne Ld' Fd Rd) as (bd' & bf' & B1 & _ & _ & _ & _ & B2).
  rewrite H5 in B1. assert (bf' = bf) by congruence. subst bf'.
  exists df, k1, ice. repeat split; auto. intros j n Hj.
  destruct (F j n Hj) as (r & s & layers & F1 & F2 & F3 & F4 & F5 & F6 & F7).
  destruct (I4 j n Hj) as (x & y & z & X1 & X2 & X3 & X4).
  assert (P0 : Forall (fun v => 0 <= v) x).
  { destruct (column_nth _ _ _ X1) as [Lx Nx]. apply Forall_forall. intros v Hv. apply In_nth_error in Hv as [i Hv].
    specialize (Nx i). destruct (nth_error ice i) as [row|] eqn:Er.
    - destruct Nx as (v' & V1 & V2). assert (v' = v) by congruence. subst v'.
      destruct (Forall_nth_error _ _ _ _ R3 Er) as [_ R4]. apply (Forall_nth_error _ _ _ _ R4 V1).
    - apply nth_error_None in Er. rewrite <- Lx in Er. apply nth_error_None in Er. congruence. }
  destruct (update_strat_cols_safe (fun x => x) (fun x => x) (costello (r_i c)) (r_shield c) (r_names c) d0
    (overturn_depth_time (r_i c) time) (map (map or_zero) bd) (map (map or_zero) bf) d1 n (mk_strat x y z) exact_ok N
    (nth_error_In _ _ Hj) X4 (stored_exact _ P0)) as (s' & S1 & S2 & S3); auto.
  { apply Forall_forall. auto. }
  { apply Forall_forall. intros. apply Forall_forall. auto. }
  rewrite F3 in S1. assert (s' = s) by congruence. subst s'. cbn [s_ice] in S2.
  exists layers, (s_ice s), x. repeat (split; [assumption|]). intros [M0 Z0].
  assert (S2' : forall v, In v (s_ice s) -> 0 <= v).
  { clear -S2. induction S2; intros v []; subst; auto. lra. }
  assert (NN : Forall (fun v => 0 <= r_rnd c v) (s_ice s)).
  { apply Forall_forall. intros v Hv. rewrite <- Z0. apply M0. auto. }
  assert (LN : Forall (fun l => 0 <= l_ice l) layers).
  { apply (strat_ice_nonneg _ _ _ _ _ _ _ F4). apply Forall_forall. intros [[[t0 i0] e0] s0] Hq. unfold steps_of in Hq.
    apply in_combine_l, in_combine_l, in_combine_r in Hq. rewrite Forall_forall in NN. auto. }
  assert (B1' : Rsum (map l_ice layers) <= Rsum (map (r_rnd c) (s_ice s))).
  { destruct (strat_totals _ _ _ _ _ _ _ F4) as [T _]. rewrite T.
    eapply Rle_trans; [|apply (Rsum_steps (r_rnd c) time (s_ice s) (s_ej s) (s_src s) NN)].
    apply (Rsum_filter_le (fun '(_, i, _, _) => r_rnd c i)). unfold steps_of. apply Forall_forall.
    intros [[[t0 i0] e0] s0] Hq. apply in_combine_l, in_combine_l, in_combine_r in Hq. rewrite Forall_forall in NN. auto. }
  pose proof (Rsum_map_le (r_rnd c) _ _ M0 S2) as B3.
  repeat split; auto; [|lra].
  apply Rsum_nonneg. apply Forall_forall. intros q Hq. apply in_map_iff in Hq as (l & <- & Hl). rewrite Forall_forall in LN. auto.
Qed.

Lemma steps_in t time s : In t time -> length (s_ice s) = length time -> length (s_ej s) = length time -> length (s_src s) = length time ->
  exists i e src, In (t, i, e, src) (steps_of time (s : @strat R)).
Proof.
  intros H L1 L2 L3. apply In_nth_error in H as [k Hk].
  assert (Lk : (k < length time)%nat) by (apply nth_error_Some; congruence).
  destruct (nth_error (s_ice s) k) as [i|] eqn:Ei; [|apply nth_error_None in Ei; lia].
  destruct (nth_error (s_ej s) k) as [e|] eqn:Ee; [|apply nth_error_None in Ee; lia].
  destruct (nth_error (s_src s) k) as [x|] eqn:Ex; [|apply nth_error_None in Ex; lia].
  exists i, e, x. unfold steps_of. apply nth_error_In with k. rewrite !nth_error_combine, Hk, Ei, Ee, Ex. reflexivity.
Qed.

Lemma main_total c ppf sort craters basins u k :
  ice_sane c -> bsed_sane c -> data_sane c (craters ++ basins) -> time_sane c (craters ++ basins) ->
  ppf_support ppf -> sorts_by_age sort -> draws u ->
  exists out k', main c ppf sort craters basins u k = Ok (out, k') /\ o_time out <> [].
Proof.
  intros Hi Hb [N Nr Kn Va] [T1 T2 T3] Hp Hs Hu.
  assert (exists time, get_time_array (r_rnd c) (r_start c) (r_end c) (r_step c) = Ok time) as [time Et].
  { unfold get_time_array. destruct (Z.eqb_spec (r_step c) 0) as [|_]; [lia|]. cbv zeta.
    assert (Q : (2 <= (r_start c - r_end c) ÷ r_step c)%Z).
    { rewrite Z.quot_div_nonneg by lia. apply Z.div_le_lower_bound; lia. }
    destruct (Z.ltb_spec ((r_start c - r_end c) ÷ r_step c) 0); [lia|]. eauto. }
  destruct (time_ne c time T1 T2 Et) as [Ne It].
  destruct (list_total c ppf sort craters basins u k) as (df & k1 & H2).
  pose proof (list_nodup _ _ _ _ _ _ _ _ _ Hs H2 Nr) as Nd.
  destruct (dists_total (r_ejthr c) (r_basinthr c) (r_names c) (map site_of df) ltac:(rewrite site_names; exact Nd))
    as (dists & H3 & Ld & Fd & Rd). assert (Ld' := Ld). rewrite map_length in Ld.
  destruct (init_total c ppf time df dists u k1 Hi Hp Hu Ne Ld Fd) as (d0 & k' & H4).
  destruct (init_ok c ppf time df dists u k1 d0 k' N H4) as (ej & src & ice & I1 & I2 & I3 & I4).
  destruct (ice_rows c ppf (map impact_of df) time u k1 Hi Hp Hu Ne) as (rows & k2 & R1 & R2 & R3).
  rewrite I2 in R1. assert (rows = ice) by congruence. subst rows.
  destruct (ejecta_shape (crat (r_i c)) (r_min c) (r_tol c) (length (r_names c)) time (map site_of df) dists Ne Ld' Fd)
    as (ej' & src' & J1 & Je & Js & _).
  rewrite I1 in J1. assert (ej' = ej /\ src' = src) as [-> ->] by (split; congruence).
  destruct (bsed_run c time (map site_of df) dists Hb Ne Ld' Fd Rd) as (bd & bf & H5 & Lb & Lf & Fb & Ff & B2).
  assert (Lo : length (overturn_depth_time (r_i c) time) = length time).
  { unfold overturn_depth_time, overturn_depth_costello_time. destruct (costello (r_i c)); now rewrite map_length. }
  assert (Cols : forall n, In n (r_names c) -> exists s, lookup d0 n = Ok s /\ length (s_ice s) = length time /\
            length (s_ej s) = length time /\ length (s_src s) = length time /\ Forall (fun v => 0 <= v) (s_ice s)).
  { intros n Hn. apply In_nth_error in Hn as [j Hj]. destruct (I4 j n Hj) as (x & y & z & X1 & X2 & X3 & X4).
    exists (mk_strat x y z). cbn [s_ice s_ej s_src].
    destruct (column_nth _ _ _ X1) as [Lx Nx]. destruct (column_nth _ _ _ X2) as [Ly _]. destruct (column_nth _ _ _ X3) as [Lz _].
    split; [auto|]. split; [congruence|]. split; [congruence|]. split; [congruence|].
    apply Forall_forall. intros v Hv. apply In_nth_error in Hv as [i Hv].
    specialize (Nx i). destruct (nth_error ice i) as [row|] eqn:Er.
    - destruct Nx as (v' & V1 & V2). assert (v' = v) by congruence. subst v'.
      destruct (Forall_nth_error _ _ _ _ R3 Er) as [_ R4]. apply (Forall_nth_error _ _ _ _ R4 V1).
    - apply nth_error_None in Er. rewrite <- Lx in Er. apply nth_error_None in Er. congruence. }
  destruct (update_total exactR (costello (r_i c)) (r_shield c) (r_names c) d0 (overturn_depth_time (r_i c) time)
     (map (map or_zero) bd) (map (map or_zero) bf)) as [d1 H6].
  { intros n Hn. destruct (Cols n Hn) as (s & Q1 & Q2 & Q3 & _). exists s. rewrite Lo. auto. }
  { rewrite map_length, Lo. auto. }
  { rewrite map_length, Lo. auto. }
  { apply Forall_map. eapply Forall_impl; [|exact Fb]. intros r Hr. cbn. now rewrite map_length. }
  { apply Forall_map. eapply Forall_impl; [|exact Ff]. intros r Hr. cbn. now rewrite map_length. }
  assert (Cols' : forall n, In n (r_names c) -> exists s, lookup d1 n = Ok s /\ length (s_ice s) = length time /\
            length (s_ej s) = length time /\ length (s_src s) = length time).
  { intros n Hn. destruct (Cols n Hn) as (s & Q1 & Q2 & Q3 & Q4 & Q5).
    destruct (update_strat_cols_safe (fun x => x) (fun x => x) (costello (r_i c)) (r_shield c) (r_names c) d0
      (overturn_depth_time (r_i c) time) (map (map or_zero) bd) (map (map or_zero) bf) d1 n s exact_ok N
      Hn Q1 (stored_exact _ Q5)) as (s' & S1 & S2 & S3 & S4); auto.
    { apply Forall_forall. auto. }
    { apply Forall_forall. intros. apply Forall_forall. auto. }
    exists s'. rewrite S3, S4. split; [auto|]. split; auto. apply Forall2_nth_error in S2 as [S2 _]. congruence. }
  destruct (format_total c d1 time df Nd) as [out H7].
  { intros n Hn. apply Kn in Hn. eapply Permutation_in; [symmetry; eapply list_names; eauto|]. auto. }
  { intros n Hn. destruct (Cols' n Hn) as (s & Q & _). eauto. }
  { intros n s r Hn Hr Er Hl. destruct (Cols' n Hn) as (s' & Q1 & Q2 & Q3 & Q4). rewrite Hl in Q1.
    assert (s' = s) by congruence. subst s'.
    pose proof (strat_ok_iff (r_rnd c) (r_min c) (r_tol c) (r_after_age c) (c_age r) (steps_of time s)) as Q.
    destruct (make_strat_col _ _ _ _ _ _) as [l|e]; [eauto|]. exfalso. destruct Q as (_ & Ea & Q).
    destruct (T3 Ea) as (T4 & T5 & T6).
    destruct (steps_in _ time s It Q2 Q3 Q4) as (i & e' & src0 & Hin). specialize (Q _ Hin).
    unfold in_span in Q. cbn [negb orb] in Q. apply Rltb_false in Q. rewrite T5, T5 in Q.
    assert (Hl' : Forall (fun w => 0 <= w_low w /\ 0 <= w_upp w /\ 0 < w_low w + w_upp w) (craters ++ basins)).
    { eapply Forall_impl; [|exact Va]. cbn. intros. tauto. }
    pose proof (list_lines c ppf sort craters basins u k df k1 Hs Hp Hu T1 H2 Hl') as LL.
    rewrite Forall_forall in LL. destruct (LL r Hr) as (w & Lw & _ & _ & Age).
    assert (Hw : In w (craters ++ basins)).
    { apply in_or_app. destruct Lw as [[[? _]|[? _]] _]; auto. }
    rewrite Forall_forall in T6. specialize (T6 w Hw). destruct Lw as (_ & Ew & _). rewrite <- Ew, Er in T6.
    specialize (Age (T6 Hn)). apply IZR_lt in T1.
    assert (0 < Rabs (c_age r) * r_tol c); [|lra]. apply Rmult_lt_0_compat; auto. apply Rabs_pos_lt. lra. }
  exists out, k'. destruct (format_ok c d1 time df out N Nd H7) as (Eo & _). split; [|congruence].
  unfold main, rbind, lift. rewrite Et. cbn [bind]. rewrite H2. cbn [bind]. rewrite H3. cbn [bind]. rewrite H4. cbn [bind].
  rewrite H5. cbn [bind]. rewrite H6. cbn [bind]. rewrite H7. reflexivity.
Qed.

Lemma thick_none c rad : get_ejecta_thickness c None rad = 0.
Proof.
  unfold get_ejecta_thickness. cbn [obind]. repeat match goal with |- context [if ?b then _ else _] => destruct b end; reflexivity.
Qed.

Lemma combine_dists (f : crater info -> list (option R)) df dists :
  (forall i r, nth_error df i = Some r -> nth_error dists i = Some (f r)) -> length dists = length df ->
  combine (map site_of df) dists = map (fun r => (site_of r, f r)) df.
Proof.
  revert dists. induction df as [|r df IH]; intros [|d dists] H L; cbn in L; try discriminate; auto.
  cbn [map combine]. pose proof (H 0%nat r eq_refl) as H0. cbn in H0. f_equal; [congruence|].
  apply IH; [|lia]. intros i r' Hi. apply (H (S i) r' Hi).
Qed.

Lemma filter_map_comm {A B} (f : A -> B) p l : filter p (map f l) = map f (filter (fun x => p (f x)) l).
Proof. induction l; cbn; auto. destruct (p (f a)); cbn; congruence. Qed.

Lemma main_ejecta c ppf sort craters basins u k out k' lo hi :
  sorts_by_age sort -> NoDup (r_names c) -> NoDup (map w_name (craters ++ basins)) ->
  Forall (fun w => 0 <= w_diam w) (craters ++ basins) ->
  main c ppf sort craters basins u k = Ok (out, k') ->
  is_min (o_time out) lo -> is_max (o_time out) hi ->
  exists df k1 (at_ : R -> nat), get_crater_basin_list c ppf sort craters basins u k = Ok (df, k1) /\
    Permutation (names_of df) (map w_name (craters ++ basins)) /\
    Forall (fun r => exists w, line_of craters basins r w) df /\
    (forall age, first_nearest (o_time out) age (at_ age)) /\
    forall j n, nth_error (r_names c) j = Some n ->
      exists dst col, In dst df /\ d_name (c_rest dst) = n /\ nth_error (o_ej out) j = Some (n, col) /\
        length col = length (o_time out) /\
        forall i, (i < length (o_time out))%nat ->
          nth_error col i = Some (Rsum (map (ejecta_at c dst)
            (filter (fun r => Rleb (lo - Rabs lo * r_tol c) (c_age r) && Rleb (c_age r) (hi + Rabs hi * r_tol c)
                              && Nat.eqb (at_ (c_age r)) i) df))).
Proof.
  intros Hs N Nr Va H Hlo Hhi.
  apply main_ok in H as (time & df & k1 & dists & d0 & bd & bf & d1 & H1 & H2 & H3 & H4 & H5 & H6 & H7).
  pose proof (list_nodup _ _ _ _ _ _ _ _ _ Hs H2 Nr) as Nd.
  destruct (format_ok c d1 time df out N Nd H7) as (Et & K1 & K2 & K3 & F). rewrite Et in *.
  assert (HR : Forall (fun s => 0 <= s_rad s) (map site_of df)).
  { apply Forall_map. apply Forall_forall. intros r Hr. cbn.
    apply list_ok in H2 as (icy & us & Li & Lu & Eu & P); auto. cbv zeta in Lu, P, Eu. rewrite P in Hr.
    apply in_map_iff in Hr as ([r0 v] & <- & Hr). cbn. apply in_combine_l in Hr. apply in_app_or in Hr.
    rewrite Forall_forall in Va.
    destruct Hr as [Hr|Hr]; apply in_map_iff in Hr.
    - destruct Hr as (w & <- & Hw). cbn. specialize (Va w ltac:(apply in_or_app; auto)). lra.
    - destruct Hr as ([w i] & <- & Hw). cbn. apply in_combine_l in Hw. specialize (Va w ltac:(apply in_or_app; auto)). lra. }
  destruct (dists_ok _ _ _ _ _ ltac:(rewrite site_names; exact Nd) H3) as (Ld & Fd & _). assert (Ld' := Ld). rewrite map_length in Ld.
  destruct (init_ok c ppf time df dists u k1 d0 k' N H4) as (ej & src & ice & I1 & I2 & I3 & I4).
  destruct (ejecta_sources (crat (r_i c)) (r_min c) (r_tol c) (length (r_names c)) time (map site_of df) dists lo hi Hlo Hhi Ld' Fd)
    as (at_ & ej' & src' & A1 & J1 & Je & Js & E).
  rewrite I1 in J1. assert (ej' = ej /\ src' = src) as [-> ->] by (split; congruence).
  exists df, k1, at_. split; [auto|]. split; [eapply list_names; eauto|]. split; [eapply list_from_lines; eauto|]. split; [auto|]. intros j n Hj.
  destruct (F j n Hj) as (dst & s & layers & F1 & F2 & F3 & F4 & F5 & F6 & F7).
  destruct (I4 j n Hj) as (x & y & z & X1 & X2 & X3 & X4).
  destruct (update_times_at _ _ _ _ _ _ n j _ _ _ _ _ N Hj H6 X4) as (h & ice' & _ & _ & U).
  rewrite F3 in U. cbn [s_ej s_src] in U. assert (s_ej s = y) as Ey.
  { assert (Q : forall a b : @strat R, Ok a = Ok b -> a = b) by congruence. apply Q in U. rewrite U. reflexivity. }
  rewrite Ey in F7. exists dst, y. split; [auto|]. split; [auto|]. split; [auto|].
  destruct (column_nth _ _ _ X2) as [Ly Ny]. split; [congruence|]. intros i Hi.
  assert (Lj : (j < length (r_names c))%nat) by (apply nth_error_Some; congruence).
  destruct (E i j Hi Lj) as (ej_i & src_i & B1 & B2 & B3 & B4 & B5 & _). cbv zeta in B5.
  specialize (Ny i). rewrite B1 in Ny. destruct Ny as (v & V1 & V2). rewrite V2. rewrite <- V1, B5. f_equal.
  (* the rows of the distance table *)
  assert (Hd : forall i0 r, nth_error df i0 = Some r -> exists row, nth_error dists i0 = Some row /\
     mapM (coldtrap_dist (r_ejthr c) (r_basinthr c) (map site_of df) (site_of r)) (r_names c) = Ok row).
  { intros i0 r Hr. unfold get_coldtrap_dists in H3. destruct (mapM_nth _ _ _ H3) as [_ M].
    destruct (M i0 (site_of r)) as (row & Hrow & Em); [now rewrite nth_error_map, Hr|]. eauto. }
  set (f := fun r => match mapM (coldtrap_dist (r_ejthr c) (r_basinthr c) (map site_of df) (site_of r)) (r_names c) with
                     | Ok row => row | Err _ => [] end).
  rewrite (combine_dists f); [|intros i0 r Hr; destruct (Hd i0 r Hr) as (row & Hrow & Em); unfold f; rewrite Em; exact Hrow|auto].
  rewrite filter_map_comm, map_map. f_equal.
  assert (Q : forall l, incl l df -> map (fun x0 => get_ejecta_thickness (crat (r_i c)) (nth j (snd (site_of x0, f x0)) None) (s_rad (fst (site_of x0, f x0)))) l
               = map (ejecta_at c dst) l).
  { intros l Hl. apply map_ext_in. intros r Hr. apply Hl in Hr. cbn [fst snd]. apply In_nth_error in Hr as [i0 Hi0].
    destruct (Hd i0 r Hi0) as (row & _ & Em). unfold f. rewrite Em.
    destruct (mapM_nth _ _ _ Em) as [_ M]. destruct (M j n Hj) as (o & Ho & Eo).
    rewrite (nth_error_nth row j None Ho).
    assert (Fu : filter (fun r0 => String.eqb (s_name r0) n) (map site_of df) = [site_of dst]).
    { rewrite <- F2. apply (filter_name_nodup (map site_of df) (site_of dst)); [rewrite site_names; exact Nd|now apply in_map]. }
    assert (R0 : 0 <= s_rad (site_of r)).
    { rewrite Forall_forall in HR. apply HR. apply in_map. eapply nth_error_In; eauto. }
    unfold ejecta_at. unfold coldtrap_dist in Eo. rewrite Fu in Eo. cbn [site_of s_name s_lon s_lat s_plon s_plat s_rad s_basin] in *.
    rewrite F2. cbv zeta. destruct (String.eqb _ n); [assert (o = None) by congruence; subst o; apply thick_none|].
    unfold default_rp in Eo. set (d := gc_dist 1737400 _ _ _ _) in *. unfold below_limit, ej_limit in Eo.
    cbn [site_of s_basin s_rad] in Eo. set (reach := if d_basin (c_rest r) then r_basinthr c else r_ejthr c) in *. cbv zeta in Eo.
    destruct (Rltb (d_rad (c_rest r)) d) eqn:Er; cbn [andb] in *; [|assert (o = None) by congruence; subst o; apply thick_none].
    apply Rltb_true in Er. assert (Z : Rleb d 0 = false) by (apply Rleb_false; lra). rewrite Z in Eo.
    destruct (Rltb reach 0); cbn [orb] in *; [assert (o = Some d) by congruence; subst o; reflexivity|].
    destruct (Rltb d _); [assert (o = Some d) by congruence; subst o; reflexivity|assert (o = None) by congruence; subst o; apply thick_none]. }
  apply Q. intros r Hr. apply filter_In in Hr. tauto.
Qed.

Lemma main_time c ppf sort craters basins u k out k' :
  main c ppf sort craters basins u k = Ok (out, k') ->
  get_time_array (r_rnd c) (r_start c) (r_end c) (r_step c) = Ok (o_time out).
Proof.
  intros H. apply main_ok in H as (time & df & k1 & dists & d0 & bd & bf & d1 & H1 & _ & _ & _ & _ & _ & H7).
  rewrite H1. f_equal. unfold format_csv_outputs in H7. destruct (ages_of _ _); [|discriminate]. cbn [bind] in H7.
  destruct (mapM _ _) in H7; [|discriminate]. cbn [bind] in H7.
  assert (Q : forall a b : outputs, Ok a = Ok b -> a = b) by congruence. apply Q in H7. rewrite <- H7. reflexivity.
Qed.

Lemma linspace_between a b n x : b <= a -> In x (linspace a b n) -> b <= x <= a.
Proof.
  intros H Hx. unfold linspace in Hx. destruct n as [|[|n]]; [destruct Hx|destruct Hx as [<-|[]]; lra|].
  apply in_map_iff in Hx as (i & <- & Hi). apply in_seq in Hi.
  assert (Z : 0 < INR (S (S n)) - 1) by (rewrite S_INR; pose proof (lt_0_INR (S n)); assert (0 < INR (S n)) by (apply lt_0_INR; lia); lra).
  assert (Hi0 : 0 <= INR i) by apply pos_INR.
  assert (Hi1 : INR i <= INR (S (S n)) - 1).
  { rewrite S_INR. assert (INR i <= INR (S n)) by (apply le_INR; lia). lra. }
  assert (Q : 0 <= INR i / (INR (S (S n)) - 1) <= 1).
  { split; [apply Rmult_le_pos; [lra|left; apply Rinv_0_lt_compat; lra]|]. apply Rmult_le_reg_r with (INR (S (S n)) - 1); [lra|].
    unfold Rdiv. rewrite Rmult_assoc, Rinv_l, Rmult_1_r, Rmult_1_l; lra. }
  set (q := INR i / _) in *. 
  match goal with |- _ <= ?e <= _ => assert (e = a + q * (b - a)) as -> end; [unfold q; field; lra|]. nra.
Qed.

(** With exact numbers the axis runs from timestart down to one timestep. *)
Lemma time_bounds ts te st l : (0 < st)%Z -> (2 * st <= ts - te)%Z -> (st <= ts)%Z -> get_time_array (fun x => x) ts te st = Ok l ->
  is_min l (IZR st) /\ is_max l (IZR ts).
Proof.
  intros H1 H2 H3 H.
  assert (Q : (2 <= (ts - te) ÷ st)%Z) by (rewrite Z.quot_div_nonneg by lia; apply Z.div_le_lower_bound; lia).
  pose proof (time_array_count _ _ _ _ _ H) as (_ & _ & L).
  destruct (time_array_ends _ _ _ _ H ltac:(lia)) as [A B].
  assert (K : forall t, In t l -> IZR st <= t <= IZR ts).
  { intros t Ht. unfold get_time_array in H. destruct (Z.eqb_spec st 0); [lia|]. cbv zeta in H.
    destruct (Z.ltb_spec ((ts - te) ÷ st) 0); [lia|].
    assert (E : l = map (fun x => x) (linspace (IZR ts) (IZR st) (Z.to_nat ((ts - te) ÷ st)))) by congruence.
    rewrite E, map_id in Ht. apply linspace_between in Ht; auto. apply IZR_le. auto. }
  apply nth_error_In in A, B. split; split; auto; intros t Ht; apply K; auto.
Qed.

Lemma thick_basin_pos d r : 70000 <= r -> r <= d -> d + r / 8 < PI * 1737400 -> 0 < get_ejecta_thickness CFG0 (Some d) r.
Proof.
  intros L Hd Hb. unfold get_ejecta_thickness.
  assert (E : Rleb (complex2peakring CFG0 / 2) r = true) by (apply Rleb_true; cbn; lra).
  rewrite E. cbn [obind].
  destruct (f2t_range CFG0 (r * 2)) as [F1 F2]; try (cbn; lra).
  destruct (ej_basin_pos CFG0 d (final2transient CFG0 (r * 2) / 2)) as (x & -> & Hx); auto;
    cbn [rad_moon grav_moon impact_angle CFG0]; lra.
Qed.

Lemma Rsum_pos_in {A} (f : A -> R) l x : Forall (fun y => 0 <= f y) l -> In x l -> f x <= Rsum (map f l).
Proof.
  induction 1 as [|y l Hy Hl IH]; intros []; cbn [map]; rewrite Rsum_cons.
  - subst. assert (0 <= Rsum (map f l)); [|lra]. apply Rsum_nonneg, Forall_map. auto.
  - specialize (IH H). lra.
Qed.
