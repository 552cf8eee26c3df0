(** Random choices and stochastic ice: properties C34-C37, C56, C63, C64. *)
From Coq Require Import String List ZArith Reals Lia Lra Psatz Bool Sorted.
From Flocq Require Import Core.
From Verif Require Import Base Model_Time Model_Geo Model_Interp Model_Crater Model_Ice Model_Rng Spec_Ice
  Proofs_Base Proofs_Time Proofs_Geo Proofs_Interp Proofs_Crater Proofs_Scaling Proofs_Ice Proofs_Rng
  Proofs_FP Proofs_Stream Proofs_Neukum.
Import ListNotations.
Open Scope R_scope.

(** ** C34: basin impactor types *)

(** With comets on, no basin has both marks, for every random stream. *)
Theorem C34_exclusive : forall c n u k ms k',
  comets_on c = true -> draws u ->
  0 <= comet_ast_frac c <= 1 -> 0 <= ctype_frac c <= 1 -> 0 <= ctype_hydrated c <= 1 ->
  get_random_hydrated_basins c n u k = Ok (ms, k') ->
  length ms = n /\ Forall (fun m => ~ (fst m = true /\ snd m = true)) ms.
Proof.
  intros c n u k ms k' Hc Hu H1 H2 H3 H. unfold get_random_hydrated_basins, rbind, random, ret in H.
  cbn [bind] in H. injection H as <- <-. rewrite !map_length, seq_length. split; auto.
  apply Forall_forall. intros m Hm. rewrite map_map in Hm. apply in_map_iff in Hm as (i & <- & _).
  apply marks_exclusive; auto.
Qed.

(** One label per basin; hyd_ctype only with basin ice on and a C-type mark, comet only
    with both flags on and a comet mark; exactly one draw per basin is used. *)
Theorem C34_labels : forall c n u k, exists ls ms,
  random_icy_basins c n u k = Ok (ls, (k + n)%nat) /\
  get_random_hydrated_basins c n u k = Ok (ms, (k + n)%nat) /\
  length ls = n /\ length ms = n /\
  forall i l m, nth_error ls i = Some l -> nth_error ms i = Some m ->
    In l ["no"; "hyd_ctype"; "comet"]%string /\
    (l = "hyd_ctype"%string -> basins_on c = true /\ fst m = true) /\
    (l = "comet"%string -> basins_on c = true /\ comets_on c = true /\ snd m = true) /\
    (basins_on c = true -> comets_on c = true -> snd m = true -> l = "comet"%string) /\
    (basins_on c = true -> fst m = true -> snd m = false -> l = "hyd_ctype"%string).
Proof.
  intros c n u k. unfold random_icy_basins, get_random_hydrated_basins, rbind, random, ret. cbn [bind].
  eexists. eexists. split; [reflexivity|]. split; [reflexivity|]. rewrite !map_length, !seq_length.
  split; auto. split; auto. intros i l m Hl Hm. rewrite nth_error_map, Hm in Hl. cbn [option_map] in Hl.
  injection Hl as <-. unfold icy_label.
  destruct (basins_on c), (comets_on c), m as [[] []]; cbn; repeat split; auto 10; discriminate.
Qed.

Example C34_case : exists ms,
  get_random_hydrated_basins ICFG0 2 (fun i => match i with O => 1 / 10 | _ => 98 / 100 end) 0%nat = Ok (ms, 2%nat) /\
  ms = [(true, false); (false, true)].
Proof.
  eexists. split; [reflexivity|]. cbn [map seq]. unfold basin_marks. cbn [comets_on comet_ast_frac ctype_frac ctype_hydrated ICFG0].
  f_equal; [|f_equal]; f_equal;
    (apply Rltb_true || apply Rltb_false); lra.
Qed.

(** ** C35: probabilistic rounding *)

Theorem C35_rounding : forall x u, 0 <= u < 1 ->
  let f := Int_part x in let frac := x - IZR f in
  (round_one x u = f \/ round_one x u = (f + 1)%Z) /\
  (round_one x u = (f + 1)%Z <-> 1 - frac <= u) /\
  (forall z, x = IZR z -> round_one x u = z).
Proof. exact round_one_spec. Qed.

(** Lifted to arrays: one draw per number. *)
Theorem C35_array : forall xs u k, exists ns,
  probabilistic_round xs u k = Ok (ns, (k + length xs)%nat) /\ length ns = length xs /\
  forall i x, nth_error xs i = Some x -> nth_error ns i = Some (round_one x (u (k + i)%nat)).
Proof.
  intros xs u k. unfold probabilistic_round, rbind, random, ret. cbn [bind]. eexists. split; [reflexivity|].
  rewrite map_length, combine_length, map_length, seq_length, Nat.min_id. split; auto.
  intros i x Hi. assert (Hl : (i < length xs)%nat) by (apply nth_error_Some; congruence).
  rewrite nth_error_map, (combine_nth_error _ _ i x (u (k + i)%nat)); auto.
  rewrite nth_error_map, (nth_error_nth' _ O) by (rewrite seq_length; auto). now rewrite seq_nth.
Qed.

(** In binary64 the largest draw below 1 rounds the integer 1 up to 2. *)
Theorem C35_binary64_refuted : exists (z : Z) u, 0 <= u < 1 /\ rnd64 u = u /\
  Int_part (rnd64 (IZR z + u)) <> z.
Proof.
  exists 1%Z, (1 - / 2 ^ 53). split; [lra|]. split.
  - unfold rnd64. apply round_generic; auto with typeclass_instances.
    apply generic_format_FLT. exists (Float radix2 9007199254740991 (-53)).
    + unfold F2R. cbn [Fnum Fexp]. simpl bpow. lra.
    + cbn. lia.
    + cbn. lia.
  - rewrite rnd64_half. rewrite (Int_part_unique 2 2); [discriminate|lra].
Qed.

Example C35_case : round_one (5 / 2) (1 / 4) = 2%Z /\ round_one (5 / 2) (3 / 4) = 3%Z.
Proof. split; apply Int_part_unique; lra. Qed.

(** ** C36: speeds *)

(** For every random stream: as many speeds as asked for; asteroids never slower than
    the escape velocity, comets within the two supports. *)
Theorem C36_supports : forall c ppf n u k,
  ppf_support ppf -> speeds_sane c -> draws u ->
  exists vs k', get_random_impactor_speeds c ppf n u k = Ok (vs, k') /\ length vs = n /\
    Forall (fun v =>
      (is_comet c = false -> escape_vel c <= v) /\
      (is_comet c = true ->
         jfc_mean c - comet_speed_min c <= v <= jfc_mean c + comet_speed_max c \/
         lpc_mean c - comet_speed_min c <= v <= lpc_mean c + comet_speed_max c)) vs.
Proof.
  intros c ppf n u k Hp Hs Hu. destruct (speeds_ok c ppf n Hp Hs u k Hu) as (vs & k' & E & HL & HF).
  exists vs, k'. repeat split; auto. eapply Forall_impl; [|exact HF]. unfold speed_ok. cbv beta.
  intros v Hv. destruct (is_comet c); split; intros; auto; discriminate.
Qed.

(** Comet speeds need not lie in [comet_speed_min, comet_speed_max]: with the default
    settings some stream gives a slower comet and some stream a faster one. *)
Theorem C36_comet_range_refuted : forall ppf, ppf_onto ppf ->
  (exists u v k', draws u /\
     get_random_impactor_speeds (get_comet_cfg ICFG0) ppf 1%nat u 0%nat = Ok ([v], k') /\ v < comet_speed_min ICFG0) /\
  (exists u v k', draws u /\
     get_random_impactor_speeds (get_comet_cfg ICFG0) ppf 1%nat u 0%nat = Ok ([v], k') /\ comet_speed_max ICFG0 < v).
Proof.
  intros ppf Hon.
  assert (H : forall x, - (10200) / 5000 < x < 72000 / 5000 -> exists u k', draws u /\
    get_random_impactor_speeds (get_comet_cfg ICFG0) ppf 1%nat u 0%nat = Ok ([20000 + 5000 * x], k')).
  { intros x Hx. destruct (Hon (- (10200) / 5000) (72000 / 5000) x Hx) as (d & Hd & Ed).
    exists (fun i => match i with 1%nat => d | _ => 0 end).
    assert (Hu : draws (fun i => match i with 1%nat => d | _ => 0 end)).
    { intros [|[|i]]; lra. }
    unfold get_random_impactor_speeds. change (is_comet (get_comet_cfg ICFG0)) with true. cbv iota.
    destruct (mixture_weights_ok 2 [jfc_frac (get_comet_cfg ICFG0); lpc_frac (get_comet_cfg ICFG0)])
      as (w & Ew & HLw & HFw & Hsw); [repeat constructor; cbn; lra|reflexivity|discriminate|].
    unfold rbind at 1, lift at 1. rewrite Ew. cbn [bind].
    destruct (mixture_rvs_spec [jfc_speed (get_comet_cfg ICFG0) ppf; lpc_speed (get_comet_cfg ICFG0) ppf] w 1%nat _ 0%nat Hu HLw)
      as (xs & E & HL & HN); auto.
    { eapply Forall_impl; [|exact HFw]. simpl; intros; lra. }
    eexists. split; auto. rewrite E. f_equal. f_equal. destruct xs as [|y [|? ?]]; try discriminate.
    destruct (HN 0%nat ltac:(lia)) as (ch & f & Hf & [Hc1 Hc2] & Hy).
    assert (ch = 0)%nat.
    { destruct ch as [|ch]; auto. exfalso. cbn [plus] in Hc1. destruct w as [|w0 w]; [discriminate|].
      inversion HFw; subst. cbn [firstn] in Hc1. rewrite Rsum_cons in Hc1.
      assert (0 <= Rsum (firstn ch w)).
      { apply Rsum_nonneg. apply Forall_forall. intros z Hz. rewrite Forall_forall in H2.
        assert (In z w) by (rewrite <- (firstn_skipn ch w); apply in_or_app; now left).
        specialize (H2 z H). lra. }
      lra. }
    subst ch. cbn [nth_error] in Hf, Hy. injection Hf as <-. injection Hy as ->.
    cbn [Nat.add Nat.mul]. unfold jfc_speed. cbv zeta.
    cbn [comet_speed_min comet_speed_max jfc_mean jfc_sd get_comet_cfg ICFG0]. now rewrite Ed. }
  split.
  - destruct (H (- 202 / 100)) as (u & k' & Hu & E); [lra|]. exists u. eexists. exists k'. split; auto. split; [exact E|].
    cbn [comet_speed_min ICFG0]. lra.
  - destruct (H 14) as (u & k' & Hu & E); [lra|]. exists u. eexists. exists k'. split; auto. split; [exact E|].
    cbn [comet_speed_max ICFG0]. lra.
Qed.

(** The hypotheses can be met. *)
Example C36_case : ppf_support lin_ppf /\ ppf_onto lin_ppf /\ speeds_sane ICFG0 /\ draws (fun _ => 1 / 2).
Proof. split; [exact lin_support|]. split; [exact lin_onto|]. split; [exact icfg0_speeds|]. intros i. lra. Qed.

(** ** C37: mixtures *)

Theorem C37_weights : forall nsub w,
  (mixture_weights nsub (Some w) = Err ValueError <-> length w <> nsub) /\
  (w <> [] -> Forall (fun x => 0 < x) w -> length w = nsub ->
     exists w', mixture_weights nsub (Some w) = Ok w' /\ length w' = nsub /\
       Forall (fun x => 0 < x) w' /\ Rsum w' = 1 /\
       forall i j a b a' b', nth_error w i = Some a -> nth_error w j = Some b ->
         nth_error w' i = Some a' -> nth_error w' j = Some b' -> a' * b = a * b').
Proof.
  intros nsub w. split.
  - unfold mixture_weights. destruct (Nat.eqb_spec (length w) nsub); split; intros; congruence.
  - intros Hn HF HL. destruct (mixture_weights_ok nsub w HF HL Hn) as (w' & E & A & B & C).
    exists w'. repeat split; auto. intros i j a b a' b' Ha Hb Ha' Hb'. unfold mixture_weights in E.
    rewrite HL, Nat.eqb_refl in E. injection E as <-. rewrite nth_error_map in Ha', Hb'.
    rewrite Ha in Ha'. rewrite Hb in Hb'. cbn [option_map] in *. injection Ha' as <-. injection Hb' as <-.
    unfold Rdiv. ring.
Qed.

(** No weights given: equal weights. *)
Theorem C37_default_weights : forall nsub, (0 < nsub)%nat ->
  mixture_weights nsub None = Ok (repeat (1 / INR nsub) nsub).
Proof.
  intros nsub H. unfold mixture_weights. rewrite repeat_length, Nat.eqb_refl. f_equal.
  assert (E : forall n, Rsum (repeat 1 n) = INR n).
  { induction n as [|n IH]; [reflexivity|]. cbn [repeat]. rewrite Rsum_cons, IH, S_INR. lra. }
  rewrite E. clear E. generalize (INR nsub). intros r. induction nsub as [|n IH]; [reflexivity|].
  destruct n; [reflexivity|]. cbn [repeat map]. f_equal. apply IH. lia.
Qed.

(** The distribution function of the mixture, from those of the submodels at a point. *)
Theorem C37_cdf : forall w cdfs cdfs' sfs,
  length cdfs = length w -> Forall (fun x => 0 <= x) w -> Rsum w = 1 ->
  Forall (fun p => 0 <= p <= 1) cdfs -> Forall2 Rle cdfs cdfs' ->
  Forall2 (fun p q => p + q = 1) cdfs sfs ->
  0 <= weighted_sum w cdfs <= 1 /\ weighted_sum w cdfs <= weighted_sum w cdfs' /\
  weighted_sum w cdfs + weighted_sum w sfs = 1.
Proof.
  intros w cdfs cdfs' sfs HL Hw Hs Hp Hm Hc. split; [|split].
  - pose proof (weighted_range cdfs w 0 1 HL Hw Hp). lra.
  - now apply weighted_mono.
  - now apply weighted_compl.
Qed.

(** Each sample is a sample of one submodel; submodel [ch] is used exactly for the
    draws in an interval of length its weight; every sample has its own draws. *)
Theorem C37_samples : forall subs w n u k,
  draws u -> length w = length subs -> Forall (fun y => 0 <= y) w -> Rsum w = 1 ->
  exists xs, mixture_rvs subs w n u k = Ok (xs, (k + n + length subs * n)%nat) /\ length xs = n /\
    forall i, (i < n)%nat ->
      exists ch f, nth_error subs ch = Some f /\
        Rsum (firstn ch w) <= u (k + i)%nat < Rsum (firstn (S ch) w) /\
        nth_error xs i = Some (f (u (k + n + ch * n + i)%nat)).
Proof. exact mixture_rvs_spec. Qed.

Example C37_case : exists w, mixture_weights 2 (Some [875 / 1000; 125 / 1000]) = Ok w /\ Rsum w = 1 /\
  weighted_sum w [1; 0] = 875 / 1000.
Proof.
  destruct (C37_weights 2 [875 / 1000; 125 / 1000]) as [_ H].
  destruct H as (w & E & HL & HF & Hs & HR); [discriminate|repeat constructor; lra|reflexivity|].
  exists w. split; auto. split; auto. destruct w as [|a [|b [|? ?]]]; try discriminate.
  specialize (HR 0%nat 1%nat _ _ _ _ eq_refl eq_refl eq_refl eq_refl).
  unfold Rsum in Hs. cbn [fold_right] in Hs. unfold weighted_sum, dotsum, Rsum. cbn [combine map fold_right]. lra.
Qed.

(** ** C64: weighted choice *)

(** [rng.choice] with probabilities: element [i] is chosen exactly for draws between
    the [i]-th and next cumulative probability. *)
Theorem C64_choice : forall (A : Type) (pool : list A) n p u k,
  draws u -> pool <> [] -> length p = length pool -> Forall (fun y => 0 <= y) p -> Rsum p = 1 ->
  (0 <= n)%Z ->
  exists ds, choice pool n p u k = Ok (ds, (k + Z.to_nat n)%nat) /\ length ds = Z.to_nat n /\
    forall i d, nth_error ds i = Some d ->
      exists j, nth_error pool j = Some d /\ Rsum (firstn j p) <= u (k + i)%nat < Rsum (firstn (S j) p).
Proof.
  intros A pool n p u k Hu Hp HL HF Hs Hn.
  destruct (choice_ok pool n p Hn Hp HL HF Hs u k Hu) as (ds & k' & E & Hlen & _).
  assert (E1' : rbind (random (Z.to_nat n)) (fun us => lift (mapM (fun x => get pool (choice_idx p x)) us)) u k
               = Ok (ds, k')).
  { unfold choice in E. destruct (Z.ltb_spec n 0) as [|_]; [lia|]. destruct pool; [congruence|exact E]. }
  unfold rbind, random, lift in E1'. cbn [bind] in E1'.
  destruct (mapM (fun x => get pool (choice_idx p x)) (map u (seq k (Z.to_nat n)))) as [ds'|] eqn:Em; [|discriminate].
  cbn [bind] in E1'. injection E1' as <- <-. exists ds'.
  split; [exact E|]. split; auto. intros i d Hd.
  destruct (mapM_nth _ _ _ Em) as [HLm HNm].
  assert (Hi : (i < Z.to_nat n)%nat).
  { rewrite map_length, seq_length in HLm. rewrite <- HLm. apply nth_error_Some. congruence. }
  destruct (HNm i (u (k + i)%nat)) as (d' & Hd' & Hg).
  { rewrite nth_error_map, (nth_error_nth' _ O) by (rewrite seq_length; auto). now rewrite seq_nth. }
  rewrite Hd in Hd'. injection Hd' as <-. exists (choice_idx p (u (k + i)%nat)).
  unfold get in Hg. destruct (nth_error pool (choice_idx p (u (k + i)%nat))) eqn:Eg; [|discriminate].
  injection Hg as <-. split; auto. apply choice_idx_spec; auto.
Qed.
Example C64_case : choice ["a"; "b"; "c"]%string 1 [2 / 10; 3 / 10; 5 / 10] (fun _ => 4 / 10) 0%nat = Ok (["b"%string], 1%nat).
Proof.
  destruct (C64_choice string ["a"; "b"; "c"]%string 1 [2 / 10; 3 / 10; 5 / 10] (fun _ => 4 / 10) 0%nat)
    as (ds & E & HL & H).
  - intros i. lra.
  - discriminate.
  - reflexivity.
  - repeat constructor; lra.
  - unfold Rsum. cbn [fold_right]. lra.
  - lia.
  - rewrite E. destruct ds as [|d [|? ?]]; try discriminate. f_equal. f_equal. f_equal.
    destruct (H 0%nat d eq_refl) as (j & Hj & Hb). unfold Rsum in Hb.
    destruct j as [|[|[|j]]]; cbn [firstn fold_right nth_error] in *; try (exfalso; lra); try congruence.
    destruct j; discriminate.
Qed.

(** ** C56: the random stream and the basin flag *)

(** Same seed, same positions; the asteroid pass with basin ice on ends later on the
    stream by the number of hydrated C-type basins, so the comet pass that follows reads
    other random numbers (its position is not kept "for repro").  The part of the
    asteroid ice that is not from basins is the same. *)
Theorem C56_stream_refuted : forall c ppf tol df_on df_off time u k a_on k_on a_off k_off,
  is_comet c = false -> basins_on c = true ->
  Forall (fun b => i_icy b = "no"%string) df_off ->
  get_impact_ice c ppf tol df_on time u k = Ok (a_on, k_on) ->
  get_impact_ice (with_flags c (comets_on c) false) ppf tol df_off time u k = Ok (a_off, k_off) ->
  k_on = (k_off + length (filter (is_icy "hyd_ctype") df_on))%nat /\
  exists b, a_on = vadd a_off b.
Proof. exact basins_flag_stream. Qed.

(** The marks themselves use the same number of draws whatever the flags, and with basin
    ice off every mark is "no". *)
Theorem C56_marks_off : forall c n u k, basins_on c = false ->
  random_icy_basins c n u k = Ok (repeat "no"%string n, (k + n)%nat).
Proof.
  intros c n u k H. unfold random_icy_basins, get_random_hydrated_basins, rbind, random, ret. cbn [bind].
  f_equal. f_equal. rewrite !map_map. unfold icy_label. rewrite H. generalize k.
  induction n as [|n IH]; intros k0; [reflexivity|]. cbn [seq map repeat]. f_equal. apply IH.
Qed.

(** ** C63: ice delivery never fails and is never negative *)

(** For every random stream, any list of craters and basins and any non-empty time axis:
    a meaningful configuration gives one row per time and one non-negative thickness per
    cold trap. *)
Theorem C63_total_nonnegative : forall c ppf tol table bhop names df time u k,
  sane c -> sun_sane c table -> volc_sane c -> ppf_support ppf -> draws u -> time <> [] ->
  (hop_moores c = true -> forall n, In n names -> exists h, bhop n = Some h /\ 0 <= h) ->
  exists rows k', get_ice_cols_time c ppf tol table bhop names df time u k = Ok (rows, k') /\
    length rows = length time /\
    Forall (fun row => length row = length names /\ Forall (fun x => 0 <= x) row) rows.
Proof.
  intros c ppf tol table bhop names df time u k Hs Hsun Hv Hp Hu Hn Hb.
  destruct (ice_cols_ok c ppf tol table bhop names df time Hs Hsun Hv Hp Hn Hb u k Hu) as (rows & k' & E & HL & HF).
  exists rows, k'. auto.
Qed.

(** The default configuration is meaningful, so the default run is covered. *)
Theorem C63_default_sane : sane ICFG0 /\ volc_sane ICFG0 /\
  forall table, table <> [] -> ages_increasing table -> Forall (fun r => 0 <= snd r) table ->
    sun_sane ICFG0 table.
Proof.
  split; [exact sane_default|]. split.
  - unfold volc_sane. cbn [volc_mode volc_total_vol volc_magma_density volc_ice_ppm volc_early_pct volc_late_pct volc_dep_effcy ICFG0].
    split; [reflexivity|lra].
  - intros table H1 H2 H3 _. split; auto. left. apply (lower_iff "Benna" "benna"); [|reflexivity].
    repeat constructor; unfold not_upper; cbn; lia.
Qed.

Example C63_case : exists rows k',
  get_ice_cols_time ICFG0 lin_ppf (1 / 1000000) [(0, 7 / 10); (457 / 100, 1)] (fun _ => Some (54 / 1000))
    ["Haworth"]%string
    [mk_impact 20000 3000000000 false "no"; mk_impact 500000 4000000000 true "comet"]
    [4250000000; 10000000] (fun _ => 1 / 2) 0%nat = Ok (rows, k') /\ length rows = 2%nat.
Proof.
  destruct C63_default_sane as (A & B & C).
  destruct (C63_total_nonnegative ICFG0 lin_ppf (1 / 1000000) [(0, 7 / 10); (457 / 100, 1)] (fun _ => Some (54 / 1000))
    ["Haworth"]%string
    [mk_impact 20000 3000000000 false "no"; mk_impact 500000 4000000000 true "comet"]
    [4250000000; 10000000] (fun _ => 1 / 2) 0%nat) as (rows & k' & E & HL & _); auto.
  - apply C; [discriminate| |].
    + repeat constructor. cbn. lra.
    + repeat constructor; cbn; lra.
  - exact lin_support.
  - intros i. lra.
  - discriminate.
  - intros _ n _. exists (54 / 1000). split; auto. lra.
  - exists rows, k'. auto.
Qed.

(** C56 is not vacuous: with the default configuration both passes succeed, and the
    one with basin ice on reads one more random number. *)
Example C56_case : exists a_on a_off k_off,
  get_impact_ice ICFG0 lin_ppf (1 / 1000000) [mk_impact 500000 4000000000 true "hyd_ctype"]
    [4250000000; 10000000] (fun _ => 1 / 2) 0%nat = Ok (a_on, S k_off) /\
  get_impact_ice (with_flags ICFG0 true false) lin_ppf (1 / 1000000) [mk_impact 500000 4000000000 true "no"]
    [4250000000; 10000000] (fun _ => 1 / 2) 0%nat = Ok (a_off, k_off).
Proof.
  assert (Hu : draws (fun _ => 1 / 2)) by (intros i; lra).
  destruct (impact_ice_ok ICFG0 lin_ppf (1 / 1000000) [mk_impact 500000 4000000000 true "hyd_ctype"]
    [4250000000; 10000000] sane_default lin_support ltac:(discriminate) _ 0%nat Hu) as (a & k1 & E1' & _).
  assert (Hs : sane (with_flags ICFG0 true false)).
  { pose proof sane_default as []. constructor; auto. }
  destruct (impact_ice_ok (with_flags ICFG0 true false) lin_ppf (1 / 1000000) [mk_impact 500000 4000000000 true "no"]
    [4250000000; 10000000] Hs lin_support ltac:(discriminate) _ 0%nat Hu) as (b & k2 & E2' & _).
  exists a, b, k2. split; auto.
  destruct (C56_stream_refuted ICFG0 lin_ppf (1 / 1000000) [mk_impact 500000 4000000000 true "hyd_ctype"]
    [mk_impact 500000 4000000000 true "no"] [4250000000; 10000000] (fun _ => 1 / 2) 0%nat a k1 b k2) as [Hk _]; auto.
  rewrite E1'. f_equal. f_equal. rewrite Hk. cbn. lia.
Qed.

(** ** C66: which sources the ice at the pole consists of *)

(** Each part is computed in a fixed order from the random stream; the comet pass is added
    only with impact_ice_comets, the basin part only with impact_ice_basins. *)
Theorem C66_polar_sources : forall c ppf tol table df time u k out k',
  get_polar_ice c ppf tol table df time u k = Ok (out, k') ->
  exists imp k1 com sw,
    get_impact_ice c ppf tol df time u k = Ok (imp, k1) /\
    get_impact_ice (get_comet_cfg c) ppf tol df time u k1 = Ok (com, k') /\
    get_solar_wind_ice c table time = Ok sw /\
    forall i x y z, nth_error imp i = Some x -> nth_error com i = Some y -> nth_error sw i = Some z ->
      nth_error out i = Some (x + (if comets_on c then y else 0) + z).
Proof. exact polar_sources. Qed.

Theorem C66_impact_sources : forall c ppf tol df time u k out k',
  get_impact_ice c ppf tol df time u k = Ok (out, k') ->
  exists mm si ssc lsc k1 cc k2 b,
    get_micrometeorite_ice c time = Ok mm /\ get_small_impactor_ice c time = Ok si /\
    get_small_simple_crater_ice c time = Ok ssc /\
    get_stochastic_thickness c ppf time "d" u k = Ok (lsc, k1) /\
    get_stochastic_thickness c ppf time "e" u k1 = Ok (cc, k2) /\
    get_basin_ice c ppf tol df time u k2 = Ok (b, k') /\
    forall i x1 x2 x3 x4 x5 x6, (i < length time)%nat ->
      nth_error mm i = Some x1 -> nth_error si i = Some x2 -> nth_error ssc i = Some x3 ->
      nth_error lsc i = Some x4 -> nth_error cc i = Some x5 -> nth_error b i = Some x6 ->
      nth_error out i = Some (x1 + x2 + x3 + x4 + x5 + (if basins_on c then x6 else 0)).
Proof. exact impact_sources. Qed.

(** Such runs exist: with the default configuration every run succeeds. *)
Example C66_case : exists out k',
  get_impact_ice ICFG0 lin_ppf (1 / 1000000) [mk_impact 500000 4000000000 true "hyd_ctype"]
    [4250000000; 10000000] (fun _ => 1 / 2) 0%nat = Ok (out, k') /\ length out = 2%nat.
Proof.
  assert (Hu : draws (fun _ => 1 / 2)) by (intros i; lra).
  destruct (impact_ice_ok ICFG0 lin_ppf (1 / 1000000) [mk_impact 500000 4000000000 true "hyd_ctype"]
    [4250000000; 10000000] sane_default lin_support ltac:(discriminate) _ 0%nat Hu) as (a & k1 & E1' & L & _).
  eauto.
Qed.

Print Assumptions C66_polar_sources.
Print Assumptions C66_impact_sources.
Print Assumptions C34_exclusive.
Print Assumptions C34_labels.
Print Assumptions C35_rounding.
Print Assumptions C35_array.
Print Assumptions C35_binary64_refuted.
Print Assumptions C36_supports.
Print Assumptions C36_comet_range_refuted.
Print Assumptions C37_weights.
Print Assumptions C37_default_weights.
Print Assumptions C37_cdf.
Print Assumptions C37_samples.
Print Assumptions C64_choice.
Print Assumptions C56_stream_refuted.
Print Assumptions C56_marks_off.
Print Assumptions C63_total_nonnegative.
Print Assumptions C63_default_sane.
