From Coq Require Import String List ZArith Reals Lia Lra Psatz Bool Permutation Sorted.
From Verif Require Import Base Model_Time Model_Geo Model_Interp Model_Crater Model_Ice Model_Rng Model_Strat Model_Melt Model_Main Model_Module
  Spec_Time Spec_Geo Spec_Ice Spec_Strat Spec_Melt Spec_Main Spec_Module
  Proofs_Base Proofs_Time Proofs_Geo Proofs_Ice Proofs_Rng Proofs_Melt Proofs_Bsed Proofs_Main.
Import ListNotations.
Open Scope R_scope.

(** ** Tables as functions *)
Definition tbl (names : list string) (L : nat) (f : string -> nat -> option R) : mtable :=
  map (fun n => (n, map (f n) (seq 0 L))) names.
Definition f_of (t : mtable) (n : string) (i : nat) : option R :=
  match tcol t n with Ok x => nth i x None | Err _ => None end.

Lemma tbl_ext names L f g : (forall n i, In n names -> (i < L)%nat -> f n i = g n i) -> tbl names L f = tbl names L g.
Proof.
  intros H. unfold tbl. apply map_ext_in. intros n Hn. f_equal. apply map_ext_in. intros i Hi. apply in_seq in Hi. apply H; auto. lia.
Qed.
Lemma tcol_tbl names L f n : In n names -> tcol (tbl names L f) n = Ok (map (f n) (seq 0 L)).
Proof.
  unfold tcol, tbl. induction names as [|m names IH]; [intros []|]. intros H. cbn [map find fst].
  destruct (String.eqb_spec m n) as [->|Ne]; auto. apply IH. destruct H; congruence.
Qed.
Lemma tbl_of t names L : map fst t = names -> NoDup names -> Forall (fun e => length (snd e) = L) t -> t = tbl names L (f_of t).
Proof.
  intros <- N F.
  enough (G : forall s, (forall n x, In (n, x) s -> In (n, x) t) -> s = tbl (map fst s) L (f_of t)) by (apply G; auto).
  induction s as [|[n x] s IH]; [reflexivity|]. intros H. cbn [map fst tbl]. f_equal; [|apply IH; intros; apply H; now right].
  f_equal. assert (I : In (n, x) t) by (apply H; now left).
  assert (T : tcol t n = Ok x).
  { clear -N I. unfold tcol. induction t as [|[m y] t IH]; [easy|]. cbn [find fst]. inversion N as [|? ? N1 N2]; subst. destruct I as [[= -> ->]|I].
    - now rewrite String.eqb_refl.
    - destruct (String.eqb_spec m n) as [->|_]; [|apply IH; auto].
      exfalso. apply N1. cbn [map fst]. apply in_map_iff. exists (n, x). auto. }
  rewrite Forall_forall in F. specialize (F _ I). cbn [snd] in F. subst L.
  unfold f_of. rewrite T. clear. induction x as [|a x IH]; [reflexivity|].
  cbn [length seq map nth]. f_equal. rewrite <- seq_shift, map_map. exact IH.
Qed.
Lemma zipw_map {A B C D} (g : A -> B -> C) (f1 : D -> A) (f2 : D -> B) l : zipw g (map f1 l) (map f2 l) = map (fun d => g (f1 d) (f2 d)) l.
Proof. unfold zipw. induction l; cbn; congruence. Qed.
Lemma tadd_tbl names L f g : tadd (tbl names L f) (tbl names L g) = tbl names L (fun n i => oadd (f n i) (g n i)).
Proof.
  unfold tadd, tbl. induction names as [|n names IH]; [reflexivity|]. cbn [map combine]. rewrite IH. f_equal. f_equal. apply zipw_map.
Qed.
Lemma tzero_tbl names L f : tzero (tbl names L f) = tbl names L (fun n i => option_map (fun v => v * 0) (f n i)).
Proof. unfold tzero, tbl. rewrite map_map. apply map_ext. intros n. now rewrite map_map. Qed.
Lemma tdiv_tbl m names L f : tdiv m (tbl names L f) =
  tbl names L (fun n i => match m with O => None | _ => option_map (fun v => v / INR m) (f n i) end).
Proof. unfold tdiv, tbl. rewrite map_map. apply map_ext. intros n. now rewrite map_map. Qed.
Lemma filter_tbl p names L f : filter (fun e => p (fst e)) (tbl names L f) = tbl (filter p names) L f.
Proof.
  unfold tbl. induction names as [|n names IH]; [reflexivity|]. cbn [map filter fst]. destruct (p n); cbn [map]; now rewrite IH.
Qed.
Lemma entry_tbl names L f n i x : In n names -> (i < L)%nat -> f n i = Some x -> entry (tbl names L f) n i x.
Proof.
  intros Hn Hi Hf. exists (map (f n) (seq 0 L)). split; [now apply tcol_tbl|].
  rewrite nth_error_map, nth_error_nth' with (d := 0%nat) by now rewrite seq_length. rewrite seq_nth by auto. cbn. now rewrite Hf.
Qed.
Lemma entry_unique t n i x y : entry t n i x -> entry t n i y -> x = y.
Proof. intros (l & A & B) (l' & C & D). rewrite A in C. injection C as <-. rewrite B in D. congruence. Qed.
Lemma f_of_entry t n i x : entry t n i x -> f_of t n i = Some x.
Proof. intros (l & A & B). unfold f_of. rewrite A. now apply nth_error_nth. Qed.

(** ** One table *)
Definition names11 : list string :=
  ["time"; "Volcanic ice"; "Solar wind ice"; "Micrometeorite ice"; "Small impactor ice"; "Small simple crater ice";
   "Large simple crater ice"; "Large complex crater ice"; "Basin ice"; "Gardening depth"; "Ballistic sed depth"]%string.
Lemma names11_nodup : NoDup names11.
Proof. repeat constructor; cbn; intuition discriminate. Qed.

Lemma bsed_some c time df dists : bsed_sane c -> time <> [] -> length dists = length df ->
  Forall (fun r => length r = length (r_names c)) dists ->
  (forall i j d, cell_is dists i j (Some d) -> 0 < d <= PI * 1737400) ->
  exists bd bf, get_bsed_depth (crat (r_i c)) (r_bsed c) (r_melt c) (r_min c) (r_tol c) (length (r_names c)) time df dists = Ok (bd, bf) /\
    length bd = length time /\ length bf = length time /\
    Forall (fun r => length r = length (r_names c) /\ Forall (fun o => o <> None) r) bd /\
    Forall (fun r => length r = length (r_names c) /\ Forall (fun o => o <> None) r) bf.
Proof.
  intros HB Ne HL HF HD. destruct (bsed_on (r_bsed c)) eqn:On.
  - destruct (HB On) as (G & V & Fl & Wm & W1 & W2). cbv zeta in *.
    assert (AW : all_within (r_melt c) (ejecta_temp (r_bsed c) (length (r_names c)) df) (get_mixing_ratio_oberbeck (r_bsed c) dists)).
    { intros i j temp mr Ht Hm. apply mix_cell in Hm as ([d|] & Hd & E); [|discriminate].
      cbn in E. injection E as ->. split; [eauto|]. apply temp_cell in Ht as (s & Hs & -> & _). unfold site_temp.
      destruct (s_basin s); auto. }
    pose proof (ejecta_temp_shape (r_bsed c) (length (r_names c)) df dists HL HF) as Sh.
    destruct (melt_range (r_melt c) _ _ 0 1 G Sh AW ltac:(lra) V) as (melt & Em & Sm & Rm).
    destruct (get_bsed_spec (crat (r_i c)) (r_bsed c) (r_melt c) (r_min c) (r_tol c) (length (r_names c)) time df dists melt On Ne HL HF Em Sm)
      as (bd & bf & E & L1 & L2 & F1 & F2 & Cells).
    exists bd, bf. split; [exact E|]. split; [exact L1|]. split; [exact L2|].
    split; apply Forall_forall; intros r Hr; apply In_nth_error in Hr as [k Hk].
    + split; [apply (Forall_nth_error _ _ _ _ F1 Hk)|]. apply Forall_forall. intros o Ho. apply In_nth_error in Ho as [j Hj].
      assert (Lk : (k < length time)%nat) by (rewrite <- L1; apply nth_error_Some; congruence).
      assert (Lj : (j < length (r_names c))%nat) by (rewrite <- (Forall_nth_error _ _ _ _ F1 Hk); apply nth_error_Some; congruence).
      destruct (Cells k j Lk Lj) as (here & mr & mf & _ & _ & _ & _ & (r1 & A & B) & _). rewrite Hk in A. injection A as <-. congruence.
    + split; [apply (Forall_nth_error _ _ _ _ F2 Hk)|]. apply Forall_forall. intros o Ho. apply In_nth_error in Ho as [j Hj].
      assert (Lk : (k < length time)%nat) by (rewrite <- L2; apply nth_error_Some; congruence).
      assert (Lj : (j < length (r_names c))%nat) by (rewrite <- (Forall_nth_error _ _ _ _ F2 Hk); apply nth_error_Some; congruence).
      destruct (Cells k j Lk Lj) as (here & mr & mf & _ & _ & _ & _ & _ & (r1 & A & B)). rewrite Hk in A. injection A as <-. congruence.
  - destruct (bsed_off (crat (r_i c)) (r_bsed c) (r_melt c) (r_min c) (r_tol c) (length (r_names c)) time df dists On) as (z & E & L & F).
    assert (F' : Forall (fun r => length r = length (r_names c) /\ Forall (fun o : option R => o <> None) r) z).
    { eapply Forall_impl; [|exact F]. intros r ->. split; [apply repeat_length|]. apply Forall_forall. intros o Ho.
      apply repeat_spec in Ho. now subst o. }
    exists z, z. auto.
Qed.

Lemma omul_some a b : Forall (fun o => o <> None) a -> Forall (fun o => o <> None) b ->
  Forall (fun o => o <> None) (zipw omul a b).
Proof.
  intros Ha. revert b. induction Ha as [|x a Hx Ha IH]; intros b Hb; [constructor|]. destruct Hb as [|y b Hy Hb]; [constructor|].
  cbn. constructor; [|apply IH; auto]. destruct x, y; cbn; congruence.
Qed.
Lemma osum_some l : Forall (fun o => o <> None) l -> exists s, osum l = Some s.
Proof.
  induction 1 as [|o l Ho Hl [s IH]]; [now exists 0|]. unfold osum in *. cbn [fold_right]. rewrite IH. destruct o as [x|]; [|congruence].
  cbn. eauto.
Qed.
Lemma omean_some l : l <> [] -> Forall (fun o => o <> None) l -> exists s, omean l = Some s.
Proof. intros Ne H. destruct (osum_some l H) as [s Hs]. unfold omean. rewrite Hs. destruct l; [congruence|]. cbn. eauto. Qed.

Lemma agg_bsed_ok c df time : bsed_sane c -> r_names c <> [] -> NoDup (names_of df) -> time <> [] ->
  exists x, get_agg_bsed_depth c df time = Ok (map Some x) /\ length x = length time.
Proof.
  intros Hb Nn Nd Ne. unfold get_agg_bsed_depth.
  destruct (dists_total (r_ejthr c) (r_basinthr c) (r_names c) (map site_of df) ltac:(rewrite site_names; exact Nd))
    as (dists & H3 & Ld & Fd & Rd). cbv zeta. rewrite H3. cbn [bind].
  destruct (bsed_some c time (map site_of df) dists Hb Ne Ld Fd Rd) as (bd & bf & H & L1 & L2 & F1 & F2). rewrite H. cbn [bind].
  assert (S : forall o, In o (map (fun '(d, f) => omean (zipw omul d f)) (combine bd bf)) -> exists s, o = Some s).
  { intros o Ho. apply in_map_iff in Ho as ([d f] & <- & Hin). rewrite Forall_forall in F1, F2.
    destruct (F1 d (in_combine_l _ _ _ _ Hin)) as [Lx Sx]. destruct (F2 f (in_combine_r _ _ _ _ Hin)) as [Ly Sy].
    apply omean_some; [|now apply omul_some]. clear -Nn Lx Ly. unfold zipw. destruct (r_names c), d, f; cbn in *; congruence. }
  assert (S' : exists x, map (fun '(d, f) => omean (zipw omul d f)) (combine bd bf) = map Some x).
  { clear -S. induction (map _ (combine bd bf)) as [|o l IH]; [now exists []|].
    destruct IH as [x IH]; [intros; apply S; now right|]. destruct (S o (or_introl eq_refl)) as [s ->]. exists (s :: x). cbn. now rewrite IH. }
  destruct S' as [x Hx]. rewrite Hx. exists x. split; auto.
  apply (f_equal (@length _)) in Hx. rewrite !map_length, combine_length in Hx. lia.
Qed.

(** The columns of one table, each with a number for each time. *)
Definition columns_of (c : rcfg) (time : list R) (t : mtable) (volc sw mm si ssc lsc cc b bs : list R) : Prop :=
  t = combine names11 (map (map Some) [time; volc; sw; mm; si; ssc; lsc; cc; b; overturn_depth_time (r_i c) time; bs]) /\
  Forall (good (length time)) [volc; sw; mm; si; ssc; lsc; cc; b] /\ length bs = length time /\
  get_volcanic_ice (r_i c) time = Ok volc /\ get_solar_wind_ice (r_i c) (r_lum c) time = Ok sw /\
  get_micrometeorite_ice (r_i c) time = Ok mm /\ get_small_impactor_ice (r_i c) time = Ok si /\
  get_small_simple_crater_ice (r_i c) time = Ok ssc.

Lemma overturn_length c time : length (overturn_depth_time c time) = length time.
Proof. unfold overturn_depth_time, overturn_depth_costello_time. destruct (costello c); now rewrite map_length. Qed.

Lemma module_ok own c ppf df time u k : ice_sane c -> bsed_sane c -> ppf_support ppf -> r_names c <> [] -> NoDup (names_of df) ->
  time <> [] -> draws u ->
  exists t k' volc sw mm si ssc lsc cc b bs, get_ice_by_module own c ppf df time u k = Ok (t, k') /\
    columns_of c time t volc sw mm si ssc lsc cc b bs /\
    (own = false -> exists k1 k2, get_stochastic_thickness (r_i c) ppf time "d" u k = Ok (lsc, k1) /\
       get_stochastic_thickness (r_i c) ppf time "e" u k1 = Ok (cc, k2) /\
       get_basin_ice (r_i c) ppf (r_tol c) (map impact_of df) time u k2 = Ok (b, k')).
Proof.
  intros [A B C D] Hb Hp Nn Nd Ne Hu.
  destruct (volc_ok (r_i c) time A C) as (volc & E1 & G1).
  destruct (solar_ok (r_i c) (r_lum c) time A B) as (sw & E2 & G2).
  destruct (micro_ok (r_i c) time A) as (mm & E3 & G3).
  destruct (small_imp_ok (r_i c) time A) as (si & E4 & G4).
  destruct (small_crater_ok (r_i c) time A) as (ssc & E5 & G5).
  pose proof (stochastic_ok (r_i c) ppf time "d" A Hp ltac:(simpl; auto)) as O1.
  pose proof (stochastic_ok (r_i c) ppf time "e" A Hp ltac:(simpl; auto)) as O2.
  pose proof (basin_ok (r_i c) ppf (r_tol c) (map impact_of df) time A Hp Ne) as O3.
  destruct (agg_bsed_ok c df time Hb Nn Nd Ne) as (bs & E9 & L9).
  assert (Fin : exists lsc k1 cc k2 b k3, call own (get_stochastic_thickness (r_i c) ppf time "d") u k = Ok (lsc, k1) /\
      call own (get_stochastic_thickness (r_i c) ppf time "e") u k1 = Ok (cc, k2) /\
      call own (get_basin_ice (r_i c) ppf (r_tol c) (map impact_of df) time) u k2 = Ok (b, k3) /\
      good (length time) lsc /\ good (length time) cc /\ good (length time) b).
  { destruct own; cbn [call].
    - destruct (O1 u 0%nat Hu) as (lsc & q1 & -> & ?). destruct (O2 u 0%nat Hu) as (cc & q2 & -> & ?).
      destruct (O3 u 0%nat Hu) as (b & q3 & -> & ?). cbn [bind]. exists lsc, k, cc, k, b, k. auto 10.
    - destruct (O1 u k Hu) as (lsc & q1 & -> & ?). destruct (O2 u q1 Hu) as (cc & q2 & E & ?).
      destruct (O3 u q2 Hu) as (b & q3 & E' & ?). exists lsc, q1, cc, q2, b, q3. auto 10. }
  destruct Fin as (lsc & k1 & cc & k2 & b & k3 & F1 & F2 & F3 & G6 & G7 & G8).
  exists (combine names11 (map (map Some) [time; volc; sw; mm; si; ssc; lsc; cc; b; overturn_depth_time (r_i c) time; bs])), k3,
    volc, sw, mm, si, ssc, lsc, cc, b, bs.
  split; [|split].
  - unfold get_ice_by_module, rbind, lift, ret. rewrite E1, E2, E3, E4, E5. cbn [bind]. rewrite F1. cbn [bind]. rewrite F2. cbn [bind].
    rewrite F3. cbn [bind]. rewrite E9. reflexivity.
  - split; [reflexivity|]. split; [|auto 10]. repeat (constructor; [assumption|]). constructor.
  - intros ->. exists k1, k2. auto.
Qed.

(** A column of such a table. *)
Lemma columns_tbl c time t volc sw mm si ssc lsc cc b bs : columns_of c time t volc sw mm si ssc lsc cc b bs ->
  exists g, t = tbl names11 (length time) (fun n i => Some (g n i)) /\
    (forall n l, In (n, l) (combine names11 [time; volc; sw; mm; si; ssc; lsc; cc; b; overturn_depth_time (r_i c) time; bs]) ->
       forall i, (i < length time)%nat -> nth_error l i = Some (g n i)).
Proof.
  intros (-> & G & Lb & _). set (cols := [time; volc; sw; mm; si; ssc; lsc; cc; b; overturn_depth_time (r_i c) time; bs]).
  assert (Ls : Forall (fun l => length l = length time) cols).
  { repeat (inversion G as [|? ? [? _] G']; subst; clear G; rename G' into G). unfold cols. pose proof (overturn_length (r_i c) time).
    repeat (constructor; [assumption || reflexivity|]). constructor. }
  set (g := fun n i => match find (fun e => String.eqb (fst e) n) (combine names11 cols) with Some (_, l) => nth i l 0 | None => 0 end).
  exists g. assert (Hg : forall n l, In (n, l) (combine names11 cols) -> forall i, g n i = nth i l 0).
  { intros n l H i. unfold g. enough (T : find (fun e => String.eqb (fst e) n) (combine names11 cols) = Some (n, l)) by now rewrite T.
    clear -H. pose proof names11_nodup as N. revert H. generalize cols. induction names11 as [|m names IH]; [easy|].
    intros [|x cs]; [easy|]. cbn [combine find fst]. inversion N as [|? ? N1 N2]; subst. intros [[= -> ->]|H].
    - now rewrite String.eqb_refl.
    - destruct (String.eqb_spec m n) as [->|_]; [|now apply IH]. exfalso. apply N1. now apply in_combine_l in H. }
  rewrite Forall_forall in Ls.
  split.
  - unfold tbl.
    assert (W : forall s, (forall n l, In (n, l) s -> In (n, l) (combine names11 cols)) ->
      map (fun e => (fst e, map Some (snd e))) s = map (fun n => (n, map (fun i => Some (g n i)) (seq 0 (length time)))) (map fst s)).
    { induction s as [|[n l] s IH]; [reflexivity|]. intros H. cbn [map fst snd]. f_equal; [|apply IH; intros; apply H; now right].
      f_equal. assert (I := H n l (or_introl eq_refl)). rewrite <- (Ls l (in_combine_r _ _ _ _ I)).
      rewrite (map_ext _ (fun i => Some (nth i l 0))) by (intros i; now rewrite (Hg n l I)).
      clear. induction l as [|a l IH]; [reflexivity|]. cbn [length seq map nth]. f_equal. rewrite <- seq_shift, map_map. exact IH. }
    specialize (W (combine names11 cols) ltac:(auto)). exact W.
  - intros n l H i Hi. rewrite (Hg n l H). apply nth_error_nth'. rewrite (Ls l (in_combine_r _ _ _ _ H)). exact Hi.
Qed.

Lemma comet_sane c : ice_sane c -> ice_sane (comet_run c).
Proof. intros [A B C D]. constructor; auto. now apply sane_comet. Qed.
Lemma list_comet c ppf sort craters basins u k :
  get_crater_basin_list (comet_run c) ppf sort craters basins u k = get_crater_basin_list c ppf sort craters basins u k.
Proof. reflexivity. Qed.

(** ** All seeds *)
Lemma comet_module c ppf sort craters basins stream unseeded :
  module_sane c ppf sort craters basins stream unseeded -> module_sane (comet_run c) ppf sort craters basins stream unseeded.
Proof. intros []. constructor; auto. now apply comet_sane. Qed.

Lemma module_time c ppf sort craters basins stream unseeded : module_sane c ppf sort craters basins stream unseeded ->
  exists time, get_time_array (r_rnd c) (r_start c) (r_end c) (r_step c) = Ok time /\ time <> [].
Proof.
  intros []. assert (T : exists time, get_time_array (r_rnd c) (r_start c) (r_end c) (r_step c) = Ok time).
  { unfold get_time_array. destruct (Z.eqb_spec (r_step c) 0) as [|_]; [lia|]. cbv zeta.
    assert (Q : (2 <= (r_start c - r_end c) ÷ r_step c)%Z) by (rewrite Z.quot_div_nonneg by lia; apply Z.div_le_lower_bound; lia).
    destruct (Z.ltb_spec ((r_start c - r_end c) ÷ r_step c) 0); [lia|eauto]. }
  destruct T as [time T]. exists time. split; auto. now apply (time_ne c).
Qed.

Lemma seed_ok c ppf sort craters basins stream unseeded time s : module_sane c ppf sort craters basins stream unseeded ->
  time <> [] -> (0 <= s)%Z ->
  exists t df k k' volc sw mm si ssc lsc cc b bs,
    seed_table ppf sort craters basins stream c time s = Ok t /\
    get_crater_basin_list c ppf sort craters basins (stream s) 0%nat = Ok (df, k) /\
    get_agg_bsed_depth c df time = Ok (map Some bs) /\
    columns_of c time t volc sw mm si ssc lsc cc b bs /\
    exists k1 k2, get_stochastic_thickness (r_i c) ppf time "d" (stream s) k = Ok (lsc, k1) /\
       get_stochastic_thickness (r_i c) ppf time "e" (stream s) k1 = Ok (cc, k2) /\
       get_basin_ice (r_i c) ppf (r_tol c) (map impact_of df) time (stream s) k2 = Ok (b, k').
Proof.
  intros [ms_ice0 ms_bsed0 ms_traps0 ms_names0 ms_step0 ms_two0 ms_ppf0 ms_sort0 ms_draws0] Ne Hs. destruct (list_total c ppf sort craters basins (stream s) 0%nat) as (df & k & L).
  assert (Nd : NoDup (names_of df)).
  { eapply Permutation_NoDup; [symmetry; eapply list_names; eauto|exact ms_names0]. }
  destruct ms_draws0 as [_ Dr].
  destruct (module_ok false c ppf df time (stream s) k ms_ice0 ms_bsed0 ms_ppf0 ms_traps0 Nd Ne (Dr s))
    as (t & k' & volc & sw & mm & si & ssc & lsc & cc & b & bs & E & C & Own).
  exists t, df, k, k', volc, sw, mm, si, ssc, lsc, cc, b, bs. split; [|split; [exact L|split; [|split; [exact C|now apply Own]]]].
  - unfold seed_table. destruct (Z.ltb_spec s 0); [lia|]. rewrite L. cbn [bind]. rewrite E. reflexivity.
  - destruct (agg_bsed_ok c df time ms_bsed0 ms_traps0 Nd Ne) as (bs' & E' & _). rewrite E'. f_equal. f_equal.
    destruct C as (-> & _). unfold get_ice_by_module, rbind, lift, ret in E.
    destruct (get_volcanic_ice _ _); [|discriminate]. cbn [bind] in E.
    destruct (get_solar_wind_ice _ _ _); [|discriminate]. cbn [bind] in E.
    destruct (get_micrometeorite_ice _ _); [|discriminate]. cbn [bind] in E.
    destruct (get_small_impactor_ice _ _); [|discriminate]. cbn [bind] in E.
    destruct (get_small_simple_crater_ice _ _); [|discriminate]. cbn [bind] in E.
    destruct (call _ _ _ _) as [[? ?]|]; [|discriminate]. cbn [bind] in E.
    destruct (call _ _ _ _) as [[? ?]|]; [|discriminate]. cbn [bind] in E.
    destruct (call _ _ _ _) as [[? ?]|]; [|discriminate]. cbn [bind] in E.
    rewrite E' in E. cbn [bind combine names11 map] in E.
    assert (Q : map (@Some R) bs' = map Some bs) by congruence.
    clear -Q. revert bs Q. induction bs' as [|x l IH]; intros [|y m] Q; try discriminate; auto. cbn [map] in Q.
    injection Q as -> Q. f_equal. now apply IH.
Qed.

Lemma seed_tbl c ppf sort craters basins stream unseeded time s : module_sane c ppf sort craters basins stream unseeded ->
  time <> [] -> (0 <= s)%Z ->
  exists t g, seed_table ppf sort craters basins stream c time s = Ok t /\ t = tbl names11 (length time) (fun n i => Some (g n i)) /\
    forall i, (i < length time)%nat -> nth_error time i = Some (g "time"%string i).
Proof.
  intros H Ne Hs. destruct (seed_ok _ _ _ _ _ _ _ time s H Ne Hs) as (t & df & k & k' & volc & sw & mm & si & ssc & lsc & cc & b & bs & E & _ & _ & C & _).
  destruct (columns_tbl _ _ _ _ _ _ _ _ _ _ _ _ C) as (g & T & G). exists t, g. split; [exact E|]. split; [exact T|].
  apply G. now left.
Qed.

Definition full (L : nat) (t : mtable) : Prop := exists g, t = tbl names11 L (fun n i => Some (g n i)).
Definition val (t : mtable) (n : string) (i : nat) : R := or0 (f_of t n i).
Lemma f_of_tbl names L f n i : In n names -> (i < L)%nat -> f_of (tbl names L f) n i = f n i.
Proof.
  intros Hn Hi. unfold f_of. rewrite tcol_tbl by auto.
  rewrite nth_indep with (d' := f n 0%nat) by now rewrite map_length, seq_length.
  rewrite map_nth, seq_nth by auto. reflexivity.
Qed.
Lemma full_val L t : full L t -> t = tbl names11 L (fun n i => Some (val t n i)).
Proof.
  intros [g ->]. apply tbl_ext. intros n i Hn Hi. unfold val. now rewrite f_of_tbl.
Qed.
Lemma full_entry L t n i : full L t -> In n names11 -> (i < L)%nat -> entry t n i (val t n i).
Proof. intros F Hn Hi. rewrite (full_val L t F) at 1. now apply entry_tbl. Qed.

Lemma sum_tables L : forall ts f, Forall (full L) ts ->
  fold_left tadd ts (tbl names11 L (fun n i => Some (f n i))) =
  tbl names11 L (fun n i => Some (f n i + Rsum (map (fun t => val t n i) ts))).
Proof.
  induction ts as [|t ts IH]; intros f F; cbn [fold_left].
  - apply tbl_ext. intros n i _ _. f_equal. cbn. lra.
  - inversion F as [|? ? Ft Fts]; subst. rewrite (full_val L t Ft) at 1. rewrite tadd_tbl. cbn [oadd].
    rewrite (IH (fun n i => f n i + val t n i) Fts). apply tbl_ext. intros n i _ _. f_equal. cbn [map]. rewrite Rsum_cons. lra.
Qed.

Lemma add_seeds_ok c ppf sort craters basins stream unseeded time : module_sane c ppf sort craters basins stream unseeded ->
  time <> [] -> forall seeds adf cdf, Forall (fun s => (0 <= s)%Z) seeds ->
  exists ast com, mapM (seed_table ppf sort craters basins stream c time) seeds = Ok ast /\
    mapM (seed_table ppf sort craters basins stream (comet_run c) time) seeds = Ok com /\
    Forall (full (length time)) ast /\ Forall (full (length time)) com /\
    Forall (fun t => forall i, (i < length time)%nat -> nth_error time i = Some (val t "time" i)) ast /\
    add_seeds c ppf sort craters basins stream time adf cdf seeds = Ok (fold_left tadd ast adf, fold_left tadd com cdf).
Proof.
  intros H Ne. induction seeds as [|s seeds IH]; intros adf cdf Hs.
  - exists [], []. cbn. repeat split; constructor.
  - inversion Hs as [|? ? H1 H2]; subst.
    destruct (seed_tbl _ _ _ _ _ _ _ time s H Ne H1) as (a & ga & Ea & Ta & Tt).
    destruct (seed_tbl _ _ _ _ _ _ _ time s (comet_module _ _ _ _ _ _ _ H) Ne H1) as (b & gb & Eb & Tb & _).
    destruct (IH (tadd adf a) (tadd cdf b) H2) as (ast & com & Ma & Mb & Fa & Fb & Ft & E).
    exists (a :: ast), (b :: com). cbn [mapM add_seeds fold_left]. rewrite Ea, Eb, Ma, Mb. cbn [bind]. rewrite E.
    repeat split; auto; constructor; auto; try (red; eauto).
    intros i Hi. rewrite Ta. unfold val. rewrite f_of_tbl by (cbn; auto). cbn [or0]. now apply Tt.
Qed.

Lemma mapM_length {A B} (f : A -> result B) l l' : mapM f l = Ok l' -> length l' = length l.
Proof. apply mapM_ok_length. Qed.

Lemma table_eq c ppf sort craters basins stream unseeded seeds : module_sane c ppf sort craters basins stream unseeded ->
  Forall (fun s => (0 <= s)%Z) seeds -> seeds <> [] ->
  exists time ast com, get_time_array (r_rnd c) (r_start c) (r_end c) (r_step c) = Ok time /\ time <> [] /\
    mapM (seed_table ppf sort craters basins stream c time) seeds = Ok ast /\
    mapM (seed_table ppf sort craters basins stream (comet_run c) time) seeds = Ok com /\
    Forall (full (length time)) ast /\ Forall (full (length time)) com /\
    let m n i := mean (map (fun t => val t n i) ast) + mean (map (fun t => val t n i) com) in
    get_ice_ast_comet_seeds c ppf sort craters basins stream unseeded seeds =
      Ok (("time"%string, map Some time) ::
          tbl ["Volcanic ice"; "Solar wind ice"; "Micrometeorite ice"; "Small impactor ice"; "Small simple crater ice";
               "Large simple crater ice"; "Large complex crater ice"; "Basin ice"]%string (length time) (fun n i => Some (m n i)) ++
          tbl depths (length time) (fun n i => Some (m n i / 2))).
Proof.
  intros H Hs Hn. destruct (module_time _ _ _ _ _ _ _ H) as (time & Et & Ne).
  destruct (add_seeds_ok _ _ _ _ _ _ _ time H Ne seeds) with (adf := tbl names11 (length time) (fun n i => Some 0)) (cdf := tbl names11 (length time) (fun n i => Some 0))
    as (ast & com & Ma & Mb & Fa & Fb & Ft & E); auto.
  exists time, ast, com. do 6 (split; [assumption|]). cbv zeta.
  unfold get_ice_ast_comet_seeds. rewrite Et. cbn [bind].
  destruct (list_total c ppf sort craters basins unseeded 0%nat) as (df & k & L). rewrite L. cbn [bind].
  assert (Nd : NoDup (names_of df)).
  { destruct H. eapply Permutation_NoDup; [symmetry; eapply list_names; eauto|assumption]. }
  assert (H' := H). destruct H' as [ms_ice0 ms_bsed0 ms_traps0 ms_names0 ms_step0 ms_two0 ms_ppf0 ms_sort0 ms_draws0].
  destruct (module_ok true c ppf df time (stream 0%Z) 0%nat ms_ice0 ms_bsed0 ms_ppf0 ms_traps0 Nd Ne (proj2 ms_draws0 0%Z))
    as (t & k' & volc & sw & mm & si & ssc & lsc & cc & b & bs & Em & C & _).
  rewrite Em. cbn [bind].
  destruct (columns_tbl _ _ _ _ _ _ _ _ _ _ _ _ C) as (g & -> & _).
  rewrite tzero_tbl.
  replace (tbl names11 (length time) (fun n i => option_map (fun v => v * 0) (Some (g n i))))
    with (tbl names11 (length time) (fun n i => Some 0)) by (apply tbl_ext; intros; cbn; f_equal; lra).
  rewrite E. cbn [bind].
  rewrite (sum_tables (length time) ast (fun _ _ => 0)), (sum_tables (length time) com (fun _ _ => 0)) by assumption.
  assert (La := mapM_length _ _ _ Ma). assert (Lb := mapM_length _ _ _ Mb).
  assert (L0 : exists q, length seeds = S q) by (destruct seeds; [congruence|cbn; eauto]). destruct L0 as [q L0]. rewrite L0.
  rewrite !tdiv_tbl. rewrite tcol_tbl by (cbn; auto). cbn [bind]. rewrite tadd_tbl.
  set (m := fun n i => mean (map (fun t => val t n i) ast) + mean (map (fun t => val t n i) com)).
  rewrite (tbl_ext _ _ _ (fun n i => Some (m n i))).
  2:{ intros n i _ _. cbn [option_map oadd]. unfold m, mean. rewrite !map_length, La, Lb, L0, !Rplus_0_l. reflexivity. }
  assert (Ti : map (fun i => option_map (fun v => v / INR (S q)) (Some (0 + Rsum (map (fun t => val t "time" i) ast)))) (seq 0 (length time)) = map Some time).
  { transitivity (map (fun i => nth_error time i) (seq 0 (length time))).
    - apply map_ext_in. intros i Hi. apply in_seq in Hi. cbn [option_map]. rewrite Rplus_0_l.
      assert (Hi' : (i < length time)%nat) by lia. destruct (nth_error time i) as [x|] eqn:Ex; [|apply nth_error_None in Ex; lia].
      f_equal. assert (Q : map (fun t => val t "time" i) ast = repeat x (S q)).
      { rewrite <- L0, <- La. clear -Ft Ex Hi'. induction Ft as [|t ts Ht Hts IH]; [reflexivity|]. cbn [map length repeat]. f_equal; auto.
        specialize (Ht i Hi'). congruence. }
      rewrite Q. replace (Rsum (repeat x (S q))) with (INR (S q) * x).
      + field. apply not_0_INR. lia.
      + clear. induction (S q) as [|p IH]; [cbn; lra|]. rewrite S_INR. cbn [repeat]. rewrite Rsum_cons, <- IH. lra.
    - clear. induction time as [|x l IH]; [reflexivity|]. cbn [length seq map nth_error]. f_equal. rewrite <- seq_shift, map_map. exact IH. }
  rewrite Ti. unfold loss_keys. cbn [mapM]. rewrite !tcol_tbl by (cbn; auto 20). cbn [bind]. rewrite !map_map. cbn [option_map].
  rewrite (filter_tbl (fun n => negb (existsb (String.eqb n) ["time"; "Gardening depth"; "Ballistic sed depth"]%string))).
  reflexivity.
Qed.

(** ** What a table holds *)
Lemma entries_of L n i ts : Forall (full L) ts -> In n names11 -> (i < L)%nat ->
  Forall2 (fun t x => entry t n i x) ts (map (fun t => val t n i) ts).
Proof. induction 1 as [|t ts Ht Hts IH]; intros Hn Hi; [constructor|]. cbn. constructor; [now apply (full_entry L)|auto]. Qed.
Lemma in_ice n : In n all_ice -> In n names11.
Proof. cbn. intuition auto. Qed.
Lemma in_depths n : In n depths -> In n names11.
Proof. cbn. intuition auto. Qed.

Definition ice8 : list string :=
  ["Volcanic ice"; "Solar wind ice"; "Micrometeorite ice"; "Small impactor ice"; "Small simple crater ice";
   "Large simple crater ice"; "Large complex crater ice"; "Basin ice"]%string.
Lemma table_form c ppf sort craters basins stream unseeded seeds : module_sane c ppf sort craters basins stream unseeded ->
  Forall (fun s => (0 <= s)%Z) seeds -> seeds <> [] ->
  exists time ast com (F : string -> nat -> R), get_time_array (r_rnd c) (r_start c) (r_end c) (r_step c) = Ok time /\ time <> [] /\
    mapM (seed_table ppf sort craters basins stream c time) seeds = Ok ast /\
    mapM (seed_table ppf sort craters basins stream (comet_run c) time) seeds = Ok com /\
    Forall (full (length time)) ast /\ Forall (full (length time)) com /\
    get_ice_ast_comet_seeds c ppf sort craters basins stream unseeded seeds =
      Ok (("time"%string, map Some time) :: tbl (ice8 ++ depths) (length time) (fun n i => Some (F n i))) /\
    (forall n i, In n all_ice -> F n i = mean (map (fun t => val t n i) ast) + mean (map (fun t => val t n i) com)) /\
    (forall n i, In n depths -> F n i = (mean (map (fun t => val t n i) ast) + mean (map (fun t => val t n i) com)) / 2).
Proof.
  intros H Hs Hn. destruct (table_eq _ _ _ _ _ _ _ _ H Hs Hn) as (time & ast & com & H1 & H2 & H3 & H4 & H5 & H6 & H7). cbv zeta in H7.
  exists time, ast, com, (fun n i => (mean (map (fun t => val t n i) ast) + mean (map (fun t => val t n i) com)) / (if existsb (String.eqb n) depths then 2 else 1)).
  do 6 (split; [assumption|]). split; [|split].
  - rewrite H7. f_equal. f_equal.
    assert (Ta : forall a b L f, tbl (a ++ b) L f = tbl a L f ++ tbl b L f) by (intros; apply map_app). rewrite Ta.
    apply (f_equal2 (@app _)).
    + apply tbl_ext. intros n i I _. f_equal. replace (existsb (String.eqb n) depths) with false; [field|].
      symmetry. unfold ice8 in I. repeat (destruct I as [<-|I]; [reflexivity|]). destruct I.
    + apply tbl_ext. intros n i I _. repeat (destruct I as [<-|I]; [reflexivity|]). destruct I.
  - intros n i I. replace (existsb (String.eqb n) depths) with false; [field|].
    symmetry. unfold all_ice, crater_ice in I. cbn [app] in I. repeat (destruct I as [<-|I]; [reflexivity|]). destruct I.
  - intros n i I. repeat (destruct I as [<-|I]; [reflexivity|]). destruct I.
Qed.

Lemma tcol_time time t : tcol (("time"%string, time) :: t) "time" = Ok time.
Proof. reflexivity. Qed.
Lemma tcol_rest time names L f n : In n names -> n <> "time"%string -> tcol (("time"%string, time) :: tbl names L f) n = Ok (map (f n) (seq 0 L)).
Proof.
  intros I Nt. unfold tcol. cbn [find fst]. destruct (String.eqb_spec "time" n); [congruence|]. now apply (tcol_tbl names L f n).
Qed.
Lemma in10 n : In n all_ice \/ In n depths -> In n (ice8 ++ depths) /\ n <> "time"%string.
Proof. cbn. intuition (auto; subst; try discriminate). Qed.
Lemma entry_rest time L F n i : In n all_ice \/ In n depths -> (i < L)%nat ->
  entry (("time"%string, time) :: tbl (ice8 ++ depths) L (fun n i => Some (F n i))) n i (F n i).
Proof.
  intros I Hi. destruct (in10 n I) as [I1 I2]. exists (map (fun i => Some (F n i)) (seq 0 L)). split; [now apply tcol_rest|].
  rewrite nth_error_map, nth_error_nth' with (d := 0%nat) by now rewrite seq_length. rewrite seq_nth by auto. reflexivity.
Qed.

Lemma seeds_table c ppf sort craters basins stream unseeded seeds : module_sane c ppf sort craters basins stream unseeded ->
  Forall (fun s => (0 <= s)%Z) seeds -> seeds <> [] ->
  exists time t ast com, get_time_array (r_rnd c) (r_start c) (r_end c) (r_step c) = Ok time /\
    get_ice_ast_comet_seeds c ppf sort craters basins stream unseeded seeds = Ok t /\
    mapM (seed_table ppf sort craters basins stream c time) seeds = Ok ast /\
    mapM (seed_table ppf sort craters basins stream (comet_run c) time) seeds = Ok com /\
    (forall i x, nth_error time i = Some x -> entry t "time" i x) /\
    forall n i, (i < length time)%nat -> In n all_ice \/ In n depths ->
      exists xs ys, Forall2 (fun a x => entry a n i x) ast xs /\ Forall2 (fun a y => entry a n i y) com ys /\
        entry t n i (if existsb (String.eqb n) all_ice then mean xs + mean ys else (mean xs + mean ys) / 2).
Proof.
  intros H Hs Hn. destruct (table_form _ _ _ _ _ _ _ _ H Hs Hn) as (time & ast & com & F & H1 & H2 & H3 & H4 & H5 & H6 & H7 & H8 & H9).
  exists time, (("time"%string, map Some time) :: tbl (ice8 ++ depths) (length time) (fun n i => Some (F n i))), ast, com.
  do 4 (split; [assumption|]). split.
  - intros i x Hx. exists (map Some time). split; [reflexivity|]. now rewrite nth_error_map, Hx.
  - intros n i Hi I. exists (map (fun t => val t n i) ast), (map (fun t => val t n i) com).
    assert (I' : In n names11) by (destruct I; auto using in_ice, in_depths).
    split; [|split]; [now apply (entries_of (length time))..|].
    replace (if existsb (String.eqb n) all_ice then _ else _) with (F n i); [now apply entry_rest|].
    destruct (existsb (String.eqb n) all_ice) eqn:E.
    + apply existsb_exists in E as (m & Im & Em). apply String.eqb_eq in Em. subst m. auto.
    + apply H9. destruct I as [I|]; auto. exfalso. assert (T : existsb (String.eqb n) all_ice = true); [|congruence].
      apply existsb_exists. exists n. split; auto. apply String.eqb_refl.
Qed.

(** One seed: the columns are those of the run with this seed. *)
Lemma seed_sources c ppf sort craters basins stream unseeded time s t : module_sane c ppf sort craters basins stream unseeded ->
  time <> [] -> seed_table ppf sort craters basins stream c time s = Ok t ->
  exists df k k' volc sw imp,
    get_crater_basin_list c ppf sort craters basins (stream s) 0%nat = Ok (df, k) /\
    get_volcanic_ice (r_i c) time = Ok volc /\ get_solar_wind_ice (r_i c) (r_lum c) time = Ok sw /\
    get_impact_ice (r_i c) ppf (r_tol c) (map impact_of df) time (stream s) k = Ok (imp, k') /\
    get_agg_bsed_depth c df time = tcol t "Ballistic sed depth" /\
    length imp = length time /\
    forall i, (i < length time)%nat ->
      (exists v, nth_error volc i = Some v /\ entry t "Volcanic ice" i v) /\
      (exists v, nth_error sw i = Some v /\ entry t "Solar wind ice" i v) /\
      (exists v, nth_error (overturn_depth_time (r_i c) time) i = Some v /\ entry t "Gardening depth" i v) /\
      exists xs b, Forall2 (fun n => entry t n i) crater_ice xs /\ entry t "Basin ice" i b /\ 0 <= b /\ Forall (fun x => 0 <= x) xs /\
        nth_error imp i = Some (Rsum xs + if basins_on (r_i c) then b else 0).
Proof.
  intros H Ne E.
  assert (Hs : (0 <= s)%Z) by (unfold seed_table in E; destruct (Z.ltb_spec s 0); [discriminate|lia]).
  destruct (seed_ok _ _ _ _ _ _ _ time s H Ne Hs) as (t' & df & k & k' & volc & sw & mm & si & ssc & lsc & cc & b & bs & E' & L & Ab & C & k1 & k2 & S1 & S2 & S3).
  rewrite E in E'. injection E' as <-. pose proof C as (T & G & Lb & V1 & V2 & V3 & V4 & V5).
  destruct (columns_tbl _ _ _ _ _ _ _ _ _ _ _ _ C) as (g & Tt & Gn).
  assert (Ev : forall n i, In n names11 -> (i < length time)%nat -> entry t n i (g n i)) by (intros; rewrite Tt; now apply entry_tbl).
  cbn [combine names11 In] in Gn.
  set (imp := let t0 := vadd (vadd (vadd (vadd (vadd (map (fun _ => 0) time) mm) si) ssc) lsc) cc in if basins_on (r_i c) then vadd t0 b else t0).
  assert (Imp : forall i, (i < length time)%nat -> nth_error imp i =
     Some (Rsum (map (fun n => g n i) crater_ice) + if basins_on (r_i c) then g "Basin ice"%string i else 0)).
  { intros i Hi. unfold imp. cbv zeta.
    assert (Z0 : nth_error (map (fun _ : R => 0) time) i = Some 0).
    { rewrite nth_error_map. destruct (nth_error time i) eqn:Q; [reflexivity|]. apply nth_error_None in Q. lia. }
    assert (Q : nth_error (vadd (vadd (vadd (vadd (vadd (map (fun _ => 0) time) mm) si) ssc) lsc) cc) i =
      Some (Rsum (map (fun n => g n i) crater_ice))).
    { erewrite vadd_nth; [|do 4 (eapply vadd_nth; [|apply Gn; [now auto 20|assumption]]); exact Z0|apply Gn; [now auto 20|assumption]].
      cbn [crater_ice map]. rewrite !Rsum_cons. cbn. f_equal. lra. }
    destruct (basins_on (r_i c)).
    - erewrite vadd_nth; [|exact Q|apply Gn; [now auto 20|assumption]]. reflexivity.
    - rewrite Q. f_equal. lra. }
  exists df, k, k', volc, sw, imp.
  split; [exact L|]. split; [exact V1|]. split; [exact V2|]. split; [|split; [|split]].
  - unfold get_impact_ice, rbind, lift, ret. rewrite V3, V4, V5. cbn [bind]. rewrite S1. cbn [bind]. rewrite S2. cbn [bind]. rewrite S3. reflexivity.
  - rewrite Ab, T. reflexivity.
  - destruct (Nat.lt_trichotomy (length imp) (length time)) as [Q|[Q|Q]]; auto; exfalso.
    + specialize (Imp (length imp) Q). assert (W : nth_error imp (length imp) = None) by (apply nth_error_None; lia). congruence.
    + assert (W : (length imp <= length time)%nat).
      { unfold imp, vadd. cbv zeta. destruct (basins_on _); rewrite !map_length, !combine_length, !map_length, !combine_length, !map_length,
          !combine_length, !map_length, !combine_length, !map_length, !combine_length, !map_length; try rewrite !combine_length, !map_length; lia. }
      lia.
  - intros i Hi. split; [|split; [|split]].
    + exists (g "Volcanic ice"%string i). split; [apply Gn; auto 20|apply Ev; cbn; auto 20].
    + exists (g "Solar wind ice"%string i). split; [apply Gn; auto 20|apply Ev; cbn; auto 20].
    + exists (g "Gardening depth"%string i). split; [apply Gn; auto 20|apply Ev; cbn; auto 20].
    + exists (map (fun n => g n i) crater_ice), (g "Basin ice"%string i).
      assert (Ps : forall n l, In (n, l) (combine names11 [time; volc; sw; mm; si; ssc; lsc; cc; b; overturn_depth_time (r_i c) time; bs]) ->
         good (length time) l -> 0 <= g n i).
      { intros n l I [_ Fl]. apply (Forall_nth_error _ _ i _ Fl). apply Gn; auto. }
      repeat (inversion G as [|? ? ? G']; subst; clear G; rename G' into G).
      split; [|split; [|split; [|split]]].
      * cbn [crater_ice map]. repeat (constructor; [apply Ev; cbn; auto 20|]). constructor.
      * apply Ev; cbn; auto 20.
      * eapply Ps; [|eassumption]. cbn. auto 20.
      * cbn [crater_ice map]. repeat (constructor; [eapply Ps; [cbn; now auto 20|eassumption]|]). constructor.
      * now apply Imp.
Qed.

(** ** The figure *)
Section Frame.
  Variables (time : list R) (F : string -> nat -> R).
  Let L := length time.
  Let t : mtable := ("time"%string, map Some time) :: tbl (ice8 ++ depths) L (fun n i => Some (F n i)).
  Definition G (n : string) (i : nat) : R :=
    if String.eqb n "Total ice" then Rsum (map (fun m => F m i) all_ice)
    else if String.eqb n "Impactor ice" then Rsum (map (fun m => F m i) crater_ice) else F n i.

  Lemma row_sums_ok keys : (forall n, In n keys -> In n all_ice) ->
    row_sums t keys = Ok (map (fun i => Some (Rsum (map (fun m => F m i) keys))) (seq 0 L)).
  Proof.
    intros K. unfold row_sums. unfold t at 1. rewrite tcol_time. cbn [bind].
    assert (M : mapM (tcol t) keys = Ok (map (fun n => map (fun i => Some (F n i)) (seq 0 L)) keys)).
    { induction keys as [|n keys IH]; [reflexivity|]. cbn [mapM map].
      destruct (in10 n) as [I1 I2]; [left; apply K; now left|]. unfold t at 1. rewrite tcol_rest by assumption. cbn [bind].
      rewrite IH by (intros; apply K; now right). reflexivity. }
    rewrite M. cbn [bind]. f_equal. rewrite map_length. fold L. apply map_ext_in. intros i Hi. apply in_seq in Hi. f_equal. f_equal.
    rewrite map_map. apply map_ext_in. intros n _.
    rewrite nth_indep with (d' := Some (F n 0%nat)) by (rewrite map_length, seq_length; lia).
    rewrite (map_nth (fun i => Some (F n i))), seq_nth by lia. reflexivity.
  Qed.
  Lemma frame_ok : module_frame t = Ok (tbl shown_names L (fun n i => Some (G n i))).
  Proof.
    unfold module_frame. rewrite !row_sums_ok by (cbn; intuition auto). cbn [bind]. unfold t, tbl.
    cbn [module_order mapM ice8 depths app map tcol find fst String.eqb Ascii.eqb Bool.eqb bind]. reflexivity.
  Qed.
  Lemma in_era_ok lo hi n :
    in_era (lo * 1000000000, hi * 1000000000) (map Some time) (map (fun i => Some (G n i)) (seq 0 L)) = map (G n) (steps_within time lo hi).
  Proof.
    unfold in_era, steps_within. subst L. clear t.
    assert (Q : forall l s (f : nat -> option R), (forall j, (j < length l)%nat -> f (s + j)%nat = nth_error l j) ->
      numbers (map snd (filter (fun p => in_bin (lo * 1000000000, hi * 1000000000) (fst p)) (combine (map Some l) (map (fun i => Some (G n i)) (seq s (length l)))))) =
      map (G n) (filter (fun i => match f i with Some x => Rltb (lo * 1000000000) x && Rleb x (hi * 1000000000) | None => false end) (seq s (length l)))).
    { induction l as [|x l IH]; intros s f Hf; [reflexivity|].
      pose proof (Hf 0%nat ltac:(cbn; lia)) as F0. rewrite Nat.add_0_r in F0. cbn [nth_error] in F0.
      assert (Hf' : forall j, (j < length l)%nat -> f (S s + j)%nat = nth_error l j).
      { intros j Hj. specialize (Hf (S j) ltac:(cbn; lia)). cbn [nth_error] in Hf. rewrite <- Hf. f_equal. lia. }
      specialize (IH (S s) f Hf'). cbn [length seq map combine filter fst]. rewrite F0.
      change (in_bin (lo * 1000000000, hi * 1000000000) (Some x)) with (Rltb (lo * 1000000000) x && Rleb x (hi * 1000000000)).
      destruct (Rltb (lo * 1000000000) x && Rleb x (hi * 1000000000)); [|exact IH].
      cbn [map snd]. unfold numbers in *. cbn [flat_map app]. f_equal. exact IH. }
    apply Q. reflexivity.
  Qed.
  Lemma eras_periods : eras = map (fun p => (fst p, (fst (snd p) * 1000000000, snd (snd p) * 1000000000))) periods.
  Proof. unfold eras, periods. cbn [map fst snd]. repeat f_equal; lra. Qed.
  Lemma by_era_ok : by_era t = Ok (map (fun p => (fst p, map (fun n =>
      let l := map (G n) (steps_of time p) in (n, (agg_mean l, agg_min l, agg_max l))) shown_names)) periods).
  Proof.
    unfold by_era. unfold t at 1. rewrite tcol_time, frame_ok. cbn [bind]. f_equal. rewrite eras_periods, map_map. apply map_ext.
    intros [era [lo hi]]. cbn [fst snd]. f_equal. unfold tbl. rewrite map_map. apply map_ext. intros n. rewrite in_era_ok. reflexivity.
  Qed.
  Lemma G_shown n i : In n shown_names -> (i < L)%nat -> shown t n i (G n i).
  Proof.
    intros I Hi. unfold G.
    assert (Fe : forall l, (forall m, In m l -> In m all_ice) -> Forall2 (fun m => entry t m i) l (map (fun m => F m i) l)).
    { induction l as [|m l IH]; intros K; [constructor|]. cbn. constructor; [apply entry_rest; auto; left; apply K; now left|apply IH; intros; apply K; now right]. }
    destruct (String.eqb_spec n "Total ice") as [->|N1].
    - left. split; auto. eexists; split; [apply Fe; auto|reflexivity].
    - destruct (String.eqb_spec n "Impactor ice") as [->|N2].
      + right; left. split; auto. eexists; split; [apply Fe; cbn; intuition auto|reflexivity].
      + right; right. split; [cbn in *; intuition congruence|]. apply entry_rest; auto. cbn in *. intuition congruence.
  Qed.
End Frame.

Lemma mark_drawn n xs : drawn n xs (mark_of (n, (agg_mean xs, agg_min xs, agg_max xs))).
Proof.
  unfold drawn, mark_of. destruct (existsb (String.eqb n) loss_keys) eqn:E.
  - left. apply existsb_exists in E as (m & I & Em). apply String.eqb_eq in Em. subst m. split; [exact I|]. now destruct xs.
  - right. assert (N : ~ In n depths).
    { intros I. assert (T : existsb (String.eqb n) loss_keys = true); [|congruence]. apply existsb_exists. exists n. split; [exact I|apply String.eqb_refl]. }
    destruct xs as [|x xs]; [left; auto|]. right. split; auto. split; [discriminate|].
    exists (list_min x xs), (list_max x xs).
    destruct (fold_Rmin_spec xs x) as (A & B & C). destruct (fold_Rmax_spec xs x) as (A' & B' & C').
    split; [|split; [|reflexivity]]; (split; [assumption|]); intros y [<-|I]; auto.
Qed.

Lemma step_lt time p i : In i (steps_of time p) -> (i < length time)%nat.
Proof. intros H. apply filter_In in H as [H _]. apply in_seq in H. lia. Qed.

Lemma figure_form c ppf sort craters basins stream unseeded seeds : module_sane c ppf sort craters basins stream unseeded ->
  Forall (fun s => (0 <= s)%Z) seeds -> seeds <> [] ->
  exists time t (g : string -> nat -> R),
    get_time_array (r_rnd c) (r_start c) (r_end c) (r_step c) = Ok time /\
    get_ice_ast_comet_seeds c ppf sort craters basins stream unseeded seeds = Ok t /\
    (forall n i, In n shown_names -> (i < length time)%nat -> shown t n i (g n i)) /\
    plot_by_module c ppf sort craters basins stream unseeded seeds =
      Ok (map (fun p => (fst p, map (fun n => let l := map (g n) (steps_of time p) in mark_of (n, (agg_mean l, agg_min l, agg_max l))) shown_names)) periods).
Proof.
  intros H Hs Hn. destruct (table_form _ _ _ _ _ _ _ _ H Hs Hn) as (time & ast & com & F & H1 & H2 & H3 & H4 & H5 & H6 & H7 & H8 & H9).
  exists time, (("time"%string, map Some time) :: tbl (ice8 ++ depths) (length time) (fun n i => Some (F n i))), (G F).
  split; [exact H1|]. split; [exact H7|]. split; [intros; now apply G_shown|].
  unfold plot_by_module. rewrite H7. cbn [bind]. rewrite by_era_ok. cbn [bind]. rewrite map_map. reflexivity.
Qed.

Lemma figure_ok c ppf sort craters basins stream unseeded seeds : module_sane c ppf sort craters basins stream unseeded ->
  Forall (fun s => (0 <= s)%Z) seeds -> seeds <> [] ->
  exists time t fig,
    get_time_array (r_rnd c) (r_start c) (r_end c) (r_step c) = Ok time /\
    get_ice_ast_comet_seeds c ppf sort craters basins stream unseeded seeds = Ok t /\
    plot_by_module c ppf sort craters basins stream unseeded seeds = Ok fig /\
    Forall2 (fun p e => fst e = fst p /\
      Forall2 (fun n m => exists xs, Forall2 (shown t n) (steps_of time p) xs /\ drawn n xs m) shown_names (snd e)) periods fig.
Proof.
  intros H Hs Hn. destruct (figure_form _ _ _ _ _ _ _ _ H Hs Hn) as (time & t & g & H1 & H2 & H3 & H4).
  exists time, t. eexists. split; [exact H1|]. split; [exact H2|]. split; [exact H4|].
  generalize periods. induction l as [|p l IH]; [constructor|]. cbn [map]. constructor; [|exact IH]. cbn [fst snd]. split; auto.
  assert (K : forall ns, (forall n, In n ns -> In n shown_names) ->
    Forall2 (fun n m => exists xs, Forall2 (shown t n) (steps_of time p) xs /\ drawn n xs m) ns
      (map (fun n => let l0 := map (g n) (steps_of time p) in mark_of (n, (agg_mean l0, agg_min l0, agg_max l0))) ns)).
  { induction ns as [|n ns IHn]; intros K; [constructor|]. cbn [map]. constructor; [|apply IHn; intros; apply K; now right].
    exists (map (g n) (steps_of time p)). split; [|apply mark_drawn].
    assert (I : forall i, In i (steps_of time p) -> (i < length time)%nat) by (intros i; apply step_lt).
    assert (Kn : In n shown_names) by (apply K; now left). clear -H3 I Kn. induction (steps_of time p) as [|i l IH]; [constructor|].
    cbn. constructor; [apply H3; auto; apply I; now left|apply IH; intros; apply I; now right]. }
  apply K. auto.
Qed.

(** The periods cover the last 4.26 Gyr, each step once. *)
Lemma within_split time lo m hi : lo <= m <= hi ->
  Permutation (steps_within time m hi ++ steps_within time lo m) (steps_within time lo hi).
Proof.
  intros H. unfold steps_within. induction (seq 0 (length time)) as [|i l IH]; [reflexivity|]. cbn [filter].
  destruct (nth_error time i) as [x|]; [|exact IH].
  destruct (Rltb (m * 1000000000) x) eqn:B1; destruct (Rleb x (hi * 1000000000)) eqn:B2;
  destruct (Rltb (lo * 1000000000) x) eqn:B3; destruct (Rleb x (m * 1000000000)) eqn:B4; cbn [andb];
  try exact IH; try (cbn [app]; now constructor); try (rewrite <- Permutation_middle; now constructor); exfalso;
  rewrite ?Rltb_true, ?Rltb_false, ?Rleb_true, ?Rleb_false in *; lra.
Qed.
Lemma periods_cover time : Permutation (concat (map (steps_of time) periods)) (steps_within time 0 (426 / 100)).
Proof.
  cbn [periods map concat]. unfold steps_of. cbn [fst snd]. rewrite app_nil_r.
  rewrite <- (within_split time 0 (397 / 100) (426 / 100)) by lra. apply Permutation_app_head.
  rewrite <- (within_split time 0 (383 / 100) (397 / 100)) by lra. apply Permutation_app_head.
  rewrite <- (within_split time 0 (32 / 10) (383 / 100)) by lra. apply Permutation_app_head.
  apply within_split. lra.
Qed.

Lemma mean_sum xs : xs <> [] -> INR (length xs) * mean xs = Rsum xs.
Proof. intros H. unfold mean. field. apply not_0_INR. destruct xs; [congruence|discriminate]. Qed.
Lemma mean_map_const {A} (f : A -> R) l x : l <> [] -> (forall a, In a l -> f a = x) -> mean (map f l) = x.
Proof.
  intros Ne H. unfold mean. rewrite (map_ext_in f (fun _ => x)) by auto. rewrite Rsum_map_const, map_length. field.
  apply not_0_INR. destruct l; [congruence|discriminate].
Qed.
Lemma mean_lt xs hi : Forall (fun x => x <= hi) xs -> Exists (fun x => x < hi) xs -> mean xs < hi.
Proof.
  intros F E. assert (Ne : xs <> []) by (destruct xs; [inversion E|discriminate]).
  assert (S : Rsum xs < INR (length xs) * hi).
  { clear Ne. revert E. induction F as [|x xs Hx F IH]; intros E; [inversion E|]. rewrite Rsum_cons. cbn [length]. rewrite S_INR.
    assert (Le : Rsum xs <= INR (length xs) * hi).
    { clear -F. induction F as [|x xs Hx F IH]; [cbn; lra|]. rewrite Rsum_cons. cbn [length]. rewrite S_INR. lra. }
    inversion E as [? ? Hl|? ? Hl]; subst; [lra|]. specialize (IH Hl). lra. }
  unfold mean. assert (P : 0 < INR (length xs)) by (apply lt_0_INR; destruct xs; [congruence|cbn; lia]).
  apply Rmult_lt_reg_l with (INR (length xs)); auto. replace (INR (length xs) * (Rsum xs / INR (length xs))) with (Rsum xs) by (field; lra). exact S.
Qed.
Lemma mean_bounds xs lo hi : xs <> [] -> Forall (fun x => lo <= x <= hi) xs -> lo <= mean xs <= hi.
Proof.
  intros Ne F. unfold mean. assert (P : 0 < INR (length xs)) by (apply lt_0_INR; destruct xs; [congruence|cbn; lia]).
  assert (S : INR (length xs) * lo <= Rsum xs <= INR (length xs) * hi).
  { clear -F. induction F as [|x xs Hx F IH]; [cbn; lra|]. rewrite Rsum_cons. cbn [length]. rewrite S_INR. lra. }
  split; (apply Rmult_le_reg_l with (INR (length xs)); [auto|]); replace (INR (length xs) * (Rsum xs / INR (length xs))) with (Rsum xs) by (field; lra); lra.
Qed.

(** The number of steps times the height of the bar, over all periods. *)
Lemma heights_sum time (g : nat -> R) :
  Rsum (map (fun p => INR (length (steps_of time p)) * or0 (agg_mean (map g (steps_of time p)))) periods) =
  Rsum (map g (steps_within time 0 (426 / 100))).
Proof.
  rewrite <- (Rsum_perm _ _ (Permutation_map g (periods_cover time))).
  generalize periods. induction l as [|p l IH]; [reflexivity|]. cbn [map concat]. rewrite Rsum_cons, map_app, Rsum_app, IH. f_equal.
  destruct (steps_of time p) as [|i q] eqn:Q; [cbn; lra|]. rewrite <- Q at 1 2.
  assert (Q' : map g (i :: q) <> []) by discriminate. rewrite <- (mean_sum _ Q'). rewrite map_length, Q. reflexivity.
Qed.

(** ** Sums over sources *)
Lemma mean_plus {A} (f g : A -> R) l : mean (map (fun a => f a + g a) l) = mean (map f l) + mean (map g l).
Proof. unfold mean. rewrite !map_length, Rsum_map_plus. unfold Rdiv. ring. Qed.
Lemma mean_swap {A B} (f : A -> B -> R) ns l :
  Rsum (map (fun n => mean (map (f n) l)) ns) = mean (map (fun a => Rsum (map (fun n => f n a) ns)) l).
Proof.
  induction ns as [|n ns IH].
  - cbn [map]. unfold mean. rewrite Rsum_map_const. cbn. unfold Rdiv. ring.
  - cbn [map]. rewrite Rsum_cons, IH, <- mean_plus. reflexivity.
Qed.
Lemma entries_val t i ns xs : Forall2 (fun n => entry t n i) ns xs -> map (fun n => val t n i) ns = xs.
Proof.
  induction 1 as [|n x ns xs H Hs IH]; [reflexivity|]. cbn [map]. rewrite IH. f_equal. unfold val. now rewrite (f_of_entry _ _ _ _ H).
Qed.
Lemma mapM_in {A B} (f : A -> result B) : forall l l', mapM f l = Ok l' -> Forall2 (fun a b => f a = Ok b) l l'.
Proof.
  induction l as [|a l IH]; intros l' H; cbn [mapM] in H; [injection H as <-; constructor|].
  destruct (f a) as [b|] eqn:E; [|discriminate]. cbn [bind] in H. destruct (mapM f l) as [m|]; [|discriminate]. cbn [bind] in H.
  injection H as <-. constructor; auto.
Qed.

(** The sum of the ice columns of the tables of all seeds, at one step. *)
Lemma seeds_sum c ppf sort craters basins stream unseeded time volc sw i v w : module_sane c ppf sort craters basins stream unseeded ->
  time <> [] -> basins_on (r_i c) = true -> (i < length time)%nat ->
  get_volcanic_ice (r_i c) time = Ok volc -> get_solar_wind_ice (r_i c) (r_lum c) time = Ok sw ->
  nth_error volc i = Some v -> nth_error sw i = Some w ->
  forall seeds ts, mapM (seed_table ppf sort craters basins stream c time) seeds = Ok ts ->
  exists xs, Forall2 (impact_at c ppf sort craters basins stream time i) seeds xs /\
    map (fun a => Rsum (map (fun n => val a n i) all_ice)) ts = map (fun x => x + (v + w)) xs.
Proof.
  intros H Ne Bo Hi Ev Ew Hv Hw seeds ts M. apply mapM_in in M. induction M as [|s a seeds ts E M IH].
  - exists []. split; [constructor|reflexivity].
  - destruct IH as (xs & F & Q).
    destruct (seed_sources _ _ _ _ _ _ _ time s a H Ne E) as (df & k & k' & volc' & sw' & imp & L & V1 & V2 & I & _ & _ & C).
    rewrite Ev in V1. injection V1 as <-. rewrite Ew in V2. injection V2 as <-.
    destruct (C i Hi) as ((v' & A1 & A2) & (w' & A3 & A4) & _ & ys & b & A5 & A6 & _ & _ & A7). rewrite Bo in A7.
    rewrite Hv in A1. injection A1 as <-. rewrite Hw in A3. injection A3 as <-.
    exists (Rsum ys + b :: xs). split.
    + constructor; auto. exists df, k, imp, k'. auto.
    + cbn [map]. rewrite Q. f_equal. unfold all_ice. rewrite map_app, Rsum_app, (entries_val _ _ _ _ A5). cbn [map].
      rewrite !Rsum_cons. unfold val. rewrite (f_of_entry _ _ _ _ A2), (f_of_entry _ _ _ _ A4), (f_of_entry _ _ _ _ A6). cbn. lra.
Qed.

Lemma column_const c ppf sort craters basins stream unseeded time i n v : module_sane c ppf sort craters basins stream unseeded ->
  time <> [] -> (i < length time)%nat ->
  (forall s a, seed_table ppf sort craters basins stream c time s = Ok a -> entry a n i v) ->
  forall seeds ts, seeds <> [] -> mapM (seed_table ppf sort craters basins stream c time) seeds = Ok ts ->
  mean (map (fun t => val t n i) ts) = v.
Proof.
  intros H Ne Hi K seeds ts Hn M. apply mapM_in in M. apply mean_map_const.
  - destruct M; [congruence|discriminate].
  - intros a Ia. assert (E : exists s, seed_table ppf sort craters basins stream c time s = Ok a).
    { clear -M Ia. induction M as [|s b seeds ts E M IH]; [destruct Ia|]. destruct Ia as [<-|Ia]; eauto. }
    destruct E as [s E]. unfold val. now rewrite (f_of_entry _ _ _ _ (K s a E)).
Qed.

Lemma comet_same c time : get_volcanic_ice (r_i (comet_run c)) time = get_volcanic_ice (r_i c) time /\
  get_solar_wind_ice (r_i (comet_run c)) (r_lum (comet_run c)) time = get_solar_wind_ice (r_i c) (r_lum c) time /\
  overturn_depth_time (r_i (comet_run c)) time = overturn_depth_time (r_i c) time.
Proof. split; [|split]; reflexivity. Qed.

(** Sources without chance: their columns. *)
Lemma fixed_sources c ppf sort craters basins stream unseeded seeds t time volc sw : module_sane c ppf sort craters basins stream unseeded ->
  Forall (fun s => (0 <= s)%Z) seeds -> seeds <> [] ->
  get_ice_ast_comet_seeds c ppf sort craters basins stream unseeded seeds = Ok t ->
  get_time_array (r_rnd c) (r_start c) (r_end c) (r_step c) = Ok time ->
  get_volcanic_ice (r_i c) time = Ok volc -> get_solar_wind_ice (r_i c) (r_lum c) time = Ok sw ->
  forall i, (i < length time)%nat -> exists v w d,
    nth_error volc i = Some v /\ nth_error sw i = Some w /\ nth_error (overturn_depth_time (r_i c) time) i = Some d /\
    entry t "Volcanic ice" i (2 * v) /\ entry t "Solar wind ice" i (2 * w) /\ entry t "Gardening depth" i d.
Proof.
  intros H Hs Hn Et Eti Ev Ew i Hi.
  destruct (table_form _ _ _ _ _ _ _ _ H Hs Hn) as (time' & ast & com & F & H1 & Ne & H3 & H4 & H5 & H6 & H7 & H8 & H9).
  rewrite Eti in H1. injection H1 as <-. rewrite Et in H7. injection H7 as ->.
  pose proof (comet_module _ _ _ _ _ _ _ H) as Hc. destruct (comet_same c time) as (C1 & C2 & C3).
  assert (K : forall cc, module_sane cc ppf sort craters basins stream unseeded ->
    get_volcanic_ice (r_i cc) time = Ok volc -> get_solar_wind_ice (r_i cc) (r_lum cc) time = Ok sw ->
    overturn_depth_time (r_i cc) time = overturn_depth_time (r_i c) time ->
    forall s a, seed_table ppf sort craters basins stream cc time s = Ok a ->
     exists v w d, nth_error volc i = Some v /\ nth_error sw i = Some w /\ nth_error (overturn_depth_time (r_i c) time) i = Some d /\
       entry a "Volcanic ice" i v /\ entry a "Solar wind ice" i w /\ entry a "Gardening depth" i d).
  { intros cc Hcc Vc Wc Oc s a E. destruct (seed_sources _ _ _ _ _ _ _ time s a Hcc Ne E) as (df & k & k' & volc' & sw' & imp & L & V1 & V2 & I & _ & _ & C).
    rewrite Vc in V1. injection V1 as <-. rewrite Wc in V2. injection V2 as <-. destruct (C i Hi) as ((v & A1 & A2) & (w & A3 & A4) & (d & A5 & A6) & _).
    rewrite Oc in A5. exists v, w, d. auto 10. }
  assert (K1 := K c H Ev Ew eq_refl). assert (K2 := K (comet_run c) Hc (eq_trans C1 Ev) (eq_trans C2 Ew) C3).
  assert (Ex : exists s a, seed_table ppf sort craters basins stream c time s = Ok a).
  { apply mapM_in in H3. destruct H3; [congruence|eauto]. }
  destruct Ex as (s & a & Ea). destruct (K1 s a Ea) as (v & w & d & B1 & B2 & B3 & _). exists v, w, d.
  do 3 (split; [assumption|]).
  assert (Kc : forall n x, In n names11 -> (forall cc s a, cc = c \/ cc = comet_run c -> seed_table ppf sort craters basins stream cc time s = Ok a -> entry a n i x) ->
     mean (map (fun t => val t n i) ast) = x /\ mean (map (fun t => val t n i) com) = x).
  { intros n x _ Kx. split.
    - eapply (column_const c); eauto.
    - eapply (column_const (comet_run c)); eauto. }
  assert (J : forall cc s a, cc = c \/ cc = comet_run c -> seed_table ppf sort craters basins stream cc time s = Ok a ->
     entry a "Volcanic ice" i v /\ entry a "Solar wind ice" i w /\ entry a "Gardening depth" i d).
  { intros cc s0 a0 Hcc E. assert (Q : exists v w d, nth_error volc i = Some v /\ nth_error sw i = Some w /\ nth_error (overturn_depth_time (r_i c) time) i = Some d /\
       entry a0 "Volcanic ice" i v /\ entry a0 "Solar wind ice" i w /\ entry a0 "Gardening depth" i d) by (destruct Hcc as [->| ->]; eauto).
    destruct Q as (v' & w' & d' & Q1 & Q2 & Q3 & Q4). rewrite B1 in Q1. rewrite B2 in Q2. rewrite B3 in Q3. injection Q1 as <-. injection Q2 as <-. injection Q3 as <-. exact Q4. }
  destruct (Kc "Volcanic ice"%string v) as [M1 M2]; [cbn; auto 20|intros; eapply J; eauto|].
  destruct (Kc "Solar wind ice"%string w) as [M3 M4]; [cbn; auto 20|intros; eapply J; eauto|].
  destruct (Kc "Gardening depth"%string d) as [M5 M6]; [cbn; auto 20|intros; eapply J; eauto|].
  split; [|split].
  - replace (2 * v) with (F "Volcanic ice"%string i) by (rewrite H8 by (cbn; auto 20); rewrite M1, M2; lra). apply entry_rest; [cbn; auto 20|exact Hi].
  - replace (2 * w) with (F "Solar wind ice"%string i) by (rewrite H8 by (cbn; auto 20); rewrite M3, M4; lra). apply entry_rest; [cbn; auto 20|exact Hi].
  - replace d with (F "Gardening depth"%string i) by (rewrite H9 by (cbn; auto 20); rewrite M5, M6; lra). apply entry_rest; [cbn; auto 20|exact Hi].
Qed.

Lemma total_sources c ppf sort craters basins stream unseeded seeds t time volc sw : module_sane c ppf sort craters basins stream unseeded ->
  Forall (fun s => (0 <= s)%Z) seeds -> seeds <> [] -> basins_on (r_i c) = true ->
  get_ice_ast_comet_seeds c ppf sort craters basins stream unseeded seeds = Ok t ->
  get_time_array (r_rnd c) (r_start c) (r_end c) (r_step c) = Ok time ->
  get_volcanic_ice (r_i c) time = Ok volc -> get_solar_wind_ice (r_i c) (r_lum c) time = Ok sw ->
  forall i, (i < length time)%nat -> exists v w xs ys, nth_error volc i = Some v /\ nth_error sw i = Some w /\
    Forall2 (impact_at c ppf sort craters basins stream time i) seeds xs /\
    Forall2 (impact_at (comet_run c) ppf sort craters basins stream time i) seeds ys /\
    shown t "Total ice" i (mean xs + mean ys + 2 * v + 2 * w).
Proof.
  intros H Hs Hn Bo Et Eti Ev Ew i Hi.
  destruct (fixed_sources _ _ _ _ _ _ _ _ _ _ _ _ H Hs Hn Et Eti Ev Ew i Hi) as (v & w & d & Hv & Hw & _).
  destruct (table_form _ _ _ _ _ _ _ _ H Hs Hn) as (time' & ast & com & F & H1 & Ne & H3 & H4 & H5 & H6 & H7 & H8 & H9).
  rewrite Eti in H1. injection H1 as <-. rewrite Et in H7. injection H7 as ->.
  pose proof (comet_module _ _ _ _ _ _ _ H) as Hc. destruct (comet_same c time) as (C1 & C2 & C3).
  destruct (seeds_sum c ppf sort craters basins stream unseeded time volc sw i v w H Ne Bo Hi Ev Ew Hv Hw seeds ast H3) as (xs & X1 & X2).
  destruct (seeds_sum (comet_run c) ppf sort craters basins stream unseeded time volc sw i v w Hc Ne Bo Hi (eq_trans C1 Ev) (eq_trans C2 Ew) Hv Hw seeds com H4) as (ys & Y1 & Y2).
  exists v, w, xs, ys. do 4 (split; [assumption|]).
  replace (mean xs + mean ys + 2 * v + 2 * w) with (G F "Total ice" i); [apply G_shown; [cbn; auto|exact Hi]|].
  unfold G. cbn [String.eqb Ascii.eqb Bool.eqb].
  rewrite (map_ext_in (fun m => F m i) (fun n => mean (map (fun t => val t n i) ast) + mean (map (fun t => val t n i) com))) by (intros; now apply H8).
  rewrite Rsum_map_plus.
  rewrite (mean_swap (fun n t => val t n i) all_ice ast), (mean_swap (fun n t => val t n i) all_ice com), X2, Y2.
  rewrite !(mean_plus (fun x => x) (fun _ => v + w)), !map_id.
  assert (Nx : xs <> []) by (destruct X1; [congruence|discriminate]). assert (Ny : ys <> []) by (destruct Y1; [congruence|discriminate]).
  rewrite !(mean_map_const (fun _ => v + w) _ (v + w)) by auto. lra.
Qed.

(** ** Seeds that do not work *)
Lemma seeds_setup c ppf sort craters basins stream unseeded seeds : module_sane c ppf sort craters basins stream unseeded ->
  exists time, get_time_array (r_rnd c) (r_start c) (r_end c) (r_step c) = Ok time /\ time <> [] /\
    get_ice_ast_comet_seeds c ppf sort craters basins stream unseeded seeds =
    (let z := tbl names11 (length time) (fun n i => Some 0) in
     let* (adf, cdf) := add_seeds c ppf sort craters basins stream time z z seeds in
     let adf := tdiv (length seeds) adf in
     let cdf := tdiv (length seeds) cdf in
     let* index := tcol adf "time" in
     let both := tadd adf cdf in
     let ice := filter (fun e => negb (existsb (String.eqb (fst e)) ("time"%string :: loss_keys))) both in
     let* loss := mapM (fun k => let* s := tcol both k in Ok (k, map (option_map (fun v => v / 2)) s)) loss_keys in
     Ok (("time"%string, index) :: ice ++ loss)).
Proof.
  intros H. destruct (module_time _ _ _ _ _ _ _ H) as (time & Et & Ne). exists time. split; [exact Et|]. split; [exact Ne|].
  unfold get_ice_ast_comet_seeds. rewrite Et. cbn [bind].
  destruct (list_total c ppf sort craters basins unseeded 0%nat) as (df & k & L). rewrite L. cbn [bind].
  destruct H as [ms_ice0 ms_bsed0 ms_traps0 ms_names0 ms_step0 ms_two0 ms_ppf0 ms_sort0 ms_draws0].
  assert (Nd : NoDup (names_of df)).
  { eapply Permutation_NoDup; [symmetry; eapply list_names; eauto|assumption]. }
  destruct (module_ok true c ppf df time (stream 0%Z) 0%nat ms_ice0 ms_bsed0 ms_ppf0 ms_traps0 Nd Ne (proj2 ms_draws0 0%Z))
    as (t & k' & volc & sw & mm & si & ssc & lsc & cc & b & bs & Em & C & _).
  rewrite Em. cbn [bind].
  destruct (columns_tbl _ _ _ _ _ _ _ _ _ _ _ _ C) as (g & -> & _).
  rewrite tzero_tbl.
  replace (tbl names11 (length time) (fun n i => option_map (fun v => v * 0) (Some (g n i))))
    with (tbl names11 (length time) (fun n i => Some 0)) by (apply tbl_ext; intros; cbn; f_equal; lra).
  reflexivity.
Qed.

Lemma negative_seed c ppf sort craters basins stream unseeded seeds : module_sane c ppf sort craters basins stream unseeded ->
  Exists (fun s => (s < 0)%Z) seeds -> plot_by_module c ppf sort craters basins stream unseeded seeds = Err ValueError.
Proof.
  intros H E. destruct (seeds_setup _ _ _ _ _ _ _ seeds H) as (time & Et & Ne & Q). unfold plot_by_module. rewrite Q. cbv zeta.
  enough (A : forall adf cdf, add_seeds c ppf sort craters basins stream time adf cdf seeds = Err ValueError) by now rewrite A.
  clear Q. induction seeds as [|s seeds IH]; [inversion E|]. intros adf cdf. cbn [add_seeds].
  destruct (Z.lt_ge_cases s 0) as [N|N].
  - unfold seed_table at 1. destruct (Z.ltb_spec s 0); [reflexivity|lia].
  - destruct (seed_tbl _ _ _ _ _ _ _ time s H Ne N) as (a & _ & Ea & _).
    destruct (seed_tbl _ _ _ _ _ _ _ time s (comet_module _ _ _ _ _ _ _ H) Ne N) as (b & _ & Eb & _).
    rewrite Ea, Eb. cbn [bind]. apply IH. inversion E; subst; [lia|assumption].
Qed.

Lemma in_era_none b n x : in_era b (repeat None n) x = [].
Proof.
  unfold in_era. replace (filter _ _) with (@nil (option R * option R)); [reflexivity|]. symmetry.
  revert x. induction n as [|n IH]; intros [|y x]; try reflexivity. cbn [repeat combine filter fst in_bin]. apply IH.
Qed.
Lemma no_seeds c ppf sort craters basins stream unseeded : module_sane c ppf sort craters basins stream unseeded ->
  plot_by_module c ppf sort craters basins stream unseeded [] =
  Ok (map (fun p => (fst p, map (fun n => mark_of (n, (None, None, None))) shown_names)) periods).
Proof.
  intros H. destruct (seeds_setup _ _ _ _ _ _ _ [] H) as (time & Et & Ne & Q). unfold plot_by_module. rewrite Q. cbv zeta.
  cbn [add_seeds bind length]. rewrite !tdiv_tbl, tadd_tbl. rewrite tcol_tbl by (cbn; auto). cbn [bind].
  unfold loss_keys. cbn [mapM]. rewrite !tcol_tbl by (cbn; auto 20). cbn [bind].
  rewrite (filter_tbl (fun n => negb (existsb (String.eqb n) ["time"; "Gardening depth"; "Ballistic sed depth"]%string))).
  cbn [names11 filter existsb String.eqb Ascii.eqb Bool.eqb negb orb].
  assert (R0 : forall {A} (l : list A), map (fun _ => @None R) l = repeat None (length l)) by (induction l; cbn; congruence).
  cbn [oadd]. unfold tbl. rewrite !map_map. cbn [option_map].
  set (N := map (fun _ : nat => @None R) (seq 0 (length time))).
  unfold by_era, module_frame, row_sums.
  cbn [map app tcol find fst String.eqb Ascii.eqb Bool.eqb bind mapM impactor_keys other_ice_keys module_order].
  assert (Rn : N = repeat None (length time)) by (unfold N; rewrite R0, seq_length; reflexivity).
  rewrite Rn. cbn [eras map]. rewrite !in_era_none. reflexivity.
Qed.

Lemma micro_source c ppf sort craters basins stream unseeded seeds t time mm com : module_sane c ppf sort craters basins stream unseeded ->
  Forall (fun s => (0 <= s)%Z) seeds -> seeds <> [] ->
  get_ice_ast_comet_seeds c ppf sort craters basins stream unseeded seeds = Ok t ->
  get_time_array (r_rnd c) (r_start c) (r_end c) (r_step c) = Ok time ->
  get_micrometeorite_ice (r_i c) time = Ok mm -> get_micrometeorite_ice (get_comet_cfg (r_i c)) time = Ok com ->
  forall i, (i < length time)%nat -> exists v w, nth_error mm i = Some v /\ nth_error com i = Some w /\
    entry t "Micrometeorite ice" i (v + w).
Proof.
  intros H Hs Hn Et Eti Em Ec i Hi.
  destruct (table_form _ _ _ _ _ _ _ _ H Hs Hn) as (time' & ast & cm & F & H1 & Ne & H3 & H4 & H5 & H6 & H7 & H8 & H9).
  rewrite Eti in H1. injection H1 as <-. rewrite Et in H7. injection H7 as ->.
  pose proof (comet_module _ _ _ _ _ _ _ H) as Hc.
  assert (K : forall cc m, module_sane cc ppf sort craters basins stream unseeded -> get_micrometeorite_ice (r_i cc) time = Ok m ->
    exists v, nth_error m i = Some v /\ forall s a, seed_table ppf sort craters basins stream cc time s = Ok a -> entry a "Micrometeorite ice" i v).
  { intros cc m Hcc E. assert (Lm : length m = length time).
    { destruct (micro_ok (r_i cc) time) as (m' & E' & G'); [apply Hcc|]. rewrite E in E'. injection E' as <-. apply G'. }
    destruct (nth_error m i) as [v|] eqn:Q; [|apply nth_error_None in Q; lia]. exists v. split; [reflexivity|]. intros s a Ea.
    assert (P : (0 <= s)%Z) by (unfold seed_table in Ea; destruct (Z.ltb_spec s 0); [discriminate|lia]).
    destruct (seed_ok _ _ _ _ _ _ _ time s Hcc Ne P) as (a' & df & k & k' & volc & sw & mm' & si & ssc & lsc & c2 & b & bs & E' & L & Ab & C & _).
    rewrite Ea in E'. injection E' as <-. pose proof C as (_ & _ & _ & _ & _ & V3 & _). rewrite E in V3. injection V3 as <-.
    destruct (columns_tbl _ _ _ _ _ _ _ _ _ _ _ _ C) as (g & -> & Gn). apply entry_tbl; [cbn; auto 20|exact Hi|].
    rewrite <- Q. symmetry. apply Gn; [cbn; auto 20|exact Hi]. }
  destruct (K c mm H Em) as (v & Q1 & K1). destruct (K (comet_run c) com Hc Ec) as (w & Q2 & K2). exists v, w. split; [exact Q1|]. split; [exact Q2|].
  replace (v + w) with (F "Micrometeorite ice"%string i); [apply entry_rest; [cbn; auto 20|exact Hi]|].
  rewrite H8 by (cbn; auto 20).
  rewrite (column_const c ppf sort craters basins stream unseeded time i "Micrometeorite ice" v H Ne Hi K1 seeds ast Hn H3).
  rewrite (column_const (comet_run c) ppf sort craters basins stream unseeded time i "Micrometeorite ice" w Hc Ne Hi K2 seeds cm Hn H4). reflexivity.
Qed.

Lemma all_some {A} (l : list (option A)) : Forall (fun o => o <> None) l -> exists x, l = map Some x.
Proof.
  induction 1 as [|o l N _ [x ->]]; [now exists []|]. destruct o as [a|]; [|now elim N]. now exists (a :: x).
Qed.
Lemma omean_products : forall ds ms, combine ds ms <> [] -> omean (zipw omul (map Some ds) (map Some ms)) = Some (mean (map (fun '(d, m) => d * m) (combine ds ms))).
Proof.
  intros ds ms Ne. set (l := map (fun '(d, m) => d * m) (combine ds ms)).
  assert (Z : zipw omul (map Some ds) (map Some ms) = map Some l).
  { unfold l. clear. revert ms. induction ds as [|d ds IH]; intros [|m ms]; try reflexivity. unfold zipw in *. cbn. f_equal. apply IH. }
  rewrite Z. assert (Nl : l <> []) by (unfold l; destruct (combine ds ms); [now elim Ne|discriminate]). clearbody l. unfold omean, mean.
  assert (Q : forall k : list R, osum (map Some k) = Some (Rsum k)).
  { induction k as [|x k IH]; [reflexivity|]. unfold osum in *. cbn [map fold_right]. rewrite IH. reflexivity. }
  rewrite Q, map_length. destruct l; [now elim Nl|]. reflexivity.
Qed.
Lemma mixing_of_seed c ppf sort craters basins stream unseeded time s t : module_sane c ppf sort craters basins stream unseeded ->
  time <> [] -> seed_table ppf sort craters basins stream c time s = Ok t ->
  exists df k dists depth_rows melt_rows,
    get_crater_basin_list c ppf sort craters basins (stream s) 0%nat = Ok (df, k) /\
    get_coldtrap_dists (r_ejthr c) (r_basinthr c) (r_names c) (map site_of df) = Ok dists /\
    get_bsed_depth (crat (r_i c)) (r_bsed c) (r_melt c) (r_min c) (r_tol c) (length (r_names c)) time (map site_of df) dists = Ok (depth_rows, melt_rows) /\
    forall i, (i < length time)%nat -> exists ds ms,
      nth_error depth_rows i = Some (map Some ds) /\ nth_error melt_rows i = Some (map Some ms) /\
      length ds = length (r_names c) /\ length ms = length (r_names c) /\
      entry t "Ballistic sed depth" i (mean (map (fun '(d, m) => d * m) (combine ds ms))).
Proof.
  intros H Ne E. destruct (seed_sources _ _ _ _ _ _ _ time s t H Ne E) as (df & k & _ & _ & _ & _ & L & _ & _ & _ & Ag & _).
  unfold get_agg_bsed_depth in Ag. cbv zeta in Ag.
  assert (Nd : NoDup (names_of df)) by (eapply Permutation_NoDup; [symmetry; eapply list_names; [apply H|exact L]|apply H]).
  destruct (dists_total (r_ejthr c) (r_basinthr c) (r_names c) (map site_of df) ltac:(rewrite site_names; exact Nd)) as (dists & H3 & Ld & Fd & Rd).
  destruct (bsed_some c time (map site_of df) dists (ms_bsed _ _ _ _ _ _ _ H) Ne Ld Fd Rd) as (bd & bf & Hb & L1 & L2 & F1 & F2).
  rewrite H3 in Ag. cbn [bind] in Ag. rewrite Hb in Ag. cbn [bind] in Ag.
  exists df, k, dists, bd, bf. split; [exact L|]. split; [exact H3|]. split; [exact Hb|]. intros i Hi.
  destruct (nth_error bd i) as [d|] eqn:Ed; [|apply nth_error_None in Ed; lia]. destruct (nth_error bf i) as [f|] eqn:Ef; [|apply nth_error_None in Ef; lia].
  rewrite Forall_forall in F1, F2. destruct (F1 d (nth_error_In _ _ Ed)) as [Ld1 Sd]. destruct (F2 f (nth_error_In _ _ Ef)) as [Lf1 Sf].
  destruct (all_some d Sd) as (ds & ->). destruct (all_some f Sf) as (ms & ->). rewrite map_length in Ld1, Lf1. exists ds, ms. split; [reflexivity|]. split; [reflexivity|].
  split; [exact Ld1|]. split; [exact Lf1|]. eexists. split; [symmetry; exact Ag|]. rewrite nth_error_map.
  assert (Nc : nth_error (combine bd bf) i = Some (map Some ds, map Some ms)).
  { clear -Ed Ef. revert bd bf Ed Ef. induction i as [|i IH]; intros [|a bd] [|b bf] Ed Ef; try discriminate; cbn in *; [congruence|auto]. }
  rewrite Nc. cbn [option_map]. rewrite omean_products; [reflexivity|]. pose proof (ms_traps _ _ _ _ _ _ _ H) as Nt. destruct (r_names c); [now elim Nt|]. destruct ds, ms; cbn in *; congruence.
Qed.
