(** Two runs that differ in the cold traps only. *)
From Coq Require Import String List ZArith Reals Lia Lra Bool Permutation Sorted.
From Verif Require Import Base Arith Model_Column Model_Time Model_Geo Model_Interp Model_Crater
  Model_Ice Model_Rng Model_Strat Model_Melt Model_Main Spec_Time Spec_Geo Spec_Ice Spec_Strat Spec_Melt Spec_Main
  Proofs_Base Proofs_Time Proofs_Geo Proofs_Ice Proofs_Rng Proofs_Column Proofs_ColumnR Proofs_ColumnP Proofs_Scaling Proofs_Crater Proofs_Strat Proofs_Labels Proofs_Melt Proofs_Bsed Proofs_Main.
Import ListNotations.
Open Scope R_scope.

(** ** Columns *)
Definition colj {A} (m : list (list A)) (j : nat) : list (option A) := map (fun r => nth_error r j) m.

Lemma column_colj {A} (m : list (list A)) j m' j' : colj m j = colj m' j' -> column m j = column m' j'.
Proof.
  unfold column, colj. revert m'. induction m as [|r m IH]; intros [|r' m'] H; try discriminate; [reflexivity|].
  cbn [map] in H. injection H as H1 H2. cbn [mapM]. unfold get at 1 3. rewrite H1.
  destruct (nth_error r' j'); [|reflexivity]. cbn [bind]. now rewrite (IH m' H2).
Qed.
Lemma colj_length {A} (m : list (list A)) j m' j' : colj m j = colj m' j' -> length m = length m'.
Proof. intros H. apply (f_equal (@length _)) in H. unfold colj in H. now rewrite !map_length in H. Qed.

Definition opt2 {A B C} (f : A -> B -> C) (a : option A) (b : option B) : option C :=
  match a, b with Some x, Some y => Some (f x y) | _, _ => None end.
Lemma nth_zipw {A B C} (f : A -> B -> C) a : forall b j,
  nth_error (zipw f a b) j = opt2 f (nth_error a j) (nth_error b j).
Proof.
  unfold zipw. induction a as [|x a IH]; intros b j; cbn [combine map].
  - destruct j; reflexivity.
  - destruct b as [|y b]; cbn [map].
    + destruct j; cbn [nth_error]; [reflexivity|]. now destruct (nth_error a j).
    + destruct j; cbn [nth_error]; [reflexivity|]. apply IH.
Qed.

(** ** Placing events is a homomorphism *)
Section Hom.
  Context {V W : Type} (agg : V -> V -> V) (agg' : W -> W -> W) (fill : V) (h : V -> W).
  Hypothesis hom : forall a b, h (agg a b) = agg' (h a) (h b).

  Lemma upd_map (l : list V) i x : map h (upd l i x) = upd (map h l) i (h x).
  Proof. revert i. induction l as [|y l IH]; intros [|i]; cbn [upd map]; auto. now rewrite IH. Qed.
  Lemma place_map time acc ev : map h (place agg time acc ev) = place agg' time (map h acc) (fst ev, h (snd ev)).
  Proof.
    unfold place. cbn [fst snd]. rewrite nth_error_map. destruct (nth_error acc (nearest_idx time (fst ev))); cbn [option_map]; auto.
    now rewrite upd_map, hom.
  Qed.
  Lemma ages2time_map tol time ev : 
    ages2time agg' (h fill) tol time (map (fun e => (fst e, h (snd e))) ev)
    = match ages2time agg fill tol time ev with Ok l => Ok (map h l) | Err e => Err e end.
  Proof.
    unfold ages2time. destruct (minmax_rtol time tol) as [[lo hi]|]; [|reflexivity]. cbn [bind]. f_equal.
    assert (F : forall l acc, fold_left (place agg' time) (map (fun e => (fst e, h (snd e))) l) (map h acc) = map h (fold_left (place agg time) l acc)).
    { induction l as [|e l IH]; intros acc; cbn [map fold_left]; auto. rewrite <- IH, place_map. reflexivity. }
    rewrite <- F. f_equal.
    - induction ev as [|e ev IH]; [reflexivity|]. cbn [map filter fst]. destruct (Rleb lo (fst e) && Rleb (fst e) hi); cbn [map]; rewrite IH; reflexivity.
    - generalize (length time). intros m. induction m as [|m IH]; [reflexivity|]. cbn [repeat map]. now rewrite IH.
  Qed.
End Hom.

Lemma nth_repeat_lt {A} (x : A) n j : (j < n)%nat -> nth_error (repeat x n) j = Some x.
Proof. revert j. induction n as [|n IH]; intros [|j] L; try lia; cbn; auto. apply IH. lia. Qed.

(** Column [j] of the placed rows depends on column [j] of the rows only. *)
Lemma ages2time_colj {A} (f : A -> A -> A) z tol time ages vals vals' n n' j j' l l' :
  (j < n)%nat -> (j' < n')%nat -> colj vals j = colj vals' j' ->
  ages2time (zipw f) (repeat z n) tol time (combine ages vals) = Ok l ->
  ages2time (zipw f) (repeat z n') tol time (combine ages vals') = Ok l' ->
  colj l j = colj l' j'.
Proof.
  intros Lj Lj' H E E'.
  pose proof (ages2time_map (zipw f) (opt2 f) (repeat z n) (fun r => nth_error r j) (fun a b => nth_zipw f a b j) tol time (combine ages vals)) as P.
  pose proof (ages2time_map (zipw f) (opt2 f) (repeat z n') (fun r => nth_error r j') (fun a b => nth_zipw f a b j') tol time (combine ages vals')) as P'.
  rewrite E in P. rewrite E' in P'. cbn beta in P, P'. rewrite nth_repeat_lt in P, P' by assumption.
  assert (Q : map (fun e : R * list A => (fst e, nth_error (snd e) j)) (combine ages vals)
            = map (fun e => (fst e, nth_error (snd e) j')) (combine ages vals')).
  { clear - H. revert vals vals' H. induction ages as [|a ages IH]; intros vals vals' H; [reflexivity|].
    destruct vals as [|v vals], vals' as [|v' vals']; try discriminate; [reflexivity|].
    unfold colj in H. cbn [map] in H. injection H as H1 H2. cbn [combine map fst snd]. rewrite H1. f_equal. now apply IH. }
  rewrite Q in P. rewrite P in P'. injection P' as P'. exact P'.
Qed.

Lemma colj_rows {A B C} (g : A -> B -> C) (a : list A) (m m' : list (list B)) j j' : colj m j = colj m' j' ->
  colj (map (fun '(r, row) => map (g r) row) (combine a m)) j = colj (map (fun '(r, row) => map (g r) row) (combine a m')) j'.
Proof.
  revert m m'. induction a as [|x a IH]; intros m m' H; [reflexivity|].
  destruct m as [|r m], m' as [|r' m']; try discriminate; [reflexivity|].
  unfold colj in *. cbn [map] in H. injection H as H1 H2. cbn [combine map]. rewrite !nth_error_map, H1. f_equal. now apply IH.
Qed.
Lemma colj_map {B C} (g : B -> C) (m m' : list (list B)) j j' : colj m j = colj m' j' ->
  colj (map (map g) m) j = colj (map (map g) m') j'.
Proof.
  intros H. unfold colj in *. rewrite !map_map.
  revert m' H. induction m as [|r m IH]; intros [|r' m'] H; try discriminate; [reflexivity|].
  cbn [map] in *. injection H as H1 H2. rewrite !nth_error_map, H1. f_equal. now apply IH.
Qed.
Lemma colj_zip {A B C} (f : A -> B -> C) (m m' : list (list A)) (k k' : list (list B)) j j' :
  colj m j = colj m' j' -> colj k j = colj k' j' ->
  colj (map (fun '(a, b) => zipw f a b) (combine m k)) j = colj (map (fun '(a, b) => zipw f a b) (combine m' k')) j'.
Proof.
  revert m' k k'. induction m as [|r m IH]; intros [|r' m'] k k' H K; try discriminate; [reflexivity|].
  destruct k as [|s k], k' as [|s' k']; try discriminate; [reflexivity|].
  unfold colj in *. cbn [map] in H, K. injection H as H1 H2. injection K as K1 K2. cbn [combine map].
  rewrite !nth_zipw, H1, K1. f_equal. now apply IH.
Qed.

(** ** The steps of a run *)
Lemma dists_colj thr bthr names names' sites d d' j j' n :
  nth_error names j = Some n -> nth_error names' j' = Some n ->
  get_coldtrap_dists thr bthr names sites = Ok d -> get_coldtrap_dists thr bthr names' sites = Ok d' ->
  colj d j = colj d' j'.
Proof.
  intros J J' H H'. unfold get_coldtrap_dists in *.
  destruct (mapM_nth _ _ _ H) as [L N]. destruct (mapM_nth _ _ _ H') as [L' N'].
  apply nth_error_ext_eq. intros i. unfold colj. rewrite !nth_error_map.
  destruct (nth_error sites i) as [s|] eqn:E.
  - destruct (N i s E) as (row & -> & R). destruct (N' i s E) as (row' & -> & R'). cbn [option_map]. f_equal.
    destruct (mapM_nth _ _ _ R) as [_ M]. destruct (mapM_nth _ _ _ R') as [_ M'].
    destruct (M j n J) as (b & B & F). destruct (M' j' n J') as (b' & B' & F'). congruence.
  - apply nth_error_None in E.
    replace (nth_error d i) with (@None (list (option R))) by (symmetry; apply nth_error_None; lia).
    replace (nth_error d' i) with (@None (list (option R))) by (symmetry; apply nth_error_None; lia). reflexivity.
Qed.

Lemma thick_time_colj c tm tol n n' time df d d' j j' ej src ej' src' :
  (j < n)%nat -> (j' < n')%nat -> colj d j = colj d' j' ->
  get_ejecta_thickness_time c tm tol n time df d = Ok (ej, src) ->
  get_ejecta_thickness_time c tm tol n' time df d' = Ok (ej', src') ->
  colj ej j = colj ej' j' /\ colj src j = colj src' j'.
Proof.
  intros Lj Lj' D H H'. unfold get_ejecta_thickness_time in *.
  destruct (ages2time (zipw Rplus) _ _ _ _) as [e|] eqn:E in H; [|discriminate]. cbn [bind] in H.
  destruct (ages2time (zipw String.append) _ _ _ _) as [s|] eqn:S1 in H; [|discriminate]. cbn [bind] in H.
  destruct (ages2time (zipw Rplus) _ _ _ _) as [e'|] eqn:E' in H'; [|discriminate]. cbn [bind] in H'.
  destruct (ages2time (zipw String.append) _ _ _ _) as [s'|] eqn:S1' in H'; [|discriminate]. cbn [bind] in H'.
  injection H as <- <-. injection H' as <- <-.
  assert (T : colj (get_ejecta_thickness_matrix c (map s_rad df) d) j = colj (get_ejecta_thickness_matrix c (map s_rad df) d') j').
  { unfold get_ejecta_thickness_matrix. apply (colj_rows (fun r d => get_ejecta_thickness c d r)). exact D. }
  split.
  - eapply ages2time_colj; [exact Lj|exact Lj'|exact T|exact E|exact E'].
  - apply colj_map. eapply ages2time_colj; [exact Lj|exact Lj'| |exact S1|exact S1'].
    apply (colj_rows (fun s x => src_text tm (s_name s) x)). exact T.
Qed.

Lemma bsed_colj c b t tm tol n n' time df d d' j j' bd bf bd' bf' :
  (j < n)%nat -> (j' < n')%nat -> colj d j = colj d' j' ->
  get_bsed_depth c b t tm tol n time df d = Ok (bd, bf) ->
  get_bsed_depth c b t tm tol n' time df d' = Ok (bd', bf') ->
  colj bd j = colj bd' j' /\ (bsed_on b = false -> colj bf j = colj bf' j').
Proof.
  intros Lj Lj' D H H'. unfold get_bsed_depth in *. destruct (bsed_on b).
  - destruct (get_melt_frac _ _ _) as [mf|] eqn:M in H; [|discriminate]. cbn [bind] in H.
    destruct (get_melt_frac _ _ _) as [mf'|] eqn:M' in H'; [|discriminate]. cbn [bind] in H'.
    destruct (get_ejecta_thickness_time c tm tol n time df d) as [[ej src]|] eqn:E; [|discriminate]. cbn [bind] in H.
    destruct (get_ejecta_thickness_time c tm tol n' time df d') as [[ej' src']|] eqn:E'; [|discriminate]. cbn [bind] in H'.
    destruct (ages2time _ _ _ _ (combine _ (get_mixing_ratio_oberbeck b d))) as [mt|] eqn:A; [|discriminate]. cbn [bind] in H.
    destruct (ages2time _ _ _ _ (combine _ (get_mixing_ratio_oberbeck b d'))) as [mt'|] eqn:A'; [|discriminate]. cbn [bind] in H'.
    destruct (ages2time _ _ _ _ (combine _ mf)) as [ft|] eqn:B; [|discriminate]. cbn [bind] in H.
    destruct (ages2time _ _ _ _ (combine _ mf')) as [ft'|] eqn:B'; [|discriminate]. cbn [bind] in H'.
    assert (Q : forall (x x' : list (list (option R))) (y y' : list (list (option R))), Ok (x, y) = Ok (x', y') -> x = x' /\ y = y').
    { intros x x' y y' [= -> ->]. auto. }
    apply Q in H as [<- _]. apply Q in H' as [<- _].
    split; [|discriminate]. destruct (thick_time_colj _ _ _ _ _ _ _ _ _ _ _ _ _ _ _ Lj Lj' D E E') as [Ce _].
    apply (colj_zip (fun x y => omul (Some x) y)); auto.
    eapply ages2time_colj; [exact Lj|exact Lj'| |exact A|exact A'].
    unfold get_mixing_ratio_oberbeck. apply colj_map. exact D.
  - injection H as <- <-. injection H' as <- <-.
    assert (Q : colj (map (fun _ : R => repeat (Some 0) n) time) j = colj (map (fun _ : R => repeat (Some 0) n') time) j').
    { unfold colj. rewrite !map_map. apply map_ext. intros _. now rewrite !nth_repeat_lt. }
    auto.
Qed.

Lemma ages2time_length {V} (agg : V -> V -> V) fill tol time ev l : ages2time agg fill tol time ev = Ok l -> length l = length time.
Proof.
  unfold ages2time. destruct (minmax_rtol time tol) as [[lo hi]|]; [|discriminate]. cbn [bind]. intros H. injection H as <-.
  assert (U : forall (a : list V) i x, length (upd a i x) = length a).
  { induction a as [|y a IH]; intros [|i] x; cbn [upd length]; auto. }
  assert (F : forall es acc, length (fold_left (place agg time) es acc) = length acc).
  { induction es as [|e es IH]; intros acc; cbn [fold_left]; auto. rewrite IH. unfold place.
    destruct (nth_error acc _); auto. }
  rewrite F. apply repeat_length.
Qed.
Lemma bsed_length c b t tm tol n time df d bd bf : get_bsed_depth c b t tm tol n time df d = Ok (bd, bf) -> length bf = length time.
Proof.
  intros H. unfold get_bsed_depth in H. destruct (bsed_on b).
  - destruct (get_melt_frac _ _ _) as [mf|]; [|discriminate]. cbn [bind] in H.
    destruct (get_ejecta_thickness_time c tm tol n time df d) as [[ej src]|]; [|discriminate]. cbn [bind] in H.
    destruct (ages2time _ _ _ _ (combine _ (get_mixing_ratio_oberbeck b d))) as [mt|]; [|discriminate]. cbn [bind] in H.
    destruct (ages2time _ _ _ _ (combine _ mf)) as [ft|] eqn:B; [|discriminate]. cbn [bind] in H.
    apply ages2time_length in B. assert (E : bf = map (map (omul (Some (frac_lost b)))) ft) by congruence.
    rewrite E, map_length. exact B.
  - injection H as <- <-. apply map_length.
Qed.
Lemma colj_cells {A} (m m' : list (list A)) j j' : length m = length m' ->
  (forall i x, cell_is m i j x <-> cell_is m' i j' x) -> colj m j = colj m' j'.
Proof.
  intros L H. apply nth_error_ext_eq. intros i. unfold colj. rewrite !nth_error_map.
  destruct (nth_error m i) as [r|] eqn:E.
  - destruct (nth_error m' i) as [r'|] eqn:E'.
    2:{ apply nth_error_None in E'. assert (nth_error m i <> None) by congruence. apply nth_error_Some in H0. lia. }
    cbn [option_map]. f_equal. destruct (nth_error r j) as [x|] eqn:X.
    + destruct (proj1 (H i x)) as (q & Q1 & Q2); [exists r; auto|]. congruence.
    + destruct (nth_error r' j') as [x|] eqn:X'; auto.
      destruct (proj2 (H i x)) as (q & Q1 & Q2); [exists r'; auto|]. congruence.
  - apply nth_error_None in E. rewrite L in E. apply nth_error_None in E. now rewrite E.
Qed.

Lemma hop_colj c bhop names names' polar volc m m' j j' n :
  nth_error names j = Some n -> nth_error names' j' = Some n ->
  distribute_ice c bhop names polar volc = Ok m -> distribute_ice c bhop names' polar volc = Ok m' ->
  colj m j = colj m' j'.
Proof.
  intros J J' H H'. unfold distribute_ice in *. destruct (if use_volc_dep c then _ else _) as [p v].
  assert (G : forall (rows rows' : list (list R)), colj rows j = colj rows' j' ->
    colj (map (fun '(row, v) => map (fun x => x + v) row) (combine rows v)) j =
    colj (map (fun '(row, v) => map (fun x => x + v) row) (combine rows' v)) j').
  { intros rows rows' C. unfold colj in *. rewrite !map_map. clear - C. revert rows' v C.
    induction rows as [|r rows IH]; intros [|r' rows'] v C; try discriminate; [reflexivity|].
    cbn [map] in C. injection C as C1 C2. destruct v as [|x v]; [reflexivity|]. cbn [combine map].
    rewrite !nth_error_map, C1. f_equal. now apply IH. }
  destruct (hop_moores c).
  - destruct (get_ballistic_hop_coldtraps bhop names) as [hs|] eqn:B; [|discriminate].
    destruct (get_ballistic_hop_coldtraps bhop names') as [hs'|] eqn:B'; [|discriminate].
    cbn [bind] in H, H'. injection H as <-. injection H' as <-. apply G.
    destruct (mapM_nth _ _ _ B) as [_ M]. destruct (mapM_nth _ _ _ B') as [_ M'].
    destruct (M j n J) as (x & X & F). destruct (M' j' n J') as (x' & X' & F').
    unfold colj. rewrite !map_map. apply map_ext. intros q. rewrite !nth_error_map, X, X'. cbn [option_map]. congruence.
  - cbn [bind] in H, H'. injection H as <-. injection H' as <-. apply G.
    unfold colj. rewrite !map_map. apply map_ext. intros q. now rewrite !nth_error_map, J, J'.
Qed.

Lemma ice_colj c ppf tol lum bhop names names' df time u k m m' k1 k2 :
  get_ice_cols_time c ppf tol lum bhop names df time u k = Ok (m, k1) ->
  get_ice_cols_time c ppf tol lum bhop names' df time u k = Ok (m', k2) ->
  k1 = k2 /\ forall n j j', nth_error names j = Some n -> nth_error names' j' = Some n -> colj m j = colj m' j'.
Proof.
  intros H H'. unfold get_ice_cols_time in *.
  apply rbind_ok in H as (p & k3 & H1 & H). apply rbind_ok in H' as (p' & k3' & H1' & H').
  rewrite H1 in H1'. injection H1' as <- <-.
  apply rbind_ok in H as (v & k4 & H2 & H). apply rbind_ok in H' as (v' & k4' & H2' & H').
  apply lift_ok in H2 as [H2 ->]. apply lift_ok in H2' as [H2' ->]. rewrite H2 in H2'. injection H2' as <-.
  apply lift_ok in H as [H ->]. apply lift_ok in H' as [H' ->]. split; auto.
  intros n j j' J J'. eapply hop_colj; eauto.
Qed.

Lemma get2_colj (m m' : list (list R)) j j' k : colj m j = colj m' j' -> get2 m k j = get2 m' k j'.
Proof.
  intros H. apply (f_equal (fun l => nth_error l k)) in H. unfold colj in H. rewrite !nth_error_map in H.
  unfold get2, get at 1 3. destruct (nth_error m k) as [r|], (nth_error m' k) as [r'|]; cbn [option_map] in H; try discriminate; [|reflexivity].
  injection H as H. cbn [bind]. unfold get. now rewrite H.
Qed.

Lemma in_nth_unique {V} (l : list (string * V)) names j n v : NoDup names -> map fst l = names ->
  nth_error names j = Some n -> nth_error l j = Some (n, v) -> forall x, In (n, x) l <-> x = v.
Proof.
  intros N F J H x. split.
  - intros I. apply In_nth_error in I as [i I].
    assert (i = j) as ->.
    { assert (nth_error names i = Some n) by (rewrite <- F, nth_error_map, I; reflexivity).
      rewrite NoDup_nth_error in N. apply N; [apply nth_error_Some; congruence|congruence]. }
    congruence.
  - intros ->. eapply nth_error_In. exact H.
Qed.

(** What the two runs agree on before the columns are updated, and that this is enough if
    they also agree on the fractions lost to ballistic sedimentation. *)
Lemma runs_agree c names names' ppf sort craters basins u k out k1 out' k1' j j' n :
  sorts_by_age sort -> NoDup names -> NoDup names' -> NoDup (map w_name (craters ++ basins)) ->
  main (with_names c names) ppf sort craters basins u k = Ok (out, k1) ->
  main (with_names c names') ppf sort craters basins u k = Ok (out', k1') ->
  nth_error names j = Some n -> nth_error names' j' = Some n ->
  (bsed_on (r_bsed c) = true -> forall df k0 d d' bd bf bd' bf',
     get_crater_basin_list c ppf sort craters basins u k = Ok (df, k0) ->
     get_coldtrap_dists (r_ejthr c) (r_basinthr c) names (map site_of df) = Ok d ->
     get_coldtrap_dists (r_ejthr c) (r_basinthr c) names' (map site_of df) = Ok d' ->
     get_bsed_depth (crat (r_i c)) (r_bsed c) (r_melt c) (r_min c) (r_tol c) (length names) (o_time out) (map site_of df) d = Ok (bd, bf) ->
     get_bsed_depth (crat (r_i c)) (r_bsed c) (r_melt c) (r_min c) (r_tol c) (length names') (o_time out) (map site_of df) d' = Ok (bd', bf') ->
     colj bf j = colj bf' j') ->
  k1 = k1' /\ same_for n out out'.
Proof.
  intros So N N' Nr H H' J J' HB.
  pose proof (main_time _ _ _ _ _ _ _ _ _ H) as HT.
  apply main_ok in H as (time & df & k2 & d & d0 & bd & bf & d1 & T & L & D & I & B & U & F).
  apply main_ok in H' as (time' & df' & k2' & d' & d0' & bd' & bf' & d1' & T' & L' & D' & I' & B' & U' & F').
  cbn [with_names r_i r_names r_start r_end r_step r_tol r_min r_ejthr r_basinthr r_bsed r_melt r_shield r_after_age r_lum r_bhop r_rnd] in *.
  rewrite T in T'. injection T' as <-. rewrite T in HT. injection HT as HT. rewrite <- HT in *. clear HT.
  pose proof (list_nodup _ _ _ _ _ _ _ _ _ So L Nr) as Nd.
  assert (L0 : get_crater_basin_list c ppf sort craters basins u k = Ok (df, k2)) by exact L.
  assert (L0' : get_crater_basin_list c ppf sort craters basins u k = Ok (df', k2')) by exact L'.
  rewrite L0 in L0'. injection L0' as <- <-. clear L L'.
  pose proof (dists_colj _ _ _ _ _ _ _ _ _ _ J J' D D') as CD.
  assert (Lj : (j < length names)%nat) by (apply nth_error_Some; congruence).
  assert (Lj' : (j' < length names')%nat) by (apply nth_error_Some; congruence).
  apply init_ok in I as (ej & src & ice & I1 & I2 & _ & I3); [|exact N].
  apply init_ok in I' as (ej' & src' & ice' & I1' & I2' & _ & I3'); [|exact N'].
  cbn [with_names r_i r_names r_start r_end r_step r_tol r_min r_lum r_bhop] in *.
  destruct (thick_time_colj _ _ _ _ _ _ _ _ _ _ _ _ _ _ _ Lj Lj' CD I1 I1') as [Ce Cs].
  destruct (ice_colj _ _ _ _ _ _ _ _ _ _ _ _ _ _ _ I2 I2') as [<- Ci]. specialize (Ci n j j' J J').
  split; [reflexivity|].
  destruct (I3 j n J) as (x & y & s & X & Y & Z & Lo). destruct (I3' j' n J') as (x' & y' & s' & X' & Y' & Z' & Lo').
  rewrite (column_colj _ _ _ _ Ci), X' in X. injection X as <-.
  rewrite (column_colj _ _ _ _ Ce), Y' in Y. injection Y as <-.
  rewrite (column_colj _ _ _ _ Cs), Z' in Z. injection Z as <-.
  destruct (bsed_colj _ _ _ _ _ _ _ _ _ _ _ _ _ _ _ _ _ Lj Lj' CD B B') as [Cd Cf].
  assert (CF : colj bf j = colj bf' j').
  { destruct (bsed_on (r_bsed c)) eqn:On; [|auto]. eapply HB; eauto. }
  assert (LU : lookup d1 n = lookup d1' n).
  { eapply (update_independent exactR); [exact N|exact N'|exact J|exact J'|rewrite Lo, Lo'; reflexivity| |exact U|exact U'].
    intros q _. split; apply get2_colj; apply colj_map; assumption. }
  apply format_ok in F as (F1 & F2 & F3 & F4 & F5); auto. apply format_ok in F' as (F1' & F2' & F3' & F4' & F5'); auto.
  cbn [with_names r_names r_rnd r_min r_tol r_after_age] in *.
  destruct (F5 j n J) as (r & st & la & Hr & Rn & Ls & Ms & O1 & O2 & O3).
  destruct (F5' j' n J') as (r' & st' & la' & Hr' & Rn' & Ls' & Ms' & O1' & O2' & O3').
  rewrite LU, Ls' in Ls. injection Ls as ->.
  assert (r' = r) as ->.
  { apply In_nth_error in Hr as [p Hp]. apply In_nth_error in Hr' as [p' Hp'].
    assert (p = p'); [|congruence]. unfold names_of in Nd. rewrite NoDup_nth_error in Nd. apply Nd.
    - rewrite map_length. apply nth_error_Some. congruence.
    - rewrite !nth_error_map, Hp, Hp'. cbn [option_map]. congruence. }
  rewrite Ms in Ms'. injection Ms' as <-.
  unfold same_for. split; [congruence|]. repeat split; intros G.
  1,3,5: rewrite (in_nth_unique _ _ _ _ _ N) in G by eassumption; subst; eapply nth_error_In; eassumption.
  all: rewrite (in_nth_unique _ _ _ _ _ N') in G by eassumption; subst; eapply nth_error_In; eassumption.
Qed.
