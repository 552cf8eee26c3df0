(** Lemmas on the maps and the figure of distances. *)
From Coq Require Import String List ZArith Reals Lia Lra Bool Permutation Sorted.
From Verif Require Import Base Model_Time Model_Geo Model_Crater Model_Ice Model_Rng Model_Melt Model_Strat Model_Main Model_Basin Model_Grid Model_Maps
  Spec_Time Spec_Geo Spec_Ice Spec_Main Spec_Ages Spec_Grid Spec_Maps
  Proofs_Base Proofs_Time Proofs_Geo Proofs_Crater Proofs_Ice Proofs_Rng Proofs_Main Proofs_Basin Proofs_Ages Proofs_Grid Proofs_Cumulative.
Import ListNotations.
Open Scope R_scope.

(** ** The list *)
Lemma fresh_rows c ppf sort craters basins entropy df : list_sane c ppf sort craters basins entropy ->
  fresh_list c ppf sort craters basins entropy 0 = Ok df ->
  exists rows, Permutation df rows /\ Forall2 (row_for c) (both craters basins) rows /\
    map (fun r => c_age r / 1000000000) rows = map (fun '(j, w) => age_from c ppf w (entropy 1%nat j)) (combine (seq 0 (length (craters ++ basins))) (craters ++ basins)).
Proof.
  intros [Hs Hp Hd Hst HF] H. destruct (fresh_is_list _ _ _ _ _ _ _ _ H) as (k' & L).
  destruct (list_tagged _ _ _ _ _ _ _ _ _ Hs Hp (splice_draws _ _ _ (Hd 0%nat) (Hd 1%nat)) Hst HF L) as (rows & P & F & A).
  exists rows. split; [exact P|]. split; [exact F|]. rewrite A. apply map_ext. intros [j w]. f_equal.
  unfold splice. destruct (Nat.ltb_spec (0 + length basins + j) (length basins)); [lia|]. f_equal. lia.
Qed.
Lemma both_snd craters basins : map snd (both craters basins) = craters ++ basins.
Proof. unfold both. rewrite map_app, !map_map. cbn [snd]. now rewrite !map_id. Qed.
Lemma rows_age c ppf craters basins (u : tape) rows : Forall2 (row_for c) (both craters basins) rows ->
  map (fun r => c_age r / 1000000000) rows = map (fun '(j, w) => age_from c ppf w (u j)) (combine (seq 0 (length (craters ++ basins))) (craters ++ basins)) ->
  forall k t r, nth_error (both craters basins) k = Some t -> nth_error rows k = Some r -> c_age r / 1000000000 = age_from c ppf (snd t) (u k).
Proof.
  intros F A k t r Ht Hr. assert (E : nth_error (map (fun r => c_age r / 1000000000) rows) k = Some (c_age r / 1000000000)) by (rewrite nth_error_map, Hr; reflexivity).
  assert (W : nth_error (craters ++ basins) k = Some (snd t)) by (rewrite <- both_snd, nth_error_map, Ht; reflexivity).
  rewrite A, nth_error_map in E. rewrite (combine_nth_error _ _ k k (snd t)) in E; [|apply nth_error_seq; apply nth_error_Some; congruence|exact W].
  cbn [option_map] in E. congruence.
Qed.

(** ** Sums of grids *)
Lemma zipw_map {A B C D} (h : B -> C -> D) (f : A -> B) (g : A -> C) l : zipw h (map f l) (map g l) = map (fun x => h (f x) (g x)) l.
Proof. unfold zipw. induction l as [|a l IH]; cbn [map combine]; [reflexivity|now rewrite IH]. Qed.
Lemma sum_grids_cells {A} (f : A -> R -> R -> R) xs ys l :
  sum_grids xs ys (map (fun s => map (fun y => map (fun x => f s x y) xs) ys) l) = map (fun y => map (fun x => Rsum (map (fun s => f s x y) l)) xs) ys.
Proof.
  unfold sum_grids.
  assert (G : forall g : R -> R -> R, fold_left (zipw (zipw Rplus)) (map (fun s => map (fun y => map (fun x => f s x y) xs) ys) l) (map (fun y => map (fun x => g x y) xs) ys)
    = map (fun y => map (fun x => g x y + Rsum (map (fun s => f s x y) l)) xs) ys).
  { induction l as [|a l IH]; intros g; cbn [map fold_left].
    - apply map_ext; intros y; apply map_ext; intros x. cbn. lra.
    - rewrite zipw_map. rewrite (map_ext _ (fun y => map (fun x => (fun x y => g x y + f a x y) x y) xs)) by (intros y; apply zipw_map).
      rewrite IH. apply map_ext; intros y; apply map_ext; intros x. rewrite (Rsum_cons (f a x y)). lra. }
  rewrite (G (fun _ _ => 0)). apply map_ext; intros y; apply map_ext; intros x. lra.
Qed.

(** ** Maps *)
Definition cell_of (s : site) (x y : R) : option R :=
  if Rltb (1737400 ^ 2) (x ^ 2 + y ^ 2) then None else let (lat, lon) := xy2latlon 1737400 x y in dist_cell 4 5 s lon lat.
Definition put (s : site) (x y : R) : R := get_ejecta_thickness CFG0 (cell_of s x y) (s_rad s).

Lemma grids_form (sites : list site) xs ys :
  map (fun '(s, m) => map (map (fun d => get_ejecta_thickness CFG0 d (s_rad s))) m) (combine sites (map (dist_rows (rad_moon CFG0) 4 5 xs ys) sites))
  = map (fun s => map (fun y => map (fun x => put s x y) xs) ys) sites.
Proof.
  induction sites as [|s l IH]; [reflexivity|]. cbn [map combine]. rewrite IH. f_equal. unfold dist_rows. rewrite map_map. apply map_ext. intros y.
  rewrite map_map. reflexivity.
Qed.
Lemma grid_plots_form c ppf sort arrange craters basins entropy xsize ysize step df xs ys :
  fresh_list c ppf sort craters basins entropy 0 = Ok df -> df <> [] ->
  get_grid_arrays (r_rnd c) xsize ysize step = Ok (ys, xs) -> length xs = length ys ->
  exists ages, get_age_grid arrange 1737400 4250000000 4 5 xs ys (map site_of df) = Ok ages /\
    grid_plots c ppf sort arrange craters basins entropy xsize ysize step =
    Ok (mk_maps xs ys (map (map (fun a => a / 1000000000)) ages) (map (fun y => map (fun x => Rsum (map (fun r => put (site_of r) x y) df)) xs) ys)).
Proof.
  intros Fr Ne G Sq. assert (Ne' : map site_of df <> []) by (destruct df; [congruence|discriminate]).
  destruct (outputs_numbered CFG0 arrange 4250000000 4 5 xs ys (map site_of df) Ne' Sq) as (ages & Ha & Ho).
  exists ages. split; [exact Ha|]. unfold grid_plots. rewrite Fr. cbn [bind]. rewrite G. cbn [bind].
  unfold numbered in Ho. rewrite map_length in Ho. rewrite Ho. cbn [bind]. rewrite grids_form, sum_grids_cells.
  do 2 f_equal. apply map_ext; intros y; apply map_ext; intros x. rewrite map_map. reflexivity.
Qed.

Lemma put_laid c t r x y : row_for c t r -> laid t x y (put (site_of r) x y).
Proof.
  intros (B & _ & Hr & Lo & La & _). unfold put, cell_of, laid. cbn [site_of s_rad]. rewrite Hr. fold (radius (snd t)).
  unfold on_moon, away. rcase (1737400 ^ 2) (x ^ 2 + y ^ 2) E.
  - right. split; [intros [? _]; lra|apply thick_nan].
  - destruct (xy2latlon 1737400 x y) as [lat lon].
    pose proof (dist_cell_spec 4 5 (site_of r) lon lat) as D. cbv zeta in D. cbn [site_of s_lon s_lat s_rad s_basin] in D.
    rewrite Lo, La, B, Hr in D. fold (radius (snd t)) in D. fold (reach (fst t)) in D. change default_rp with 1737400 in D.
    destruct D as [[-> D]|[-> D]]; [left; split; [split; [lra|exact D]|reflexivity]|right; split; [tauto|apply thick_nan]].
Qed.
Lemma covers_row c t r x y : row_for c t r -> on_moon x y ->
  (let (lat, lon) := xy2latlon 1737400 x y in
   gc_dist default_rp (s_lon (site_of r)) (s_lat (site_of r)) lon lat < s_rad (site_of r) * (if s_basin (site_of r) then 5 else 4)) <-> covers t x y.
Proof.
  intros (B & _ & Hr & Lo & La & _) O. unfold covers, away. cbn [site_of s_lon s_lat s_rad s_basin].
  rewrite Lo, La, B, Hr. fold (radius (snd t)). fold (reach (fst t)). change default_rp with 1737400.
  destruct (xy2latlon 1737400 x y) as [lat lon]. rewrite Rmult_comm. tauto.
Qed.

Lemma Forall2_nth_l {A B} (P : A -> B -> Prop) l l' : Forall2 P l l' -> forall k a, nth_error l k = Some a -> exists b, nth_error l' k = Some b /\ P a b.
Proof. induction 1 as [|x y l l' H _ IH]; intros [|k] a E; cbn in E; try discriminate; [exists y; split; [reflexivity|congruence]|apply IH; exact E]. Qed.
Lemma Forall2_nth_r {A B} (P : A -> B -> Prop) l l' : Forall2 P l l' -> forall k b, nth_error l' k = Some b -> exists a, nth_error l k = Some a /\ P a b.
Proof. induction 1 as [|x y l l' H _ IH]; intros [|k] b E; cbn in E; try discriminate; [exists x; split; [reflexivity|congruence]|apply IH; exact E]. Qed.

Lemma maps_ok c ppf sort arrange craters basins entropy xsize ysize step xs ys :
  list_sane c ppf sort craters basins entropy -> sorts_sites arrange -> craters ++ basins <> [] ->
  get_grid_arrays (r_rnd c) xsize ysize step = Ok (ys, xs) -> length xs = length ys ->
  exists m, grid_plots c ppf sort arrange craters basins entropy xsize ysize step = Ok m /\ m_x m = xs /\ m_y m = ys /\
    maps_of c ppf craters basins (entropy 1%nat) m.
Proof.
  intros S Ar Ne G Sq. destruct (fresh_total c ppf sort craters basins entropy 0) as (df & Fr).
  destruct (fresh_rows _ _ _ _ _ _ _ S Fr) as (rows & P & F & A). pose proof (rows_age c ppf craters basins (entropy 1%nat) rows F A) as Ag.
  assert (Nd : df <> []).
  { intros ->. apply Permutation_nil in P. subst rows. inversion F as [Q|]. apply Ne. rewrite <- both_snd, <- Q. reflexivity. }
  destruct (grid_plots_form c ppf sort arrange craters basins entropy xsize ysize step df xs ys Fr Nd G Sq) as (ages & Ha & E).
  eexists. split; [exact E|]. cbn [m_x m_y]. split; [reflexivity|]. split; [reflexivity|].
  assert (Ne' : map site_of df <> []) by (destruct df; [congruence|discriminate]).
  constructor; cbn [m_x m_y m_age m_ej].
  - intros g [->| ->].
    + pose proof Ha as Hb. unfold get_age_grid in Hb. destruct (map site_of df); [congruence|]. rewrite Sq, Nat.eqb_refl in Hb.
      assert (Inj : forall a b : list (list R), Ok a = Ok b -> a = b) by congruence. apply Inj in Hb. subst ages. rewrite !map_length. split; [reflexivity|].
      intros row Ir. rewrite map_map in Ir. apply in_map_iff in Ir as (y & <- & _). now rewrite !map_length.
    + rewrite map_length. split; [reflexivity|]. intros row Ir. apply in_map_iff in Ir as (y & <- & _). now rewrite map_length.
  - intros i j x y Hy Hx. eexists. exists (map (fun r => put (site_of r) x y) rows).
    split; [rewrite nth_error_map, Hy; reflexivity|]. split.
    + rewrite nth_error_map, Hx. cbn [option_map]. f_equal. apply Rsum_perm. now apply Permutation_map.
    + apply Forall2_map_r. eapply Forall2_imp; [|exact F]. intros t r. apply put_laid.
  - intros i j x y Hy Hx. destruct (Rle_dec (x ^ 2 + y ^ 2) (1737400 ^ 2)) as [O|O].
    + destruct (age_grid_spec arrange 1737400 4250000000 4 5 xs ys _ ages i j x y Ar Ha Ne' O Hy Hx) as (row & v & R1' & R2' & D).
      exists (map (fun a => a / 1000000000) row), (v / 1000000000). split; [rewrite nth_error_map, R1'; reflexivity|]. split; [rewrite nth_error_map, R2'; reflexivity|].
      assert (Cv : forall t r, row_for c t r -> (let (lat, lon) := xy2latlon 1737400 x y in
        gc_dist default_rp (s_lon (site_of r)) (s_lat (site_of r)) lon lat < s_rad (site_of r) * (if s_basin (site_of r) then 5 else 4)) <-> covers t x y)
        by (intros t r H; apply (covers_row c); auto).
      destruct (xy2latlon 1737400 x y) as [lat lon]. cbv zeta in D. destruct D as [[-> D]|(s & Is & Cs & -> & D)].
      * left. split; [lra|]. intros t It C. destruct (Forall2_in_l _ _ _ _ F It) as (r & Ir & Rr). apply (Cv t r Rr) in C.
        apply (D (site_of r)); [|exact C]. apply in_map. eapply Permutation_in; [symmetry; exact P|exact Ir].
      * right. apply in_map_iff in Is as (r & <- & Ir). apply (Permutation_in _ P) in Ir. apply In_nth_error in Ir as (k & Hk).
        destruct (Forall2_nth_r _ _ _ F k r Hk) as (t & Ht & Rr). exists k, t. split; [exact Ht|]. split; [now apply (Cv t r)|].
        cbn [site_of s_age]. split; [now apply Ag|]. intros k' t' Ht' C'. destruct (Forall2_nth_l _ _ _ F k' t' Ht') as (r' & Hr' & Rr').
        rewrite <- (Ag k' t' r' Ht' Hr'). apply Rmult_le_compat_r; [lra|]. apply (D (site_of r')); [|now apply (Cv t' r')].
        apply in_map. eapply Permutation_in; [symmetry; exact P|eapply nth_error_In; exact Hr'].
    + destruct (age_grid_outside arrange 1737400 4250000000 4 5 xs ys _ ages i j x y Ha Ne' ltac:(lra) Hy Hx) as (row & R1' & R2').
      exists (map (fun a => a / 1000000000) row), (4250000000 / 1000000000). split; [rewrite nth_error_map, R1'; reflexivity|]. split; [rewrite nth_error_map, R2'; reflexivity|].
      left. split; [lra|]. intros t _ [C _]. exact (O C).
Qed.

Lemma laid_fun t x y h h' : laid t x y h -> laid t x y h' -> h = h'.
Proof. unfold laid. cbv zeta. intuition congruence. Qed.
Lemma Forall2_fun {A B} (P : A -> B -> Prop) l l1 l2 : (forall a b b', P a b -> P a b' -> b = b') -> Forall2 P l l1 -> Forall2 P l l2 -> l1 = l2.
Proof. intros H F. revert l2. induction F as [|a b l l1 P1 _ IH]; intros l2 F2; inversion F2; subst; [reflexivity|]. f_equal; [eapply H; eauto|apply IH; auto]. Qed.
Lemma grid_ext (g g' : list (list R)) n m : length g = n -> length g' = n -> (forall r, In r g -> length r = m) -> (forall r, In r g' -> length r = m) ->
  (forall i j, (i < n)%nat -> (j < m)%nat -> exists r r' v, nth_error g i = Some r /\ nth_error g' i = Some r' /\ nth_error r j = Some v /\ nth_error r' j = Some v) -> g = g'.
Proof.
  intros L L' C C' H.
  assert (X : forall (A : Type) (l l' : list A), length l = length l' -> (forall i, (i < length l)%nat -> nth_error l i = nth_error l' i) -> l = l').
  { intros A l l' E Q. revert l' E Q. induction l as [|a l IH]; intros [|b l'] E Q; cbn in E; try discriminate; [reflexivity|].
    pose proof (Q 0%nat ltac:(cbn; lia)) as Q0. cbn in Q0. f_equal; [congruence|]. apply IH; [lia|]. intros i Hi. apply (Q (S i)). cbn. lia. }
  apply X; [congruence|]. intros i Hi. rewrite L in Hi.
  destruct (nth_error g i) as [r|] eqn:E; [|apply nth_error_None in E; lia]. destruct (nth_error g' i) as [r'|] eqn:E'; [|apply nth_error_None in E'; lia].
  f_equal. pose proof (C r (nth_error_In _ _ E)). pose proof (C' r' (nth_error_In _ _ E')). apply X; [congruence|].
  intros j Hj. destruct (H i j Hi ltac:(lia)) as (q & q' & v & W1 & W2 & W3 & W4). congruence.
Qed.
Lemma nth_lt {A} (l : list A) i : (i < length l)%nat -> exists a, nth_error l i = Some a.
Proof. intros H. destruct (nth_error l i) eqn:E; [eauto|]. apply nth_error_None in E. lia. Qed.

(** What is drawn is determined. *)
Lemma ej_same c c' ppf ppf' craters basins u u' m m' : maps_of c ppf craters basins u m -> maps_of c' ppf' craters basins u' m' ->
  m_x m = m_x m' -> m_y m = m_y m' -> m_ej m = m_ej m'.
Proof.
  intros [Sh Ej _] [Sh' Ej' _] X Y. destruct (Sh (m_ej m) (or_intror eq_refl)) as [L C]. destruct (Sh' (m_ej m') (or_intror eq_refl)) as [L' C'].
  apply (grid_ext _ _ (length (m_y m)) (length (m_x m))); [auto|congruence|auto|rewrite X; auto|].
  intros i j Hi Hj. destruct (nth_lt _ _ Hi) as (y & Hy). destruct (nth_lt _ _ Hj) as (x & Hx).
  destruct (Ej i j x y Hy Hx) as (r & hs & H1 & H2 & H3). rewrite X in Hx. rewrite Y in Hy. destruct (Ej' i j x y Hy Hx) as (r' & hs' & H1' & H2' & H3').
  assert (hs = hs') as <- by (apply (Forall2_fun (fun t h => laid t x y h) (both craters basins)); [intros t a b; apply laid_fun|exact H3|exact H3']).
  exists r, r', (Rsum hs). auto.
Qed.
Lemma age_same c c' ppf craters basins u u' m m' : r_step c = r_step c' -> (forall k, u k = u' k) ->
  maps_of c ppf craters basins u m -> maps_of c' ppf craters basins u' m' ->
  m_x m = m_x m' -> m_y m = m_y m' -> m_age m = m_age m'.
Proof.
  intros St U [Sh _ Ag] [Sh' _ Ag'] X Y. destruct (Sh (m_age m) (or_introl eq_refl)) as [L C]. destruct (Sh' (m_age m') (or_introl eq_refl)) as [L' C'].
  apply (grid_ext _ _ (length (m_y m)) (length (m_x m))); [auto|congruence|auto|rewrite X; auto|].
  intros i j Hi Hj. destruct (nth_lt _ _ Hi) as (y & Hy). destruct (nth_lt _ _ Hj) as (x & Hx).
  destruct (Ag i j x y Hy Hx) as (r & a & H1 & H2 & H3). rewrite X in Hx. rewrite Y in Hy. destruct (Ag' i j x y Hy Hx) as (r' & a' & H1' & H2' & H3').
  exists r, r', a. repeat split; auto. rewrite H2'. f_equal.
  assert (AF : forall w v, age_from c ppf w v = age_from c' ppf w v) by (intros w v; unfold age_from; rewrite St; reflexivity).
  destruct H3 as [[-> N]|(k & t & K1 & K2 & -> & K4)]; destruct H3' as [[-> N']|(k' & t' & K1' & K2' & -> & K4')]; [reflexivity| | |].
  - destruct (N t' (nth_error_In _ _ K1') K2').
  - destruct (N' t (nth_error_In _ _ K1) K2).
  - pose proof (K4 _ _ K1' K2') as Q1. pose proof (K4' _ _ K1 K2) as Q2. rewrite !AF, !U in *. lra.
Qed.
Lemma maps_eta m m' : m_x m = m_x m' -> m_y m = m_y m' -> m_age m = m_age m' -> m_ej m = m_ej m' -> m = m'.
Proof. destruct m, m'. cbn. congruence. Qed.

(** ** Distances *)
Lemma mapM_along {A B C D} (f : B -> result C) (s : D -> B) (g : A -> C) ls df : Forall2 (fun t r => f (s r) = Ok (g t)) ls df -> mapM f (map s df) = Ok (map g ls).
Proof. induction 1 as [|t r ls df E _ IH]; [reflexivity|]. cbn [map mapM]. rewrite E. cbn [bind]. rewrite IH. reflexivity. Qed.
Lemma mapM_ok {A B} (f : A -> result B) (g : A -> B) l : (forall a, In a l -> f a = Ok (g a)) -> mapM f l = Ok (map g l).
Proof. induction l as [|a l IH]; intros H; [reflexivity|]. cbn [map mapM]. rewrite H by (now left). cbn [bind]. rewrite IH by (intros; apply H; now right). reflexivity. Qed.
Lemma oberbeck_eq c d : mixing_ratio (mr_a (r_bsed c)) (mr_b (r_bsed c)) (mr_petro (r_bsed c)) d = oberbeck c d.
Proof. unfold mixing_ratio, oberbeck. destruct (mr_petro (r_bsed c)); cbn [andb]; [|reflexivity]. destruct (Rltb 5 _); [lra|reflexivity]. Qed.

Lemma points_map {A B C} (f : A -> string -> B) (g : A -> string -> C) names ls :
  points (map (fun t => map (f t) names) ls) (map (fun t => map (g t) names) ls) = flat_map (fun t => map (fun n => (f t n, g t n)) names) ls.
Proof.
  unfold points. induction ls as [|t ls IH]; [reflexivity|]. cbn [map concat flat_map]. rewrite <- IH. clear IH.
  generalize (concat (map (fun t => map (f t) names) ls)). generalize (concat (map (fun t => map (g t) names) ls)). intros y x.
  induction names as [|n l IH]; [reflexivity|]. cbn [map app combine]. now rewrite IH.
Qed.
Lemma combine_maps {A B C} (f : A -> B) (g : A -> C) l : combine (map f l) (map g l) = map (fun n => (f n, g n)) l.
Proof. induction l as [|a l IH]; [reflexivity|]. cbn [map combine]. now rewrite IH. Qed.
Lemma find_numbered {A} (p : A -> bool) (l : list A) s : (exists i a, find (fun q => p (snd q)) (combine (seq s (length l)) l) = Some ((s + i)%nat, a) /\ nth_error l i = Some a /\ p a = true) \/
  (find (fun q => p (snd q)) (combine (seq s (length l)) l) = None /\ forall a, In a l -> p a = false).
Proof.
  revert s. induction l as [|a l IH]; intros s; [right; split; [reflexivity|intros a []]|]. cbn [length seq combine find snd].
  destruct (p a) eqn:E; [left; exists 0%nat, a; rewrite Nat.add_0_r; auto|].
  destruct (IH (S s)) as [(i & b & H1 & H2 & H3)|(H1 & H2)].
  - left. exists (S i), b. rewrite H1. split; [do 2 f_equal; lia|]. auto.
  - right. split; [exact H1|]. intros b [<-|I]; auto.
Qed.
Lemma trap_of_spec names n : names <> [] -> exists i m, trap_of names n = Ok i /\ nth_error names i = Some m /\ (In n names -> m = n) /\ (~ In n names -> m = hd n names).
Proof.
  intros Ne. unfold trap_of. destruct names as [|m0 l]; [congruence|].
  destruct (find_numbered (fun m => String.eqb m n) (m0 :: l) 0) as [(i & m & H1 & H2 & H3)|(H1 & H2)]; rewrite H1.
  - apply String.eqb_eq in H3. subst m. exists i, n. split; [reflexivity|]. split; [exact H2|]. split; [auto|]. intros N. destruct N. eapply nth_error_In; exact H2.
  - exists 0%nat, m0. split; [reflexivity|]. split; [reflexivity|]. split; [|reflexivity]. intros I. apply H2 in I. now rewrite String.eqb_refl in I.
Qed.
Lemma nanmax_fold l : forall acc, match fold_left nanmax l acc with
  | Some m => In (Some m) (acc :: l) /\ forall d, In (Some d) (acc :: l) -> d <= m
  | None => forall o, In o (acc :: l) -> o = None end.
Proof.
  induction l as [|o l IH]; intros acc; cbn [fold_left].
  - destruct acc as [a|]; [split; [now left|]; intros d [E|[]]; assert (a = d) by congruence; lra|intros o [<-|[]]; reflexivity].
  - specialize (IH (nanmax acc o)). destruct (fold_left nanmax l (nanmax acc o)) as [m|].
    + destruct IH as [I M]. split.
      * destruct I as [E|I]; [|right; now right]. destruct acc as [a|], o as [b|]; cbn [nanmax] in E; try discriminate; try (rewrite E; cbn; auto).
        revert E. unfold Rmax. destruct (Rle_dec a b); intros E; rewrite <- E; cbn; auto.
      * assert (N : forall a b d, a = Some d \/ b = Some d -> exists x, nanmax a b = Some x /\ d <= x).
        { clear. intros [a|] [b|] d [E|E]; try discriminate; assert (Q : forall x y : R, Some x = Some y -> x = y) by congruence; apply Q in E; subst d;
            cbn [nanmax]; eexists; (split; [reflexivity|]); try lra; [apply Rmax_l|apply Rmax_r]. }
        intros d [E|[E|I']]; [| |apply M; now right].
        -- destruct (N acc o d (or_introl E)) as (x & Hx & Hd). apply Rle_trans with x; [exact Hd|]. apply M. left. exact Hx.
        -- destruct (N acc o d (or_intror E)) as (x & Hx & Hd). apply Rle_trans with x; [exact Hd|]. apply M. left. exact Hx.
    + assert (N : acc = None /\ o = None) by (specialize (IH _ (or_introl eq_refl)); destruct acc, o; cbn [nanmax] in IH; try discriminate; auto).
      intros o' [<-|[<-|I]]; [tauto|tauto|apply IH; now right].
Qed.
Section Distances.
  Variables (c : rcfg) (craters basins : list raw) (ls : list (bool * raw)) (df : list (crater info)).
  Hypothesis P : Permutation ls (both craters basins).
  Hypothesis F : Forall2 (row_for c) ls df.
  Hypothesis ND : NoDup (map w_name (craters ++ basins)).
  Hypothesis Dm : Forall (fun w => 0 <= w_diam w) (craters ++ basins).
  Notation gap_ := (gap c craters basins).

  Lemma names_along : map (fun d => d_name (c_rest d)) df = map (fun t => w_name (snd t)) ls.
  Proof. pose proof F as F0; revert F0; generalize df; generalize ls; clear; intros l0 d0 F0; induction F0 as [|t r l l' H _ IH]; [reflexivity|]. cbn [map]. rewrite IH. f_equal. apply H. Qed.
  Lemma nodup_along : NoDup (map (fun d => d_name (c_rest d)) df).
  Proof. rewrite names_along. rewrite <- map_map. eapply Permutation_NoDup; [|exact ND]. apply Permutation_map. rewrite <- both_snd. apply Permutation_map. now symmetry. Qed.
  Lemma line_in t : In t ls -> In (snd t) (craters ++ basins).
  Proof. intros I. rewrite <- both_snd. apply in_map. eapply Permutation_in; eauto. Qed.

  Lemma gap_dist t r n : In t ls -> row_for c t r -> coldtrap_dist (-1) (r_basinthr c) (map site_of df) (site_of r) n = Ok (gap_ t n).
  Proof.
    intros It (B & Nm & Rd & Lo & La & _). unfold coldtrap_dist, gap. cbn [site_of s_name s_rad s_lon s_lat]. rewrite Nm.
    destruct (String.eqb_spec (w_name (snd t)) n) as [En|En].
    { destruct (find _ _); reflexivity. }
    rewrite filter_site. pose proof (filter_name_unique (fun d => d_name (c_rest d)) n df nodup_along) as U.
    destruct (find (fun d => String.eqb (w_name d) n) (craters ++ basins)) as [d|] eqn:Ef.
    - apply find_some in Ef as [Id En']. apply String.eqb_eq in En'. rewrite <- both_snd in Id. apply in_map_iff in Id as (t' & Et & It').
      apply (Permutation_in _ (Permutation_sym P)) in It'. destruct (Forall2_in_l _ _ _ _ F It') as (r' & Ir' & Rr').
      assert (N' : d_name (c_rest r') = n) by (destruct Rr' as (_ & -> & _); rewrite Et; exact En').
      destruct (filter (fun d0 => String.eqb (d_name (c_rest d0)) n) df) as [|dst [|? ?]] eqn:Fl; [| |destruct U].
      { destruct U. rewrite <- N'. now apply (in_map (fun d => d_name (c_rest d))). }
      assert (dst = r') as ->.
      { assert (I : In r' [dst]) by (rewrite <- Fl; apply filter_In; split; [exact Ir'|now apply String.eqb_eq]). destruct I as [->|[]]. reflexivity. }
      destruct Rr' as (_ & _ & _ & _ & _ & Plo & Pla & _). cbn [map site_of s_plon s_plat]. rewrite Rd, Lo, La, Plo, Pla, Et. cbn [negb andb].
      change default_rp with 1737400. fold (radius (snd t)). set (g := gc_dist 1737400 _ _ _ _). cbv zeta.
      assert (R0 : 0 <= radius (snd t)).
      { rewrite Forall_forall in Dm. pose proof (Dm _ (line_in t It)). unfold radius. lra. }
      assert (Hl : below_limit g (ej_limit (-1) (r_basinthr c) (mk_site (w_name (snd t)) (w_lon (snd t)) (w_lat (snd t)) (d_plon (c_rest r)) (d_plat (c_rest r)) (radius (snd t)) (c_age r) (d_basin (c_rest r)))) (radius (snd t))
        = negb (fst t && Rleb 0 (r_basinthr c)) || Rltb g (r_basinthr c * radius (snd t))).
      { unfold below_limit, ej_limit. cbn [s_basin]. rewrite B. destruct (fst t); cbn [andb].
        - rcase (r_basinthr c) 0 H0.
          + assert (Rleb 0 (r_basinthr c) = false) as -> by (apply Rleb_false; lra). reflexivity.
          + assert (Rleb 0 (r_basinthr c) = true) as -> by (apply Rleb_true; lra). reflexivity.
        - assert (Rltb (-1) 0 = true) as -> by (apply Rltb_true; lra). reflexivity. }
      unfold site_of. rewrite Nm, Lo, La, Rd. fold (radius (snd t)). rewrite Hl. rcase (radius (snd t)) g Hg; cbn [andb]; [|reflexivity].
      destruct (negb _ || _); [|reflexivity]. assert (Rleb g 0 = false) as -> by (apply Rleb_false; lra). reflexivity.
    - assert (filter (fun d => String.eqb (d_name (c_rest d)) n) df = []) as ->; [|reflexivity].
      destruct (filter _ df) as [|x [|? ?]]; [reflexivity| |destruct U]. destruct U as [Ix Nx]. exfalso.
      destruct (Forall2_in_r _ _ _ _ F Ix) as (t' & It' & Rt'). pose proof (find_none _ _ Ef _ (line_in t' It')) as Q. cbv beta in Q.
      destruct Rt' as (_ & N' & _). rewrite <- N', Nx, String.eqb_refl in Q. discriminate.
  Qed.

  Lemma dists_along : get_coldtrap_dists (-1) (r_basinthr c) (r_names c) (map site_of df) = Ok (map (fun t => map (gap_ t) (r_names c)) ls).
  Proof.
    unfold get_coldtrap_dists. apply mapM_along.
    assert (G : forall l d, Forall2 (row_for c) l d -> incl l ls ->
      Forall2 (fun t r => mapM (coldtrap_dist (-1) (r_basinthr c) (map site_of df) (site_of r)) (r_names c) = Ok (map (gap_ t) (r_names c))) l d).
    { induction 1 as [|t r l d Rr _ IH]; intros I; constructor.
      - apply mapM_ok. intros n _. apply gap_dist; [apply I; now left|exact Rr].
      - apply IH. intros x Hx. apply I. now right. }
    apply G; [exact F|apply incl_refl].
  Qed.
  Lemma thick_along : get_ejecta_thickness_matrix (crat (r_i c)) (map s_rad (map site_of df)) (map (fun t => map (gap_ t) (r_names c)) ls)
    = map (fun t => map (fun n => thickness c t (gap_ t n)) (r_names c)) ls.
  Proof.
    unfold get_ejecta_thickness_matrix. pose proof F as F0; revert F0; generalize df; generalize ls; clear; intros l0 d0 F0; induction F0 as [|t r l d Rr _ IH]; [reflexivity|]. cbn [map combine]. rewrite IH. f_equal.
    rewrite map_map. destruct Rr as (_ & _ & Rd & _). apply map_ext. intros n. unfold thickness. cbn [site_of s_rad]. rewrite Rd. reflexivity.
  Qed.
  Lemma mixing_along : get_mixing_ratio_oberbeck (r_bsed c) (map (fun t => map (gap_ t) (r_names c)) ls)
    = map (fun t => map (fun n => option_map (oberbeck c) (gap_ t n)) (r_names c)) ls.
  Proof.
    unfold get_mixing_ratio_oberbeck. rewrite map_map. apply map_ext. intros t. rewrite map_map. apply map_ext. intros n.
    destruct (gap_ t n); [|reflexivity]. cbn [option_map]. now rewrite oberbeck_eq.
  Qed.
  Lemma depth_along : zipw (zipw (fun t m => omul (Some (- t)) m)) (map (fun t => map (fun n => thickness c t (gap_ t n)) (r_names c)) ls)
      (map (fun t => map (fun n => option_map (oberbeck c) (gap_ t n)) (r_names c)) ls)
    = map (fun t => map (fun n => option_map (fun d' => - thickness c t (gap_ t n) * oberbeck c d') (gap_ t n)) (r_names c)) ls.
  Proof.
    rewrite zipw_map. apply map_ext. intros t. rewrite zipw_map. apply map_ext. intros n. destruct (gap_ t n); reflexivity.
  Qed.
  Lemma row_along n : (exists i t, row_of (map site_of df) n = Ok i /\ nth_error ls i = Some t /\ w_name (snd t) = n) \/
    (row_of (map site_of df) n = Err IndexError /\ ~ has_line craters basins n).
  Proof.
    unfold row_of. destruct (find_numbered (fun s => String.eqb (s_name s) n) (map site_of df) 0) as [(i & s & H1 & H2 & H3)|(H1 & H2)]; rewrite H1.
    - left. rewrite nth_error_map in H2. destruct (nth_error df i) as [r|] eqn:Er; [|discriminate]. cbn [option_map] in H2.
      assert (Q : site_of r = s) by congruence. subst s. destruct (Forall2_nth_r _ _ _ F i r Er) as (t & Ht & Rr). exists i, t. split; [reflexivity|]. split; [exact Ht|].
      apply String.eqb_eq in H3. destruct Rr as (_ & N & _). rewrite <- N. exact H3.
    - right. split; [reflexivity|]. intros Hn. unfold has_line in Hn. rewrite <- both_snd in Hn. apply in_map_iff in Hn as (w & En & Iw). apply in_map_iff in Iw as (t & Et & It).
      apply (Permutation_in _ (Permutation_sym P)) in It. destruct (Forall2_in_l _ _ _ _ F It) as (r & Ir & Rr).
      specialize (H2 (site_of r) (in_map site_of _ _ Ir)). destruct Rr as (_ & N & _). cbn [site_of s_name] in H2. rewrite N, Et, En, String.eqb_refl in H2. discriminate.
  Qed.
  Lemma crater_rows : map snd (filter (fun p => negb (s_basin (fst p))) (combine (map site_of df) (map (fun t => map (gap_ t) (r_names c)) ls)))
    = map (fun t => map (gap_ t) (r_names c)) (filter (fun t => negb (fst t)) ls).
  Proof.
    pose proof F as F0; revert F0; generalize df; generalize ls; clear; intros l0 d0 F0; induction F0 as [|t r l d Rr _ IH]; [reflexivity|]. cbn [map combine filter fst]. destruct Rr as (B & _). cbn [site_of s_basin]. rewrite B.
    destruct (negb (fst t)); cbn [map snd]; rewrite IH; reflexivity.
  Qed.
  Lemma crater_gap d : In (Some d) (concat (map (fun t => map (gap_ t) (r_names c)) (filter (fun t => negb (fst t)) ls))) <->
    exists w n, In w craters /\ In n (r_names c) /\ gap_ (false, w) n = Some d.
  Proof.
    rewrite in_concat. split.
    - intros (row & Ir & Id). apply in_map_iff in Ir as ([b w] & <- & It). apply filter_In in It as [It B]. cbn [fst] in B. destruct b; [discriminate|].
      apply in_map_iff in Id as (n & Eg & In_). exists w, n. split; [|auto]. apply (Permutation_in _ P) in It. unfold both in It. apply in_app_iff in It as [It|It];
        apply in_map_iff in It as (w' & E & Iw); [assert (w' = w) by congruence; subst; auto|discriminate].
    - intros (w & n & Iw & In_ & Eg). exists (map (gap_ (false, w)) (r_names c)). split.
      + apply in_map_iff. exists (false, w). split; [reflexivity|]. apply filter_In. split; [|reflexivity]. apply (Permutation_in _ (Permutation_sym P)).
        unfold both. apply in_or_app. left. now apply in_map.
      + apply in_map_iff. eauto.
  Qed.
  Lemma largest_along : (exists m, largest (map (fun t => map (gap_ t) (r_names c)) (filter (fun t => negb (fst t)) ls)) = Ok m /\
      (exists w n, In w craters /\ In n (r_names c) /\ gap_ (false, w) n = Some m) /\
      forall w n d, In w craters -> In n (r_names c) -> gap_ (false, w) n = Some d -> d <= m) \/
    (largest (map (fun t => map (gap_ t) (r_names c)) (filter (fun t => negb (fst t)) ls)) = Err ValueError /\
      forall w n, In w craters -> In n (r_names c) -> gap_ (false, w) n = None).
  Proof.
    unfold largest. pose proof (nanmax_fold (concat (map (fun t => map (gap_ t) (r_names c)) (filter (fun t => negb (fst t)) ls))) None) as M.
    destruct (fold_left nanmax _ None) as [m|].
    - left. exists m. split; [reflexivity|]. destruct M as [[E|I] M]; [discriminate|]. split; [now apply crater_gap|].
      intros w n d Iw In_ E. apply M. right. apply crater_gap. eauto.
    - right. split; [reflexivity|]. intros w n Iw In_. destruct (gap_ (false, w) n) as [d|] eqn:E; [|reflexivity].
      assert (I : In (Some d) (concat (map (fun t => map (gap_ t) (r_names c)) (filter (fun t => negb (fst t)) ls)))) by (apply crater_gap; eauto).
      exact (M _ (or_intror I)).
  Qed.

  Definition fixed_target (n : string) : string := if in_dec string_dec n (r_names c) then n else hd n (r_names c).
  Lemma traps_along : let D := map (fun t => map (gap_ t) (r_names c)) ls in
    let M := map (fun t => map (fun n => option_map (oberbeck c) (gap_ t n)) (r_names c)) ls in
    forall l,
    (exists tr, mapM (fun n => let* i := row_of (map site_of df) n in let* d := get D i in let* m := get M i in Ok (n, combine d m)) l = Ok tr /\
       Forall2 (fun n p => exists t, In t (both craters basins) /\ w_name (snd t) = n /\ p = (n, ratio_points c craters basins t)) l tr /\ forall n, In n l -> has_line craters basins n) \/
    (mapM (fun n => let* i := row_of (map site_of df) n in let* d := get D i in let* m := get M i in Ok (n, combine d m)) l = Err IndexError /\ exists n, In n l /\ ~ has_line craters basins n).
  Proof.
    intros D M. induction l as [|n l IH]; [left; exists []; split; [reflexivity|]; split; [constructor|intros n []]|]. cbn [mapM].
    destruct (row_along n) as [(i & t & H1 & H2 & H3)|(H1 & H2)]; rewrite H1; cbn [bind].
    - assert (get D i = Ok (map (gap_ t) (r_names c))) as -> by (unfold get, D; rewrite nth_error_map, H2; reflexivity).
      assert (get M i = Ok (map (fun n => option_map (oberbeck c) (gap_ t n)) (r_names c))) as -> by (unfold get, M; rewrite nth_error_map, H2; reflexivity).
      cbn [bind]. rewrite combine_maps. fold (ratio_points c craters basins t).
      destruct IH as [(tr & E & F2 & H)|(E & n' & I' & N')]; rewrite E; cbn [bind].
      + left. eexists. split; [reflexivity|]. split; [constructor; [|exact F2]|].
        * exists t. split; [eapply Permutation_in; [exact P|eapply nth_error_In; exact H2]|]. auto.
        * intros m [<-|I]; [|auto]. unfold has_line. rewrite <- H3. apply in_map. apply line_in. eapply nth_error_In; exact H2.
      + right. split; [reflexivity|]. exists n'. split; [now right|exact N'].
    - right. split; [reflexivity|]. exists n. split; [now left|exact H2].
  Qed.

  Lemma distances_along ries :
    (exists g, distance_rows c ries (map site_of df) = Ok g /\ distances_of c craters basins ries g /\
       lines_to c craters basins g (fixed_target "Faustini") (fixed_target "Shoemaker") (fixed_target "Haworth") /\
       (forall n, In n (firstn 6 (r_names c)) \/ n = "Amundsen"%string -> has_line craters basins n)) \/
    (distance_rows c ries (map site_of df) = Err IndexError /\ exists n, (In n (firstn 6 (r_names c)) \/ n = "Amundsen"%string) /\ ~ has_line craters basins n) \/
    (distance_rows c ries (map site_of df) = Err ValueError /\ (forall n, In n (firstn 6 (r_names c)) \/ n = "Amundsen"%string -> has_line craters basins n) /\
       forall w n, In w craters -> In n (r_names c) -> gap_ (false, w) n = None).
  Proof.
    unfold distance_rows. rewrite dists_along. cbn [bind]. rewrite thick_along, mixing_along, depth_along. cbv zeta.
    destruct (traps_along (firstn 6 (r_names c))) as [(tr & -> & Ft & Hl)|(-> & n & I & N)]; cbn [bind]; [|right; left; split; [reflexivity|]; exists n; auto].
    destruct (row_along "Amundsen") as [(a & ta & -> & Ha & Na)|(-> & N)]; cbn [bind]; [|right; left; split; [reflexivity|]; exists "Amundsen"%string; auto].
    assert (Al : forall n, In n (firstn 6 (r_names c)) \/ n = "Amundsen"%string -> has_line craters basins n).
    { intros n [I| ->]; [auto|]. unfold has_line. rewrite <- Na. apply in_map. apply line_in. eapply nth_error_In; exact Ha. }
    destruct (r_names c) as [|n0 nl] eqn:Enm.
    { right. right. split; [reflexivity|]. split; [exact Al|]. intros w n _ []. }
    rewrite <- Enm in *. assert (Ne : r_names c <> []) by (rewrite Enm; discriminate). clear Enm.
    destruct (trap_of_spec (r_names c) "Haworth" Ne) as (h & mh & -> & Hh & Hh1 & Hh2). destruct (trap_of_spec (r_names c) "Shoemaker" Ne) as (s & ms & -> & Hs & Hs1 & Hs2).
    destruct (trap_of_spec (r_names c) "Faustini" Ne) as (f & mf & -> & Hf & Hf1 & Hf2). cbn [bind]. rewrite crater_rows.
    destruct largest_along as [(xm & -> & X1 & X2)|(-> & X)]; cbn [bind]; [|right; right; auto]. left.
    unfold get. rewrite !nth_error_map, Ha. destruct ls as [|t0 ts] eqn:El; [destruct a; discriminate|]. cbn [nth_error option_map bind]. rewrite !nth_error_map, Hf, Hs, Hh. cbn [option_map bind].
    eexists. split; [reflexivity|]. rewrite <- El in *. split; [|split; [|exact Al]].
    - constructor; cbn [h_ries h_law h_traps h_thick h_depth h_first h_xmax].
      + reflexivity.
      + apply map_ext. intros e. now rewrite oberbeck_eq.
      + exact Ft.
      + exists t0, ts. rewrite <- El. split; [exact P|]. split; [apply points_map|]. split; [apply points_map|]. rewrite !combine_maps. reflexivity.
      + split; assumption.
    - exists ta. split; [eapply Permutation_in; [exact P|eapply nth_error_In; exact Ha]|]. split; [exact Na|]. cbn [h_lines].
      unfold fixed_target.
      assert (T : forall n m, (In n (r_names c) -> m = n) -> (~ In n (r_names c) -> m = hd n (r_names c)) -> (if in_dec string_dec n (r_names c) then n else hd n (r_names c)) = m)
        by (intros n m A1 A2; destruct (in_dec string_dec n (r_names c)); symmetry; auto).
      rewrite (T _ _ Hf1 Hf2), (T _ _ Hs1 Hs2), (T _ _ Hh1 Hh2). reflexivity.
  Qed.
End Distances.

Lemma distances_ok c ppf sort craters basins entropy ries : distances_sane c ppf sort craters basins entropy ->
    (exists g, distance_bsed c ppf sort craters basins entropy ries = Ok g /\ distances_of c craters basins ries g /\
       lines_to c craters basins g (fixed_target c "Faustini") (fixed_target c "Shoemaker") (fixed_target c "Haworth") /\
       (forall n, In n (firstn 6 (r_names c)) \/ n = "Amundsen"%string -> has_line craters basins n)) \/
    (distance_bsed c ppf sort craters basins entropy ries = Err IndexError /\ exists n, (In n (firstn 6 (r_names c)) \/ n = "Amundsen"%string) /\ ~ has_line craters basins n) \/
    (distance_bsed c ppf sort craters basins entropy ries = Err ValueError /\ (forall n, In n (firstn 6 (r_names c)) \/ n = "Amundsen"%string -> has_line craters basins n) /\
       forall w n, In w craters -> In n (r_names c) -> gap c craters basins (false, w) n = None).
Proof.
  intros [S ND Dm]. destruct (fresh_total c ppf sort craters basins entropy 0) as (df & Fr). destruct (fresh_rows _ _ _ _ _ _ _ S Fr) as (rows & P & F & _).
  unfold distance_bsed. rewrite Fr. cbn [bind].
  assert (F' : Forall2 (fun r t => row_for c t r) rows (both craters basins)) by (clear - F; induction F; constructor; auto).
  destruct (Permutation_Forall2 (Permutation_sym P) F') as (ls & Pl & Fl).
  assert (F2 : Forall2 (row_for c) ls df) by (clear - Fl; induction Fl; constructor; auto).
  exact (distances_along c craters basins ls df (Permutation_sym Pl) F2 ND Dm ries).
Qed.
