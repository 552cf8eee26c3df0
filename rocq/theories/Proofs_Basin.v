From Coq Require Import String List ZArith Reals Lia Lra Psatz Bool Permutation Sorted.
From Verif Require Import Base Model_Time Model_Crater Model_Ice Model_Rng Model_Strat Model_Main Model_Module Model_Shown Model_Basin
  Spec_Time Spec_Ice Spec_Main Spec_Module Spec_Shown Spec_Basin Proofs_Base Proofs_Time Proofs_Geo Proofs_Crater Proofs_Ice Proofs_Rng Proofs_Strat Proofs_Main Proofs_Module Proofs_Shown.
Import ListNotations.
Open Scope R_scope.

(** ** The ice of basins *)
Lemma fold_plus : forall l a, fold_left Rplus l a = a + Rsum l.
Proof. induction l as [|x l IH]; intros a; cbn [fold_left]; [cbn; lra|]. rewrite IH, Rsum_cons. lra. Qed.
Lemma combine_map_l {A B C} (f : A -> B) : forall (l : list A) (m : list C), combine (map f l) m = map (fun p => (f (fst p), snd p)) (combine l m).
Proof. induction l as [|a l IH]; intros [|b m]; cbn; auto. now rewrite IH. Qed.
Lemma filter_map {A B} (p : B -> bool) (f : A -> B) l : filter p (map f l) = map f (filter (fun a => p (f a)) l).
Proof. induction l as [|a l IH]; cbn; auto. destruct (p (f a)); cbn; now rewrite IH. Qed.

Lemma johnson_one c d v : exists len, diam2len (crat c) [d] [v] "f" = Ok [len] /\ 0 < len.
Proof. unfold diam2len. cbn [String.eqb Ascii.eqb Bool.eqb orb map combine]. eexists. split; [reflexivity|]. apply Rpower_pos. Qed.

Lemma large_one c d v m : ice_large_craters c [d] [v] "f" = Ok m ->
  exists len, diam2len (crat c) [d] [v] "f" = Ok [len] /\
    m = 4 / 3 * PI * (len / 2) ^ 3 * impactor_density (crat c) * hydrated_wt_pct c * ice_retention_factor c v.
Proof.
  destruct (johnson_one c d v) as (len & E & _). unfold ice_large_craters. rewrite E. cbn [bind map combine]. intros [= <-]. exists len. split; [reflexivity|].
  cbn [Rsum fold_right]. unfold Rsum. cbn [fold_right]. unfold diam2vol. lra.
Qed.

Lemma basins_form c ppf tol df time lo hi u k b k' : sane c -> ppf_support ppf -> draws u -> is_min time lo -> is_max time hi ->
  get_basin_ice c ppf tol df time u k = Ok (b, k') ->
  exists (at_ : R -> nat) speeds heights, (forall age, first_nearest time age (at_ age)) /\
    length speeds = length (icy_basins c df) /\ Forall (speed_ok c) speeds /\ length heights = length (icy_basins c df) /\
    Forall2 (fun p h => basin_height c (fst p) (snd p) h) (combine (icy_basins c df) speeds) heights /\
    length b = length time /\
    forall j, (j < length time)%nat -> nth_error b j =
      Some (Rsum (map snd (filter (fun p => on_axis lo hi tol (i_age (fst p)) && Nat.eqb (at_ (i_age (fst p))) j) (combine (icy_basins c df) heights)))).
Proof.
  intros Hs Hp Hu Mn Mx E. unfold get_basin_ice, ice_basins in E. cbv zeta in E. fold (icy_basins c df) in E. set (bdf := icy_basins c df) in *.
  destruct (speeds_ok c ppf (length bdf) Hp ltac:(apply Hs) u k Hu) as (vs & k1 & E1 & Lv & Fv).
  unfold rbind, lift in E. rewrite E1 in E. cbn [bind] in E.
  destruct (mapM (fun '(b, v) => ice_large_craters c [2 * i_rad b] [v] "f") (combine bdf vs)) as [ms|] eqn:Em; [|discriminate]. cbn [bind] in E.
  destruct (placement Rplus 0 tol time (combine (map i_age bdf) ms) lo hi Mn Mx) as (at_ & out & A1 & A2 & A3 & A4).
  change (ages2time Rplus 0 tol time (combine (map i_age bdf) ms)) with (ages2time Rplus 0 tol time (combine (map i_age bdf) ms)) in E. rewrite A2 in E. cbn [bind] in E.
  set (T := fun m => m * hop_effcy c / ice_density c / area c).
  assert (Tk : forall m, get_ice_thickness c m = Ok (T m)) by (intros m; apply thickness_ok; left; apply Hs).
  rewrite mapM_thickness in E by (left; apply Hs). cbn [bind] in E. injection E as <- _.
  destruct (mapM_nth _ _ _ Em) as [Lm Nm]. assert (Lm' : length ms = length bdf) by (rewrite Lm, combine_length, Lv; apply Nat.min_id).
  exists at_, vs, (map T ms). split; [exact A1|]. split; [exact Lv|]. split; [exact Fv|]. split; [now rewrite map_length|]. split; [|split; [now rewrite map_length|]].
  - clear -Em Tk. revert ms Em. induction (combine bdf vs) as [|[r v] l IH]; intros ms Em; cbn [mapM] in Em; [injection Em as <-; constructor|].
    destruct (ice_large_craters c [2 * i_rad r] [v] "f") as [m|] eqn:El; [|discriminate]. cbn [bind] in Em.
    destruct (mapM _ l) as [ms'|] eqn:Er; [|discriminate]. injection Em as <-. cbn [map]. constructor; [|now apply IH]. cbn [fst snd].
    destruct (large_one _ _ _ _ El) as (len & D & ->). exists len. split; [exact D|]. apply Tk.
  - intros j Hj. rewrite nth_error_map, (A4 j Hj). cbn [option_map]. f_equal. rewrite fold_plus, Rplus_0_l.
    assert (Tl : forall l, T (Rsum l) = Rsum (map T l)).
    { induction l as [|x l IH]; [unfold T, Rsum; cbn; unfold Rdiv; ring|]. cbn [map]. rewrite !Rsum_cons, <- IH. unfold T, Rdiv. ring. }
    fold (T (Rsum (map snd (filter (fun ev => Rleb (lo - Rabs lo * tol) (fst ev) && Rleb (fst ev) (hi + Rabs hi * tol) && Nat.eqb (at_ (fst ev)) j) (combine (map i_age bdf) ms))))).
    rewrite Tl, combine_map_l, filter_map, !map_map. cbn [fst snd].
    assert (G : forall (q : impact -> bool) (l : list impact) (m : list R), map (fun x => T (snd x)) (filter (fun x => q (fst x)) (combine l m)) =
      map snd (filter (fun x => q (fst x)) (combine l (map T m)))).
    { intros q. induction l as [|a l IH]; intros [|y m]; cbn [combine map filter]; auto. destruct (q (fst (a, y))) eqn:Q; cbn [fst] in Q; cbn [fst]; rewrite Q; cbn [map snd]; now rewrite IH. }
    f_equal. apply (G (fun r => on_axis lo hi tol (i_age r) && Nat.eqb (at_ (i_age r)) j)).
Qed.

(** All steps together. *)
Lemma one_step x p n : (p < n)%nat -> Rsum (map (fun j => if Nat.eqb p j then x else 0) (seq 0 n)) = x.
Proof.
  intros Hp. assert (Z : forall s m, (p < s \/ s + m <= p)%nat -> Rsum (map (fun j => if Nat.eqb p j then x else 0) (seq s m)) = 0).
  { intros s m. revert s. induction m as [|m IH]; intros s H; [reflexivity|]. cbn [seq map]. rewrite Rsum_cons, IH by lia. destruct (Nat.eqb_spec p s); [lia|lra]. }
  replace n with (p + S (n - S p))%nat by lia. rewrite seq_app, map_app, Rsum_app, Z by lia. cbn [Nat.add seq map]. rewrite Rsum_cons, Z, Nat.eqb_refl by lia. lra.
Qed.
Lemma split_steps {A} (q : A -> bool) (at_ : A -> nat) (f : A -> R) n : forall l, Forall (fun a => (at_ a < n)%nat) l ->
  Rsum (map (fun j => Rsum (map f (filter (fun a => q a && Nat.eqb (at_ a) j) l))) (seq 0 n)) = Rsum (map f (filter q l)).
Proof.
  induction l as [|a l IH]; intros F.
  - cbn [filter map]. rewrite (map_ext _ (fun _ => 0)) by reflexivity. rewrite Rsum_map_const. cbn. lra.
  - inversion F as [|? ? Ha F']; subst. cbn [filter]. destruct (q a) eqn:Q.
    + cbn [andb map]. rewrite Rsum_cons, <- IH by exact F'.
      rewrite (map_ext (fun j => Rsum (map f (if Nat.eqb (at_ a) j then a :: filter (fun a => q a && Nat.eqb (at_ a) j) l else filter (fun a => q a && Nat.eqb (at_ a) j) l)))
         (fun j => (if Nat.eqb (at_ a) j then f a else 0) + Rsum (map f (filter (fun a => q a && Nat.eqb (at_ a) j) l)))).
      2: { intros j. destruct (Nat.eqb (at_ a) j); cbn [map]; [rewrite Rsum_cons; reflexivity|lra]. }
      rewrite Rsum_map_plus. f_equal. apply one_step. exact Ha.
    + cbn [andb]. apply IH. exact F'.
Qed.

(** ** The moving average *)
Lemma window (f : nat -> R) n j : (j < n)%nat ->
  Rsum (map f (filter (fun i => Nat.leb i (j + 1) && Nat.ltb (j + 1) (i + 3)) (seq 0 n))) =
  (match j with O => 0 | S i => f i end) + f j + (if Nat.ltb (S j) n then f (S j) else 0).
Proof.
  intros Hj.
  assert (Z : forall s m, (j + 1 < s \/ s + m + 1 <= j)%nat -> filter (fun i => Nat.leb i (j + 1) && Nat.ltb (j + 1) (i + 3)) (seq s m) = []).
  { intros s m. revert s. induction m as [|m IH]; intros s H; [reflexivity|]. cbn [seq filter]. rewrite IH by lia.
    destruct (Nat.leb_spec s (j + 1)), (Nat.ltb_spec (j + 1) (s + 3)); cbn [andb]; try reflexivity; lia. }
  assert (K : forall i, (i <= j + 1 <= i + 2)%nat -> (Nat.leb i (j + 1) && Nat.ltb (j + 1) (i + 3))%bool = true).
  { intros i H. destruct (Nat.leb_spec i (j + 1)), (Nat.ltb_spec (j + 1) (i + 3)); solve [reflexivity | lia]. }
  assert (T : Rsum (map f (filter (fun i => Nat.leb i (j + 1) && Nat.ltb (j + 1) (i + 3)) (seq j (n - j)))) =
    f j + (if Nat.ltb (S j) n then f (S j) else 0)).
  { destruct (n - j)%nat as [|m] eqn:E; [lia|]. cbn [seq filter]. rewrite K by lia. destruct (Nat.ltb_spec (S j) n).
    - destruct m as [|m]; [lia|]. cbn [seq filter]. rewrite K by lia. rewrite Z by lia. cbn [map]. rewrite !Rsum_cons. cbn. lra.
    - assert (m = 0)%nat by lia. subst m. cbn [seq filter map]. rewrite Rsum_cons. cbn. lra. }
  destruct j as [|i].
  - rewrite Nat.sub_0_r in T. rewrite T. lra.
  - replace n with (i + (1 + (n - S i)))%nat at 1 by lia. rewrite seq_app, filter_app, Z by lia. change (0 + i)%nat with i. change (seq i (1 + (n - S i))) with (i :: seq (S i) (n - S i)). cbn [app filter]. rewrite K by lia. cbn [map].
    rewrite Rsum_cons, T. lra.
Qed.
Lemma moving_nth x j : (j < length x)%nat -> nth_error (moving_avg x 3) j = Some (three (fun i => nth i x 0) (length x) j).
Proof.
  intros Hj. unfold moving_avg. rewrite nth_error_map, nth_error_nth' with (d := 0%nat) by now rewrite seq_length. rewrite seq_nth by auto. cbn [option_map Nat.add].
  f_equal. unfold three. change ((3 - 1) / 2)%nat with 1%nat. cbv zeta. rewrite window by exact Hj. replace (INR 3) with 3 by (cbn; lra). reflexivity.
Qed.
Lemma moving_length x w : length (moving_avg x w) = length x.
Proof. unfold moving_avg. now rewrite map_length, seq_length. Qed.
Lemma moving_map (f : nat -> R) n : moving_avg (map f (seq 0 n)) 3 = map (three f n) (seq 0 n).
Proof.
  unfold moving_avg. rewrite map_length, seq_length. apply map_ext_in. intros j I. apply in_seq in I. cbv zeta. change ((3 - 1) / 2)%nat with 1%nat. rewrite window by lia.
  assert (N : forall i, (i < n)%nat -> nth i (map f (seq 0 n)) 0 = f i).
  { intros i Hi. rewrite nth_indep with (d' := f 0%nat) by now rewrite map_length, seq_length. rewrite map_nth, seq_nth by exact Hi. reflexivity. }
  unfold three. replace (INR 3) with 3 by (cbn; lra). f_equal. f_equal; [f_equal|].
  - destruct j; [reflexivity|]. apply N. lia.
  - apply N. lia.
  - destruct (Nat.ltb_spec (S j) n); [|reflexivity]. now apply N.
Qed.
Lemma three_sum (f : nat -> R) n : (2 <= n)%nat -> Rsum (map (three f n) (seq 0 n)) = Rsum (map f (seq 0 n)) - (f 0%nat + f (n - 1)%nat) / 3.
Proof.
  intros Hn.
  set (a := fun j => match j with O => 0 | S i => f i end). set (b := fun j => if Nat.ltb (S j) n then f (S j) else 0).
  assert (E : Rsum (map (three f n) (seq 0 n)) = (Rsum (map a (seq 0 n)) + Rsum (map f (seq 0 n)) + Rsum (map b (seq 0 n))) / 3).
  { rewrite <- !Rsum_map_plus. unfold Rdiv. assert (D : forall l k, Rsum l * k = Rsum (map (fun x => x * k) l)).
    { intros l k. induction l as [|x l IH]; [cbn; lra|]. cbn [map]. rewrite !Rsum_cons, <- IH. lra. }
    rewrite D, map_map. reflexivity. }
  assert (A : Rsum (map a (seq 0 n)) = Rsum (map f (seq 0 n)) - f (n - 1)%nat).
  { destruct n as [|m]; [lia|]. replace (S m - 1)%nat with m by lia. cbn [seq map]. rewrite Rsum_cons, <- seq_shift, map_map. cbn [a].
    change (f 0%nat :: map f (map S (seq 0 m))) with (map f (0%nat :: map S (seq 0 m))). rewrite seq_shift. change (0%nat :: seq 1 m) with (seq 0 (S m)). rewrite seq_S, map_app, Rsum_app.
    cbn [map Nat.add]. rewrite Rsum_cons. cbn. rewrite (map_ext (fun x => f x) f) by reflexivity. lra. }
  assert (B : Rsum (map b (seq 0 n)) = Rsum (map f (seq 0 n)) - f 0%nat).
  { destruct n as [|m]; [lia|]. rewrite seq_S at 1. rewrite map_app, Rsum_app. cbn [map Nat.add]. rewrite Rsum_cons. unfold b at 2. rewrite Nat.ltb_irrefl.
    cbn [seq map]. rewrite Rsum_cons, <- seq_shift, map_map. rewrite (map_ext_in b (fun x => f (S x))).
    - cbn. lra.
    - intros x I. apply in_seq in I. unfold b. destruct (Nat.ltb_spec (S x) (S m)); [reflexivity|lia]. }
  rewrite E, A, B. field.
Qed.

(** ** The figure *)
Lemma fresh_total c ppf sort craters basins entropy k : exists df, fresh_list c ppf sort craters basins entropy k = Ok df.
Proof. unfold fresh_list, random_icy_basins, get_random_hydrated_basins, draw_ages, rbind, random, ret. cbn [bind]. eauto. Qed.
Definition splice (m : nat) (u v : tape) : tape := fun i => if Nat.ltb i m then u i else v (i - m)%nat.
Lemma splice_draws m u v : draws u -> draws v -> draws (splice m u v).
Proof. intros A B i. unfold splice. destruct (Nat.ltb i m); auto. Qed.
Lemma splice_low m u v : map (splice m u v) (seq 0 m) = map u (seq 0 m).
Proof. apply map_ext_in. intros i I. apply in_seq in I. unfold splice. destruct (Nat.ltb_spec i m); [reflexivity|lia]. Qed.
Lemma splice_high m u v n : map (splice m u v) (seq m n) = map v (seq 0 n).
Proof.
  assert (G : forall s, map (splice m u v) (seq (m + s) n) = map v (seq s n)).
  { induction n as [|n IH]; intros s; [reflexivity|]. cbn [seq map]. f_equal; [|rewrite <- IH; f_equal; f_equal; lia].
    unfold splice. destruct (Nat.ltb_spec (m + s) m); [lia|]. f_equal. lia. }
  rewrite <- G. now rewrite Nat.add_0_r.
Qed.
Lemma fresh_is_list c ppf sort craters basins entropy k df : fresh_list c ppf sort craters basins entropy k = Ok df ->
  exists k', get_crater_basin_list c ppf sort craters basins (splice (length basins) (entropy k) (entropy (S k))) 0%nat = Ok (df, k').
Proof.
  unfold fresh_list, get_crater_basin_list, random_icy_basins, get_random_hydrated_basins, draw_ages, rbind, random, ret. cbn [bind]. intros [= <-].
  rewrite splice_low, Nat.add_0_l, splice_high. eauto.
Qed.
Lemma kind_sane c comet : sane (r_i c) -> sane (kind_cfg c comet).
Proof. destruct comet; [apply sane_comet|auto]. Qed.
Lemma run_ok c ppf sort craters basins entropy comet time k : basin_sane c ppf entropy -> time <> [] ->
  exists b, run_ice c ppf sort craters basins entropy comet time k = Ok b /\ good (length time) b /\ basin_run c ppf sort craters basins comet time b.
Proof.
  intros [] Ne. destruct (fresh_total c ppf sort craters basins entropy (3 * k)) as (df & F). unfold run_ice. rewrite F. cbn [bind].
  destruct (fresh_is_list _ _ _ _ _ _ _ _ F) as (k1 & L).
  destruct (basin_ok (kind_cfg c comet) ppf (r_tol c) (map impact_of df) time (kind_sane c comet bs_ice) bs_ppf Ne (entropy (3 * k + 2)%nat) 0%nat (bs_draws _)) as (b & k2 & B & G).
  exists b. split; [|split; [exact G|]].
  - cbv zeta. destruct comet; cbn [kind_cfg] in B.
    + change (r_i (comet_run c)) with (get_comet_cfg (r_i c)). change (r_tol (comet_run c)) with (r_tol c). rewrite B. reflexivity.
    + rewrite B. reflexivity.
  - exists (splice (length basins) (entropy (3 * k)%nat) (entropy (S (3 * k)))), df, k1, (entropy (3 * k + 2)%nat), k2. repeat split; auto; try apply bs_draws.
    all: apply splice_draws; apply bs_draws.
Qed.
Lemma drawing_ok c ppf sort craters basins entropy n time comet : basin_sane c ppf entropy -> (0 < n)%nat -> (3 <= length time)%nat ->
  exists g, drawing_of c ppf sort craters basins entropy n time comet = Ok g /\ drawn_basins c ppf sort craters basins n time comet g /\
    mapM (run_ice c ppf sort craters basins entropy comet time) (seq (if comet then n else 0%nat) n) = Ok (dr_points g).
Proof.
  intros Hs Hn Hl. assert (Ne : time <> []) by (intros ->; cbn in Hl; lia).
  assert (M : forall l, exists cols, mapM (run_ice c ppf sort craters basins entropy comet time) l = Ok cols /\ length cols = length l /\
    Forall (good (length time)) cols /\ Forall (basin_run c ppf sort craters basins comet time) cols).
  { induction l as [|k l (cols & E & L & F & G)]; [exists []; repeat split; constructor|].
    destruct (run_ok c ppf sort craters basins entropy comet time k Hs Ne) as (b & Eb & Gb & Rb).
    exists (b :: cols). cbn [mapM]. rewrite Eb. cbn [bind]. rewrite E. cbn [bind]. repeat split; cbn [length]; auto. }
  destruct (M (seq (if comet then n else 0%nat) n)) as (cols & E & L & F & G). rewrite seq_length in L.
  unfold drawing_of. rewrite E. cbn [bind]. cbv zeta. destruct (Nat.ltb_spec (length time) 3); [lia|].
  eexists. split; [reflexivity|]. split; [|reflexivity]. rewrite !map_map, !moving_map. constructor; cbn [dr_kind dr_x dr_points dr_mean dr_pct]; auto.
  - apply map_ext. intros j. unfold three, mean_at, mean. rewrite !map_length, L. destruct j; rewrite ?map_length, ?L; reflexivity.
  - exists (fun j => match quantile (997 / 1000) (map (fun b => nth j b 0) cols) with Some v => v | None => 0 end). split; [reflexivity|].
    intros j Hj. cbv zeta. assert (N : map (fun b : list R => nth j b 0) cols <> []) by (destruct cols; [cbn in L; lia|discriminate]).
    destruct (quantile_ok (997 / 1000) _ ltac:(lra) N) as (v & -> & I & A & B). rewrite map_length, L in A, B. split; [exact I|]. split; [exact A|].
    replace (3 / 1000) with (1 - 997 / 1000) by lra. exact B.
Qed.

(** ** Every outcome is possible *)
Lemma run_local c ppf sort craters basins e1 e2 comet time k :
  e1 (3 * k)%nat = e2 (3 * k)%nat -> e1 (S (3 * k)) = e2 (S (3 * k)) -> e1 (3 * k + 2)%nat = e2 (3 * k + 2)%nat ->
  run_ice c ppf sort craters basins e1 comet time k = run_ice c ppf sort craters basins e2 comet time k.
Proof. intros A B C. unfold run_ice, fresh_list. now rewrite A, B, C. Qed.
Lemma list_is_fresh c ppf sort craters basins u df k' entropy k : get_crater_basin_list c ppf sort craters basins u 0%nat = Ok (df, k') ->
  entropy k = u -> entropy (S k) = (fun i => u (i + length basins)%nat) -> fresh_list c ppf sort craters basins entropy k = Ok df.
Proof.
  unfold fresh_list, get_crater_basin_list, random_icy_basins, get_random_hydrated_basins, draw_ages, rbind, random, ret. cbn [bind]. intros [= <- _] -> ->.
  assert (G : forall m s, map (fun i => u (i + length basins)%nat) (seq s m) = map u (seq (length basins + s) m)).
  { induction m as [|m IH]; intros s; [reflexivity|]. cbn [seq map]. rewrite IH. f_equal; [f_equal; lia|]. f_equal. f_equal. lia. }
  rewrite G, Nat.add_0_r. reflexivity.
Qed.
Lemma possible c ppf sort craters basins time : forall specs : list (bool * list R),
  Forall (fun p => basin_run c ppf sort craters basins (fst p) time (snd p)) specs ->
  exists entropy, (forall k, draws (entropy k)) /\
    forall k p, nth_error specs k = Some p -> run_ice c ppf sort craters basins entropy (fst p) time k = Ok (snd p).
Proof.
  induction specs as [|p specs IH] using rev_ind; intros F.
  - exists (fun _ _ => 0). split; [intros k i; lra|]. intros [|k] p; discriminate.
  - apply Forall_app in F as [F Fp]. inversion Fp as [|? ? Hp _]; subst. destruct (IH F) as (e & D & N). clear IH.
    destruct Hp as (u & df & k1 & v & k2 & Du & Dv & L & B). set (m := (3 * length specs)%nat).
    exists (fun j => if Nat.ltb j m then e j else if Nat.eqb j m then u else if Nat.eqb j (S m) then (fun i => u (i + length basins)%nat) else v).
    split.
    + intros k i. destruct (Nat.ltb k m); [apply D|]. destruct (Nat.eqb k m); [apply Du|]. destruct (Nat.eqb k (S m)); [apply Du|apply Dv].
    + intros k q E. destruct (Nat.lt_ge_cases k (length specs)) as [Lt|Ge].
      * rewrite nth_error_app1 in E by exact Lt. rewrite <- (N k q E). apply run_local.
        -- destruct (Nat.ltb_spec (3 * k) m); [reflexivity|unfold m in *; lia].
        -- destruct (Nat.ltb_spec (S (3 * k)) m); [reflexivity|unfold m in *; lia].
        -- destruct (Nat.ltb_spec (3 * k + 2) m); [reflexivity|unfold m in *; lia].
      * rewrite nth_error_app2 in E by exact Ge. destruct (k - length specs)%nat as [|r] eqn:Ek; [|destruct r; discriminate]. cbn in E. injection E as <-.
        assert (k = length specs) by lia. subst k. fold m. unfold run_ice.
        rewrite (list_is_fresh c ppf sort craters basins u df k1 _ _ L).
        2: { fold m. now rewrite Nat.ltb_irrefl, Nat.eqb_refl. }
        2: { fold m. destruct (Nat.ltb_spec (S m) m); [lia|]. destruct (Nat.eqb_spec (S m) m); [lia|]. now rewrite Nat.eqb_refl. }
        cbn [bind]. cbv zeta. fold m. replace (Nat.ltb (m + 2) m) with false by (symmetry; apply Nat.ltb_ge; lia).
        replace (Nat.eqb (m + 2) m) with false by (symmetry; apply Nat.eqb_neq; lia). replace (Nat.eqb (m + 2) (S m)) with false by (symmetry; apply Nat.eqb_neq; lia).
        destruct p as [comet b]. cbn [fst snd] in *. destruct comet; cbn [kind_cfg] in B.
        -- change (r_i (comet_run c)) with (get_comet_cfg (r_i c)). change (r_tol (comet_run c)) with (r_tol c). rewrite B. reflexivity.
        -- rewrite B. reflexivity.
Qed.

(** ** Ice of a basin is positive *)
Lemma retention_pos c v : 0 < ice_retention_factor c v.
Proof.
  unfold ice_retention_factor. cbv zeta.
  assert (P : forall r, 0 < r -> 0 < (if Rltb r 0 then 0 else r)). { intros r Hr. destruct (Rltb r 0) eqn:E; [apply Rltb_true in E; lra|exact Hr]. }
  apply P. assert (Q : 0 < (if String.eqb (mode c) "cannon" then (if Rleb 10 (v * (1 / 1000)) then 3626 / 100 * exp (- (3464 / 10000) * (v * (1 / 1000))) else 1)
    else if String.eqb (mode c) "moonpies" then (if Rleb 10 (v * (1 / 1000)) then 16600 * Rpower (v * (1 / 1000)) (- (416 / 100)) else 1) else 1)).
  { destruct (String.eqb (mode c) "cannon"); [|destruct (String.eqb (mode c) "moonpies")]; try destruct (Rleb 10 (v * (1 / 1000))); try lra.
    - pose proof (exp_pos (- (3464 / 10000) * (v * (1 / 1000)))). lra.
    - pose proof (Rpower_pos (v * (1 / 1000)) (- (416 / 100))). lra. }
  destruct (negb (is_comet c)); [destruct (Rltb (v * (1 / 1000)) 10)|]; try exact Q. lra.
Qed.
Lemma height_pos c b v h : sane c -> 0 < hydrated_wt_pct c -> basin_height c b v h -> 0 < h.
Proof.
  intros Hs Hw (len & D & T). destruct (johnson_one c (2 * i_rad b) v) as (len' & D' & P). rewrite D in D'. assert (len' = len) by congruence. subst len'.
  rewrite thickness_ok in T by (left; apply Hs). injection T as <-. pose proof (retention_pos c v) as Pr. pose proof PI_RGT_0. destruct Hs.
  assert (Pa : 0 < area c) by (unfold area; rewrite s_species; cbn [String.eqb Ascii.eqb Bool.eqb]; exact s_area). assert (0 < (len / 2) ^ 3) by (apply pow_lt; lra).
  apply Rdiv_lt_0_compat; [|exact Pa]. apply Rdiv_lt_0_compat; [|exact s_dens]. apply Rmult_lt_0_compat; [|exact s_hop].
  apply Rmult_lt_0_compat; [|exact Pr]. apply Rmult_lt_0_compat; [|exact Hw]. apply Rmult_lt_0_compat; [|exact s_rho]. apply Rmult_lt_0_compat; [lra|assumption].
Qed.
Lemma nearest_lt time age i : first_nearest time age i -> (i < length time)%nat.
Proof. intros (t & E & _). apply nth_error_Some. congruence. Qed.
Lemma basins_total c ppf tol df time lo hi u k b k' : sane c -> ppf_support ppf -> draws u -> is_min time lo -> is_max time hi ->
  get_basin_ice c ppf tol df time u k = Ok (b, k') ->
  exists speeds heights, length speeds = length (icy_basins c df) /\ Forall (speed_ok c) speeds /\ length heights = length (icy_basins c df) /\
    Forall2 (fun p h => basin_height c (fst p) (snd p) h) (combine (icy_basins c df) speeds) heights /\
    Rsum b = Rsum (map snd (filter (fun p => on_axis lo hi tol (i_age (fst p))) (combine (icy_basins c df) heights))).
Proof.
  intros Hs Hp Hu Mn Mx E. destruct (basins_form c ppf tol df time lo hi u k b k' Hs Hp Hu Mn Mx E) as (at_ & vs & hs & A & Lv & Fv & Lh & F2 & Lb & N).
  exists vs, hs. repeat (split; [assumption|]).
  rewrite <- (split_steps (fun p => on_axis lo hi tol (i_age (fst p))) (fun p => at_ (i_age (fst p))) snd (length time)).
  - f_equal. apply nth_error_ext_eq. intros j. destruct (Nat.lt_ge_cases j (length time)) as [Lt|Ge].
    + rewrite (N j Lt). rewrite nth_error_map, nth_error_nth' with (d := 0%nat) by now rewrite seq_length. rewrite seq_nth by exact Lt. reflexivity.
    + rewrite (proj2 (nth_error_None b j)) by lia. symmetry. apply nth_error_None. rewrite map_length, seq_length. exact Ge.
  - apply Forall_forall. intros p _. eapply nearest_lt. apply A.
Qed.
Lemma basins_when c ppf tol df time lo hi u k b k' : sane c -> 0 < hydrated_wt_pct c -> ppf_support ppf -> draws u -> is_min time lo -> is_max time hi ->
  get_basin_ice c ppf tol df time u k = Ok (b, k') ->
  forall j, (j < length time)%nat -> exists x, nth_error b j = Some x /\
    (0 < x /\ (exists r, In r (icy_basins c df) /\ on_axis lo hi tol (i_age r) = true /\ first_nearest time (i_age r) j) \/
     x = 0 /\ forall r, In r (icy_basins c df) -> on_axis lo hi tol (i_age r) = true -> ~ first_nearest time (i_age r) j).
Proof.
  intros Hs Hw Hp Hu Mn Mx E j Hj. destruct (basins_form c ppf tol df time lo hi u k b k' Hs Hp Hu Mn Mx E) as (at_ & vs & hs & A & Lv & Fv & Lh & F2 & Lb & N).
  eexists. split; [apply (N j Hj)|].
  assert (Fh : Forall (fun h => 0 < h) hs). { clear -F2 Hs Hw. induction F2; constructor; auto. eapply height_pos; eauto. }
  assert (U : forall age i, first_nearest time age i -> i = at_ age).
  { intros age i (t & E1 & M1 & S1). destruct (A age) as (t' & E2 & M2 & S2). destruct (Nat.lt_trichotomy i (at_ age)) as [L|[L|L]]; [|exact L|].
    - pose proof (S2 i t L E1). pose proof (M1 _ _ E2). lra.
    - pose proof (S1 _ t' L E2). pose proof (M2 _ _ E1). lra. }
  set (l := filter _ _). destruct l as [|p l'] eqn:El.
  - right. split; [reflexivity|]. intros r Ir Ax Fn. apply U in Fn.
    destruct (In_nth_error _ _ Ir) as (m & Em). assert (Lm : (m < length hs)%nat) by (rewrite Lh; apply nth_error_Some; congruence).
    apply nth_error_Some in Lm. destruct (nth_error hs m) as [h|] eqn:Eh; [|contradiction].
    assert (I : In (r, h) l). { unfold l. apply filter_In. split; [|cbn [fst]; rewrite Ax, Fn, Nat.eqb_refl; reflexivity]. apply (nth_error_In _ m). clear -Em Eh. revert m hs Em Eh.
      induction (icy_basins c df) as [|a q IH]; intros [|m] [|y hs]; cbn; try discriminate; [congruence|]. apply IH. }
    rewrite El in I. contradiction.
  - left. assert (Ip : In p l) by (rewrite El; now left). unfold l in Ip. apply filter_In in Ip as [Ic Q]. apply andb_prop in Q as [Q1 Q2]. apply Nat.eqb_eq in Q2. split.
    + cbn [map]. rewrite Rsum_cons. assert (Z : forall q, In q l -> 0 < snd q).
      { intros q Iq. unfold l in Iq. apply filter_In in Iq as [Iq _]. destruct q as [r h]. apply in_combine_r in Iq. rewrite Forall_forall in Fh. now apply Fh. }
      pose proof (Z p ltac:(rewrite El; now left)). assert (0 <= Rsum (map snd l')); [|lra]. apply Rsum_nonneg, Forall_forall. intros x Ix. apply in_map_iff in Ix as (q & <- & Iq). left. apply Z. rewrite El. now right.
    + exists (fst p). destruct p as [r h]. split; [now apply in_combine_l in Ic|]. split; [exact Q1|]. cbn [fst] in *. rewrite <- Q2. apply A.
Qed.

(** ** Totals of the mean line *)
Lemma sum_nth : forall (b : list R), Rsum (map (fun j => nth j b 0) (seq 0 (length b))) = Rsum b.
Proof. induction b as [|x b IH]; [reflexivity|]. cbn [length seq map nth]. rewrite !Rsum_cons, <- seq_shift, map_map. f_equal. exact IH. Qed.
Lemma means_sum points len : Forall (fun b => length b = len) points ->
  Rsum (map (mean_at points) (seq 0 len)) = mean (map Rsum points).
Proof.
  intros F. unfold mean_at, mean. rewrite map_length.
  assert (D : forall (f : nat -> R) k l, Rsum (map (fun j => f j / k) l) = Rsum (map f l) / k).
  { intros f k l. induction l as [|x l IH]; [cbn; unfold Rdiv; ring|]. cbn [map]. rewrite !Rsum_cons, IH. unfold Rdiv. ring. }
  rewrite (map_ext _ (fun j => Rsum (map (fun b => nth j b 0) points) / INR (length points))) by (intros j; now rewrite map_length).
  rewrite D. f_equal. induction F as [|b points Hb F IH].
  - cbn [map]. rewrite (map_ext _ (fun _ => 0)) by reflexivity. rewrite Rsum_map_const. cbn. lra.
  - cbn [map]. rewrite Rsum_cons, <- IH. rewrite (map_ext _ (fun j => nth j b 0 + Rsum (map (fun b => nth j b 0) points))) by (intros j; apply Rsum_cons).
    rewrite Rsum_map_plus. f_equal. rewrite <- Hb. apply sum_nth.
Qed.
Lemma mean_at_nonneg points len j : Forall (good len) points -> 0 <= mean_at points j.
Proof.
  intros F. unfold mean_at, mean. assert (0 <= Rsum (map (fun b => nth j b 0) points)).
  { apply Rsum_nonneg, Forall_forall. intros x I. apply in_map_iff in I as (b & <- & I). rewrite Forall_forall in F. destruct (F b I) as [_ G].
    destruct (nth_in_or_default j b 0) as [H| ->]; [|lra]. rewrite Forall_forall in G. now apply G. }
  pose proof (pos_INR (length (map (fun b : list R => nth j b 0) points))) as [H0|<-]; [apply Rle_mult_inv_pos; auto|unfold Rdiv; rewrite Rinv_0; lra].
Qed.
Lemma mapM_nth_run {A B} (f : A -> result B) l out : (forall i a b, nth_error l i = Some a -> nth_error out i = Some b -> f a = Ok b) -> length l = length out -> mapM f l = Ok out.
Proof.
  revert out. induction l as [|a l IH]; intros [|b out] H L; try discriminate; [reflexivity|]. cbn [mapM]. rewrite (H 0%nat a b eq_refl eq_refl). cbn [bind].
  rewrite (IH out); [reflexivity| |now injection L]. intros i. apply (H (S i)).
Qed.
Lemma figure_possible c d ppf sort craters basins n time asts coms : sane (r_i c) -> ppf_support ppf -> (0 < n)%nat ->
  get_time_array (r_rnd d) (r_start d) (r_end d) (r_step d) = Ok time -> (3 <= length time)%nat ->
  length asts = n -> length coms = n ->
  Forall (basin_run c ppf sort craters basins false time) asts -> Forall (basin_run c ppf sort craters basins true time) coms ->
  exists entropy a b, (forall k, draws (entropy k)) /\ basin_ice c d ppf sort craters basins entropy n = Ok [a; b] /\
    dr_points a = asts /\ dr_points b = coms /\ drawn_basins c ppf sort craters basins n time false a /\ drawn_basins c ppf sort craters basins n time true b.
Proof.
  intros Hs Hp Hn Et Lt La Lc Fa Fc.
  destruct (possible c ppf sort craters basins time (map (pair false) asts ++ map (pair true) coms)) as (e & De & N).
  { apply Forall_app. split; apply Forall_map; [exact Fa|exact Fc]. }
  assert (Bs : basin_sane c ppf e) by (constructor; auto).
  destruct (drawing_ok c ppf sort craters basins e n time false Bs Hn Lt) as (a & Ea & Ha & Ma).
  destruct (drawing_ok c ppf sort craters basins e n time true Bs Hn Lt) as (b & Eb & Hb & Mb).
  exists e, a, b. split; [exact De|]. split.
  - unfold basin_ice. rewrite Et. cbn [bind mapM]. rewrite Ea. cbn [bind]. rewrite Eb. reflexivity.
  - split; [|split; [|split; assumption]].
    + assert (M : mapM (run_ice c ppf sort craters basins e false time) (seq 0 n) = Ok asts); [|congruence].
      apply mapM_nth_run; [|now rewrite seq_length]. intros i k x E1 E2.
      assert (Hi : (i < n)%nat) by (rewrite <- La; apply nth_error_Some; congruence). rewrite nth_error_nth' with (d := 0%nat) in E1 by now rewrite seq_length.
      rewrite seq_nth in E1 by exact Hi. injection E1 as <-. apply (N i (false, x)). rewrite nth_error_app1 by (rewrite map_length; lia). apply map_nth_error. exact E2.
    + assert (M : mapM (run_ice c ppf sort craters basins e true time) (seq n n) = Ok coms); [|congruence].
      apply mapM_nth_run; [|now rewrite seq_length]. intros i k x E1 E2.
      assert (Hi : (i < n)%nat) by (rewrite <- Lc; apply nth_error_Some; congruence). rewrite nth_error_nth' with (d := 0%nat) in E1 by now rewrite seq_length.
      rewrite seq_nth in E1 by exact Hi. injection E1 as <-. apply (N (n + i)%nat (true, x)). rewrite nth_error_app2 by (rewrite map_length; lia).
      rewrite map_length, La. replace (n + i - n)%nat with i by lia. apply map_nth_error. exact E2.
Qed.
