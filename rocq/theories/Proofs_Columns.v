(** Proofs about the figures of columns. *)
From Coq Require Import String List ZArith Reals Bool Lra Lia.
From Verif Require Import Base Model_Time Model_Path Proofs_Path Model_Strat Model_Plot Model_Figure Model_Columns Spec_Figure Spec_Columns.
From Verif Require Import Proofs_Base Proofs_Time Proofs_Figure.
Import ListNotations.
Open Scope R_scope.
Open Scope list_scope.

Lemma enum_cons {A} (x : A) l : enum (x :: l) = (0%nat, x) :: combine (seq 1 (length l)) l.
Proof. reflexivity. Qed.
Lemma enum_app1 {A} (l : list A) x : enum (l ++ [x]) = enum l ++ [(length l, x)].
Proof.
  unfold enum. rewrite app_length. cbn [length]. rewrite seq_app. cbn [seq plus].
  generalize (length l) at 2 4. intros n.
  generalize (seq 0 (length l)) (seq_length (length l) 0). induction l as [|a l IH]; intros [|k s] E; cbn in *; try discriminate; auto.
  f_equal. apply IH. congruence.
Qed.

Lemma first_axes n axs d rows i : length axs = n -> (i < n)%nat ->
  nth_error (fig_axes ((axs, d) :: rows)) (1 + i) = Some (Column 0 i).
Proof.
  intros L I. unfold fig_axes. rewrite enum_cons. cbn [nth_error plus flat_map run_axes]. rewrite L, <- app_assoc.
  rewrite nth_error_app1 by (rewrite map_length, seq_length; auto).
  erewrite map_nth_error; [reflexivity|]. rewrite (nth_error_nth' _ 0%nat) by (rewrite seq_length; auto).
  f_equal. now rewrite seq_nth.
Qed.

Lemma find_none_map {A B} (f : B -> bool) (g : A -> B) l : (forall x, f (g x) = false) -> forall l', find f (map g l ++ l') = find f l'.
Proof. intros H l'. induction l as [|x l IH]; cbn; auto. now rewrite H. Qed.

Lemma second_row nruns axs d axs' d' rows : (0 < length axs)%nat -> (0 < length axs')%nat ->
  find (fun x => negb (Nat.eqb (grid_row nruns x) 0)) (skipn 2 (fig_axes ((axs, d) :: (axs', d') :: rows))) = Some (Column 1 0).
Proof.
  intros L L'. unfold fig_axes. rewrite enum_cons. cbn [combine seq length flat_map run_axes].
  destruct (length axs) as [|n]; [lia|]. cbn [seq map app skipn].
  rewrite <- app_assoc. rewrite find_none_map by reflexivity. rewrite find_none_map by reflexivity.
  destruct (length axs') as [|m]; [lia|]. reflexivity.
Qed.
Lemma one_row nruns axs d : find (fun x => negb (Nat.eqb (grid_row nruns x) 0)) (skipn 2 (fig_axes [(axs, d)])) = None.
Proof.
  unfold fig_axes. rewrite enum_cons. cbn [combine seq length flat_map run_axes]. rewrite app_nil_r.
  assert (F : find (fun x => negb (Nat.eqb (grid_row nruns x) 0)) (map (Column 0) (seq 0 (length axs)) ++ map (Twin 0) (twins axs)) = None).
  { rewrite find_none_map by reflexivity. rewrite <- (app_nil_r (map _ _)). rewrite find_none_map by reflexivity. reflexivity. }
  destruct (map _ _ ++ map _ _) as [|x l]; [reflexivity|]. cbn [find skipn] in *.
  destruct (negb _) in F; [discriminate|exact F].
Qed.

(** The number of axes. *)
Definition columns_in (axs : list (option (list grow))) : nat :=
  length (filter (fun c => match c with Some _ => true | None => false end) axs).
Lemma twins_length axs : length (twins axs) = columns_in axs.
Proof.
  unfold twins, columns_in, enum. rewrite map_length.
  generalize (seq 0 (length axs)) (seq_length (length axs) 0). induction axs as [|a axs IH]; intros [|k s] E; cbn in *; try discriminate; auto.
  destruct a; cbn; rewrite IH; auto.
Qed.
Lemma axes_length rows : length (fig_axes rows) = (1 + list_sum (map (fun row => length (fst row) + columns_in (fst row)) rows))%nat.
Proof.
  assert (G : forall k, length (flat_map run_axes (combine (seq k (length rows)) rows)) =
    list_sum (map (fun row => length (fst row) + columns_in (fst row))%nat rows)).
  { induction rows as [|[a d] rows IH]; intros k; [reflexivity|]. cbn [length seq combine flat_map run_axes map fst].
    rewrite !app_length, !map_length, seq_length, twins_length, IH. reflexivity. }
  unfold fig_axes, enum. cbn [length]. now rewrite G.
Qed.

(** The last axis. *)
Lemma last_app {A} (l l' : list A) x : l' <> [] -> last (l ++ l') x = last l' x.
Proof.
  intros N. induction l as [|a l IH]; cbn [app]; auto. cbn [last].
  destruct (l ++ l') eqn:E; [|exact IH]. apply app_eq_nil in E as [_ E]. contradiction.
Qed.
Lemma last_map {A B} (f : A -> B) l x y : l <> [] -> last (map f l) y = f (last l x).
Proof.
  intros N. induction l as [|a l IH]; [contradiction|]. destruct l as [|b l]; [reflexivity|].
  change (last (map f (a :: b :: l)) y) with (last (map f (b :: l)) y). rewrite IH by discriminate. reflexivity.
Qed.
Lemma twins_app axs c : twins (axs ++ [c]) = twins axs ++ match c with Some _ => [length axs] | None => [] end.
Proof.
  unfold twins. rewrite enum_app1, filter_app, map_app. f_equal. destruct c; reflexivity.
Qed.
Lemma twins_last axs : (exists c, In (Some c) axs) ->
  twins axs <> [] /\ exists c, nth_error axs (last (twins axs) 0%nat) = Some (Some c) /\
    forall p, (last (twins axs) 0 < p < length axs)%nat -> nth_error axs p = Some None.
Proof.
  induction axs as [|x axs IH] using rev_ind; intros (c & H); [destruct H|].
  rewrite twins_app. destruct x as [x|].
  - split; [destruct (twins axs); discriminate|]. rewrite last_last. exists x. split.
    + now rewrite nth_error_app2, Nat.sub_diag by lia.
    + intros p. rewrite app_length. cbn [length]. lia.
  - rewrite app_nil_r. destruct IH as (N & c' & E & G).
    { apply in_app_iff in H as [H|[H|[]]]; [eauto|discriminate]. }
    split; auto. exists c'. assert (last (twins axs) 0 < length axs)%nat by (apply nth_error_Some; congruence). split.
    + now rewrite nth_error_app1 by auto.
    + intros p. rewrite app_length. cbn [length]. intros P. destruct (Nat.eq_dec p (length axs)) as [->|Q].
      * now rewrite nth_error_app2, Nat.sub_diag by lia.
      * rewrite nth_error_app1 by lia. apply G. lia.
Qed.
Lemma twins_none axs : (forall c, ~ In (Some c) axs) -> twins axs = [].
Proof.
  intros N. induction axs as [|x axs IH] using rev_ind; [reflexivity|]. rewrite twins_app.
  destruct x as [x|]; [exfalso; apply (N x), in_app_iff; right; now left|].
  rewrite IH; [reflexivity|]. intros c H. apply (N c), in_app_iff. auto.
Qed.
Lemma last_axis rows axs d : axs <> [] ->
  last (fig_axes (rows ++ [(axs, d)])) Bar =
  match twins axs with [] => Column (length rows) (length axs - 1) | t => Twin (length rows) (last t 0%nat) end.
Proof.
  intros N. unfold fig_axes. rewrite enum_app1, flat_map_app. cbn [flat_map run_axes]. rewrite app_nil_r.
  assert (M : map (Column (length rows)) (seq 0 (length axs)) <> []) by (destruct axs; [contradiction|discriminate]).
  change (Bar :: ?a ++ ?b) with ((Bar :: a) ++ b). rewrite last_app.
  - destruct (twins axs) as [|t ts].
    + cbn [map]. rewrite app_nil_r. rewrite (last_map _ _ 0%nat) by (destruct axs; [contradiction|discriminate]).
      f_equal. destruct axs as [|a axs]; [contradiction|]. cbn [length]. rewrite seq_S. rewrite last_last. cbn. lia.
    + rewrite last_app by discriminate. rewrite (last_map _ _ 0%nat) by discriminate. reflexivity.
  - destruct (map (Column _) _); [contradiction|discriminate].
Qed.

(** The order of the saved columns. *)
Section Order.
  Variable read : string -> Z -> string -> option (list layer).
  Variable by_depth : list layer -> list layer.
  Variable by_diam : list (string * R) -> list (string * R).
  Variable hash : string -> Z.
  Variable cdf : list (string * R).
  Variable min_thick : R.

  Lemma dict_set_new {A} k (v : A) d : ~ In k (map fst d) -> map fst (dict_set k v d) = map fst d ++ [k].
  Proof.
    induction d as [|[k0 v0] d IH]; cbn [dict_set map fst In]; intros N; [reflexivity|].
    destruct (key_eqb k k0) eqn:E; [apply key_eqb_eq in E; subst; tauto|].
    cbn [map fst app]. rewrite IH by tauto. reflexivity.
  Qed.
  Lemma cell_err n run cells e : fold_left (draw_cell read by_depth by_diam hash cdf min_thick n run) cells (Err e) = Err e.
  Proof. induction cells as [|[[s seed] [i ct]] cells IH]; cbn; auto. Qed.
  Lemma cells_keys n run cells : forall d d', NoDup (map fst (d_pct d) ++ map (ckey run) cells) ->
    fold_left (draw_cell read by_depth by_diam hash cdf min_thick n run) cells (Ok d) = Ok d' ->
    map fst (d_pct d') = map fst (d_pct d) ++ filter (has_file read) (map (ckey run) cells).
  Proof.
    induction cells as [|[[s seed] [i ct]] cells IH]; intros d d' N E.
    - cbn in *. injection E as <-. now rewrite app_nil_r.
    - cbn [fold_left] in E. unfold draw_cell at 2 in E. cbn [bind] in E.
      cbn [map] in *. assert (K : ckey run (s, seed, (i, ct)) = (run, seed, ct)) by reflexivity. rewrite K in *. clear K.
      unfold draw_column in E. cbn [filter has_file]. destruct (read run seed ct) as [table|].
      + destruct (plot_column min_thick table) as [[t sdf]|]; cbn [bind] in E; [|rewrite cell_err in E; discriminate].
        destruct (get_strat_col_ranges _ _ _ _ sdf) as [strat|]; cbn [bind] in E; [|rewrite cell_err in E; discriminate].
        destruct (set (d_axs d) _ (Some strat)) as [axs|]; cbn [bind] in E; [|rewrite cell_err in E; discriminate].
        assert (F : ~ In (run, seed, ct) (map fst (d_pct d))).
        { intros H. apply NoDup_remove_2 in N. apply N, in_app_iff. now left. }
        apply IH in E; cbn [d_pct] in *.
        * rewrite E, dict_set_new by auto. now rewrite <- app_assoc.
        * rewrite dict_set_new by auto. now rewrite <- app_assoc.
      + cbn [bind] in E. apply IH in E; auto. eapply NoDup_remove_1; eauto.
  Qed.
  Lemma ckeys run seeds cts : map (ckey run) (fig_cells seeds cts) = flat_map (fun seed => map (fun ct => (run, seed, ct)) cts) seeds.
  Proof.
    assert (G : forall A (l : list A) k, map snd (combine (seq k (length l)) l) = l).
    { induction l as [|a l IH]; intros k; cbn; [reflexivity|]. now rewrite IH. }
    unfold fig_cells, enum. generalize 0%nat at 2 as k. induction seeds as [|seed seeds IH]; intros k; [reflexivity|].
    cbn [length seq combine flat_map]. rewrite map_app, IH. f_equal.
    rewrite map_map. unfold ckey. cbn [fst snd]. rewrite <- (G _ cts 0%nat) at 3. now rewrite map_map.
  Qed.
  Lemma NoDup_app_l {A} (l l' : list A) : NoDup (l ++ l') -> NoDup l.
  Proof. induction l as [|a l IH]; cbn; intros N; [constructor|]. inversion N; subst. constructor; auto. rewrite in_app_iff in *. tauto. Qed.
  Lemma runs_keys seeds cts ncols runs : forall rows m pct rows' m' pct',
    NoDup (map fst pct ++ keys_in_order runs seeds cts) ->
    fold_left (draw_run read by_depth by_diam hash cdf min_thick seeds cts ncols) runs (Ok (rows, m, pct)) = Ok (rows', m', pct') ->
    map fst pct' = map fst pct ++ filter (has_file read) (keys_in_order runs seeds cts).
  Proof.
    assert (ERR : forall l e, fold_left (draw_run read by_depth by_diam hash cdf min_thick seeds cts ncols) l (Err e) = Err e).
    { induction l; cbn; auto. }
    induction runs as [|run runs IH]; intros rows m pct rows' m' pct' N E.
    - cbn in *. injection E as <- <- <-. now rewrite app_nil_r.
    - cbn [fold_left] in E. unfold draw_run at 2 in E. cbn [bind] in E. fold (fig_cells seeds cts) in E.
      destruct (fold_left _ (fig_cells seeds cts) _) as [d|e] eqn:Ed; cbn [bind] in E; [|rewrite ERR in E; discriminate].
      unfold keys_in_order in N. cbn [flat_map] in N. fold (keys_in_order runs seeds cts) in N. rewrite <- ckeys in N.
      apply cells_keys in Ed; cbn [d_pct] in *; [|rewrite app_assoc in N; apply NoDup_app_l in N; exact N].
      apply IH in E.
      + rewrite E, Ed. unfold keys_in_order at 2. cbn [flat_map]. fold (keys_in_order runs seeds cts). rewrite <- ckeys.
        now rewrite filter_app, app_assoc.
      + rewrite Ed. rewrite app_assoc in N. revert N. generalize (map (ckey run) (fig_cells seeds cts)) as l.
        generalize (map fst pct) as a. generalize (keys_in_order runs seeds cts) as b. clear. intros b a l N.
        rewrite <- app_assoc in *. induction a as [|x a IH]; cbn in *.
        * induction l as [|y l IH]; cbn in *; auto. inversion N; subst. destruct (has_file read y); cbn; auto.
          constructor; auto. intros H. apply H1. rewrite in_app_iff in *. destruct H as [H|H]; auto. apply filter_In in H. tauto.
        * inversion N; subst. constructor; auto. intros H. apply H1. rewrite !in_app_iff in *.
          destruct H as [H|[H|H]]; auto. apply filter_In in H. tauto.
  Qed.
  Lemma NoDup_keys runs seeds cts : NoDup runs -> NoDup seeds -> NoDup cts -> NoDup (keys_in_order runs seeds cts).
  Proof.
    intros N1 N2 N3.
    assert (FM : forall A B (f : A -> list B) l, NoDup l -> (forall a, NoDup (f a)) ->
      (forall a a' b, In b (f a) -> In b (f a') -> a = a') -> NoDup (flat_map f l)).
    { intros A B f l N F I. induction N as [|a l H N IH]; cbn; [constructor|].
      assert (D : forall b, In b (f a) -> ~ In b (flat_map f l)).
      { intros b H1 H2. apply in_flat_map in H2 as (a' & H2 & H3). apply H. now rewrite (I _ _ _ H1 H3). }
      revert D. generalize (f a) (F a). intros k K D. induction K as [|b k H' K IH']; cbn; auto. constructor.
      - rewrite in_app_iff. intros [X|X]; [auto|]. apply (D b); [now left|auto].
      - apply IH'. intros c X. apply D. now right. }
    unfold keys_in_order. apply FM; auto.
    - intros run. apply FM; auto.
      + intros seed. clear - N3. induction N3 as [|c l H N IH]; cbn; constructor; auto.
        intros X. apply in_map_iff in X as (c' & [= ->] & X). contradiction.
      + intros a a' b H H'. apply in_map_iff in H as (? & <- & _), H' as (? & [= -> _] & _). reflexivity.
    - intros a a' b H H'. apply in_flat_map in H as (? & _ & H), H' as (? & _ & H').
      apply in_map_iff in H as (? & <- & _), H' as (? & [= -> _ _] & _). reflexivity.
  Qed.
  Lemma figure_keys runs seeds cts rows pct : NoDup runs -> NoDup seeds -> NoDup cts ->
    plot_figure read by_depth by_diam hash cdf min_thick runs seeds cts = Ok (rows, pct) ->
    map fst pct = filter (has_file read) (keys_in_order runs seeds cts).
  Proof.
    intros N1 N2 N3 E. unfold plot_figure in E. cbv zeta in E. destruct (_ <=? 0)%Z; [discriminate|].
    destruct (fold_left _ runs _) as [[[rows' m] pct']|] eqn:F; cbn [bind] in E; [|discriminate]. injection E as -> ->.
    apply runs_keys in F; [exact F|]. cbn. now apply NoDup_keys.
  Qed.
End Order.

Lemma digits0_inj a b : digits 0 a = digits 0 b -> a = b.
Proof. apply digits_inj. Qed.
Lemma str_int_inj a b : str_int a = str_int b -> a = b.
Proof.
  assert (D : forall n s, digits 0 n <> ("-" ++ s)%string).
  { intros n s H. destruct (digits_shape 0 n) as [A _]. rewrite H in A. discriminate. }
  unfold str_int. destruct (Z.ltb_spec a 0) as [La|La], (Z.ltb_spec b 0) as [Lb|Lb]; intros H.
  - injection H as H. apply digits0_inj in H. lia.
  - symmetry in H. now apply D in H.
  - now apply D in H.
  - apply digits0_inj in H. lia.
Qed.

Lemma round2_spec x : hundredths x (round2 x).
Proof.
  split; [unfold round2; eauto|]. unfold round2. pose proof (rint_err (x * 100)) as H.
  replace (IZR (rint (x * 100)) / 100 - x) with ((IZR (rint (x * 100)) - x * 100) * / 100) by field.
  rewrite Rabs_mult, (Rabs_right (/ 100)) by lra. lra.
Qed.
Lemma shown_col n v : (length v <= n)%nat -> shows_col v (map (option_map round2) (fill n v)) /\
  length (map (option_map round2) (fill n v)) = n.
Proof.
  intros L. assert (LEN : length (map (option_map round2) (fill n v)) = n).
  { unfold fill. rewrite map_length, app_length, repeat_length. lia. }
  split; auto. split; [lia|]. intros i x H. rewrite nth_error_map in H. unfold fill in H.
  destruct (nth_error v i) as [p|] eqn:E.
  - rewrite nth_error_app1 in H by (apply nth_error_Some; congruence). rewrite E in H. cbn in H. injection H as <-.
    destruct p as [p|]; cbn; [|reflexivity]. eexists. split; [reflexivity|]. apply round2_spec.
  - rewrite nth_error_app2 in H by now apply nth_error_None. destruct (nth_error (repeat None _) _) eqn:F; [|discriminate].
    apply nth_error_In, repeat_spec in F. subst. cbn in H. congruence.
Qed.
Lemma longest_le pct k v : In (k, v) pct -> (length v <= longest pct)%nat.
Proof.
  intros H. unfold longest. assert (F := proj1 (List.list_max_le _ _) (Nat.le_refl (List.list_max (map (fun kv : key * list (option R) => length (snd kv)) pct)))).
  rewrite Forall_forall in F. apply F. apply in_map_iff. exists (k, v). auto.
Qed.

(** A part of the table. *)
Definition of_run (run : string) (z : Z) (k : key) : bool := String.eqb (fst (fst k)) run && Z.eqb (snd (fst k)) z.
Definition text_col (n : nat) (kv : key * list (option R)) : head * list (option R) :=
  let '((run, seed, ct), v) := kv in ((run, str_int seed, ct), fill n v).
Lemma part_cols run z n pct :
  part run (str_int z) (map (text_col n) pct) =
  match filter (fun kv => of_run run z (fst kv)) pct with
  | [] => Err KeyError
  | cols => Ok (map (fun kv => (snd (fst kv), fill n (snd kv))) cols)
  end.
Proof.
  unfold part.
  assert (F : filter (fun '((r, s, _), _) => String.eqb r run && String.eqb s (str_int z)) (map (text_col n) pct) =
    map (text_col n) (filter (fun kv => of_run run z (fst kv)) pct)).
  { induction pct as [|[[[r s] ct] v] pct IH]; [reflexivity|]. cbn [map text_col filter of_run fst snd]. rewrite IH.
    replace (String.eqb (str_int s) (str_int z)) with (Z.eqb s z).
    - unfold of_run. cbn [fst snd]. now destruct (String.eqb r run && Z.eqb s z).
    - destruct (Z.eqb_spec s z) as [->|N]; [now rewrite String.eqb_refl|].
      symmetry. apply String.eqb_neq. intros H. apply str_int_inj in H. contradiction. }
  rewrite F. destruct (filter (fun kv => of_run run z (fst kv)) pct) as [|kv l]; [reflexivity|].
  cbn [map]. destruct kv as [[[r s] ct] v]. cbn [text_col fst snd]. do 2 f_equal. rewrite map_map. apply map_ext.
  intros [[[r' s'] ct'] v']. reflexivity.
Qed.
Lemma filter_fst {A B} (f : A -> bool) (l : list (A * B)) : map fst (filter (fun kv => f (fst kv)) l) = filter f (map fst l).
Proof. induction l as [|[a b] l IH]; cbn; auto. destruct (f a); cbn; now rewrite IH. Qed.
Lemma of_run_keys read run run' z cts :
  map snd (filter (of_run run z) (filter (has_file read) (map (fun ct => (run', z, ct)) cts))) =
  if String.eqb run' run then filter (fun ct => has_file read (run', z, ct)) cts else [].
Proof.
  induction cts as [|ct cts IH]; cbn [map filter].
  - now destruct (String.eqb run' run).
  - destruct (has_file read (run', z, ct)); [|rewrite IH; reflexivity].
    cbn [filter]. unfold of_run at 1. cbn [fst snd]. rewrite Z.eqb_refl, andb_true_r.
    destruct (String.eqb run' run) eqn:E; cbn [map snd]; now rewrite IH.
Qed.
Lemma two_runs_keys read a b z cts run : a <> b ->
  map snd (filter (of_run run z) (filter (has_file read) (keys_in_order [a; b] [z] cts))) =
  if String.eqb a run then filter (fun ct => has_file read (a, z, ct)) cts
  else if String.eqb b run then filter (fun ct => has_file read (b, z, ct)) cts else [].
Proof.
  intros N. unfold keys_in_order. cbn [flat_map]. rewrite !app_nil_r, !filter_app, map_app, !of_run_keys.
  destruct (String.eqb_spec a run) as [->|]; [|reflexivity].
  rewrite (proj2 (String.eqb_neq b run)) by auto. now rewrite app_nil_r.
Qed.

Lemma longest_attained pct : pct <> [] -> exists kv, In kv pct /\ length (snd kv) = longest pct.
Proof.
  intros NE. unfold longest. induction pct as [|kv l IH]; [contradiction|].
  destruct l as [|kv' l]; [exists kv; split; [now left|cbn; lia]|].
  destruct (IH ltac:(discriminate)) as (k & I & H).
  change (map (fun kv0 : key * list (option R) => length (snd kv0)) (kv :: kv' :: l))
    with (length (snd kv) :: map (fun kv0 : key * list (option R) => length (snd kv0)) (kv' :: l)).
  change (List.list_max (?a :: ?b)) with (Nat.max a (List.list_max b)). rewrite <- H.
  destruct (Nat.max_spec (length (snd kv)) (length (snd k))) as [[? ->]|[? ->]]; [exists k|exists kv]; split; auto; [now right|now left].
Qed.

Lemma read_icepct_eq pct : pct <> [] -> read_icepct pct = Ok (map (text_col (longest pct)) pct).
Proof. destruct pct; [contradiction|reflexivity]. Qed.

(** The tables of the figure of runs. *)
Definition table8 (pct : list (key * list (option R))) :=
  let cols run := filter (fun kv => of_run run 7 (fst kv)) pct in
  let shown := map (fun kv : key * list (option R) => (snd (fst kv), map (option_map round2) (fill (longest pct) (snd kv)))) in
  match cols "moonpies"%string, cols "no_bsed"%string with
  | [], _ => Err KeyError
  | _, [] => Err KeyError
  | t, b => Ok (Some (shown t, shown b))
  end.
Lemma CORDER_NoDup : NoDup CORDER.
Proof. unfold CORDER. repeat (constructor; [cbn; intuition discriminate|]). constructor. Qed.
Section Fig8.
  Variable read : string -> Z -> string -> option (list layer).
  Variable by_depth : list layer -> list layer.
  Variable by_diam : list (string * R) -> list (string * R).
  Variable hash : string -> Z.
  Variable cdf : list (string * R).

  Lemma keys8 rows pct :
    plot_figure read by_depth by_diam hash cdf 5 ["moonpies"; "no_bsed"]%string [7%Z] CORDER = Ok (rows, pct) ->
    map fst pct = filter (has_file read) (keys_in_order ["moonpies"; "no_bsed"]%string [7%Z] CORDER).
  Proof.
    intros P. eapply figure_keys; [| |exact CORDER_NoDup|exact P]; repeat constructor; cbn; intuition discriminate.
  Qed.
  Lemma fig8_eq rows pct :
    plot_figure read by_depth by_diam hash cdf 5 ["moonpies"; "no_bsed"]%string [7%Z] CORDER = Ok (rows, pct) ->
    ice_pct_fig8 read by_depth by_diam hash cdf = match pct with [] => Err ValueError | _ => table8 pct end.
  Proof.
    intros P. pose proof (figure_ok read by_depth by_diam hash cdf 5 ["moonpies"; "no_bsed"]%string [7%Z] CORDER) as F.
    cbv zeta in F. rewrite P in F. destruct F as (_ & LR & _ & AX).
    unfold ice_pct_fig8, strat_cols_bsed. rewrite P. cbn [bind].
    destruct rows as [|[a0 d0] [|[a1 d1] rows]]; try discriminate.
    destruct (AX 0%nat _ a0 d0 eq_refl eq_refl) as [(L0 & _) _]. destruct (AX 1%nat _ a1 d1 eq_refl eq_refl) as [(L1 & _) _].
    cbn in L0, L1.
    pose proof (first_axes _ a0 d0 ((a1, d1) :: rows) 0%nat eq_refl ltac:(lia)) as G0. cbn [plus] in G0.
    unfold get. rewrite G0. cbn [bind grid_row]. rewrite second_row by lia. cbn [percents_of].
    destruct pct as [|kv0 pct0] eqn:EP; [reflexivity|]. rewrite <- EP in *.
    rewrite read_icepct_eq by (rewrite EP; discriminate). cbn [bind].
    change "7"%string with (str_int 7). rewrite !part_cols. unfold table8.
    destruct (filter (fun kv => of_run "moonpies" 7 (fst kv)) pct) as [|t ts] eqn:T; [reflexivity|]. rewrite <- T. cbn [bind].
    destruct (filter (fun kv => of_run "no_bsed" 7 (fst kv)) pct) as [|b bs] eqn:B; [reflexivity|]. rewrite <- B. cbn [bind].
    rewrite !map_map. reflexivity.
  Qed.
End Fig8.
