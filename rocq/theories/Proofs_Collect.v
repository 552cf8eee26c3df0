(** Proofs about collected runs. *)
From Coq Require Import ZArith QArith Qreals Bool Ascii String List Arith Permutation Reals Lra Lia.
From Verif Require Import Base Model_Csv Model_Strat Model_Plot Model_Save Model_Files Model_Collect
  Spec_Csv Spec_Save Spec_Plot Spec_Files Spec_Collect Proofs_Base Proofs_Csv Proofs_Agg Proofs_Files.
Import ListNotations.
Open Scope list_scope.

(** ** Lists *)
Lemma flat_map_split {A B} (f g : A -> list B) l :
  Permutation (flat_map (fun x => f x ++ g x) l) (flat_map f l ++ flat_map g l).
Proof.
  induction l as [|x l IH]; cbn [flat_map]; [constructor|]. rewrite <- !app_assoc. apply Permutation_app_head.
  etransitivity; [apply Permutation_app_head; exact IH|]. rewrite !app_assoc. apply Permutation_app_tail. apply Permutation_app_comm.
Qed.
Lemma flat_map_nil {A B} (l : list A) : flat_map (fun _ => @nil B) l = [].
Proof. induction l; auto. Qed.
Lemma flat_map_swap {A B C} (h : A -> B -> list C) la lb :
  Permutation (flat_map (fun a => flat_map (h a) lb) la) (flat_map (fun b => flat_map (fun a => h a b) la) lb).
Proof.
  induction lb as [|b lb IH]; cbn [flat_map].
  - rewrite flat_map_nil. constructor.
  - etransitivity; [apply flat_map_split|]. apply Permutation_app_head. exact IH.
Qed.
Lemma upto {A} (r : nat -> A) m n : (m <= n)%nat -> flat_map (fun i => if (i <? m)%nat then [r i] else []) (seq 0 n) = map r (seq 0 m).
Proof.
  intros H. replace n with (m + (n - m))%nat by lia. rewrite seq_app, flat_map_app. cbn [plus].
  rewrite <- (app_nil_r (map r (seq 0 m))). f_equal.
  - assert (X : forall k, (k <= m)%nat -> flat_map (fun i => if (i <? m)%nat then [r i] else []) (seq (m - k) k) = map r (seq (m - k) k)).
    { induction k as [|k IH]; intros K; [reflexivity|]. cbn [seq flat_map map]. destruct (Nat.ltb_spec (m - S k) m); [|lia].
      cbn [app]. f_equal. replace (S (m - S k)) with (m - k)%nat by lia. apply IH. lia. }
    specialize (X m (le_n m)). now rewrite Nat.sub_diag in X.
  - generalize (n - m)%nat as k. intros k. assert (Y : forall a, (m <= a)%nat -> flat_map (fun i => if (i <? m)%nat then [r i] else []) (seq a k) = []).
    { induction k as [|k IH]; intros a Ha; [reflexivity|]. cbn [seq flat_map]. destruct (Nat.ltb_spec a m); [lia|]. apply IH. lia. }
    now apply Y.
Qed.
Lemma map_seq_nth {A B} (f : option A -> B) (l : list A) : map (fun i => f (nth_error l i)) (seq 0 (length l)) = map (fun x => f (Some x)) l.
Proof.
  induction l as [|a l IH]; [reflexivity|]. cbn [length seq map nth_error]. f_equal. rewrite <- seq_shift, map_map. exact IH.
Qed.

(** ** Tables with headings *)
Lemma pair_eqb_eq a b : pair_eqb a b = true <-> a = b.
Proof.
  unfold pair_eqb. destruct a as [a1 a2], b as [b1 b2]; cbn [fst snd]. rewrite andb_true_iff, !String.eqb_eq. split; [intros [-> ->]|intros [= -> ->]]; auto.
Qed.
Lemma heading_eqb_eq a b : heading_eqb a b = true <-> a = b.
Proof.
  unfold heading_eqb. destruct a as [a1 a2], b as [b1 b2]; cbn [fst snd]. rewrite andb_true_iff, String.eqb_eq, pair_eqb_eq. split; [intros [-> ->]|intros [= -> ->]]; auto.
Qed.
Lemma set_key_new d k v : ~ In k (map fst d) -> set_key d k v = d ++ [(k, v)].
Proof.
  induction d as [|[k' v'] d IH]; intros H; [reflexivity|]. cbn [set_key]. destruct (heading_eqb k' k) eqn:Q.
  - apply heading_eqb_eq in Q. subst k'. exfalso. apply H. now left.
  - cbn [app]. f_equal. apply IH. intros X. apply H. now right.
Qed.
Lemma dict_new l : NoDup (map fst l) -> dict_of l = l.
Proof.
  intros N. unfold dict_of.
  assert (G : forall l d, NoDup (map fst (d ++ l)) -> fold_left (fun d kv => set_key d (fst kv) (snd kv)) l d = d ++ l).
  { clear. induction l as [|[k v] l IH]; intros d N; cbn [fold_left fst snd]; [now rewrite app_nil_r|].
    rewrite set_key_new.
    - rewrite IH; [now rewrite <- app_assoc|]. now rewrite <- app_assoc.
    - rewrite map_app in N. cbn [map fst] in N. apply NoDup_remove_2 in N. intros X. apply N, in_or_app. now left. }
  apply (G l []). exact N.
Qed.

Definition columns := list (heading * list R).
Definition block := ((string * string) * list (string * list R))%type.
Definition of_blocks (bs : list block) : columns :=
  flat_map (fun b : block => map (fun sc => ((fst b, fst sc), snd sc)) (snd b)) bs.
Lemma frame_rows_in (f : columns) c : In c f -> (length (snd c) <= frame_rows f)%nat.
Proof.
  intros I. unfold frame_rows. induction f as [|c' f IH]; [contradiction|]. cbn [map fold_right]. destruct I as [->|I]; [lia|].
  specialize (IH I). lia.
Qed.
Lemma distinct_same p l r : filter (fun q => negb (pair_eqb q p)) (distinct (map (fun _ : string * list R => p) l ++ r)) = filter (fun q => negb (pair_eqb q p)) (distinct r).
Proof.
  induction l as [|a l IH]; [reflexivity|]. cbn [map app distinct filter].
  assert (X : pair_eqb p p = true) by now apply pair_eqb_eq. rewrite X. cbn [negb]. rewrite <- IH at 1.
  set (m := distinct (map _ l ++ r)). clear. induction m as [|q m IH]; [reflexivity|]. cbn [filter].
  destruct (pair_eqb q p) eqn:Q; cbn [negb]; [exact IH|]. cbn [filter]. rewrite Q. cbn [negb]. f_equal. exact IH.
Qed.
Lemma filter_id {A} (p : A -> bool) l : (forall x, In x l -> p x = true) -> filter p l = l.
Proof.
  induction l as [|a l IH]; intros H; [reflexivity|]. cbn [filter]. rewrite (H a (or_introl eq_refl)). f_equal. apply IH. intros x I. apply H. now right.
Qed.
Lemma distinct_blocks (bs : list block) : NoDup (map fst bs) -> (forall b, In b bs -> snd b <> []) ->
  distinct (map fst (map fst (of_blocks bs))) = map fst bs.
Proof.
  intros N E. induction bs as [|[p cols] bs IH]; [reflexivity|]. cbn [of_blocks flat_map map fst snd]. cbn [map fst] in N.
  inversion N as [|? ? N1 N2]; subst. fold (of_blocks bs). rewrite !map_app, !map_map. cbn [fst].
  destruct cols as [|c cols]; [exfalso; apply (E _ (or_introl eq_refl)); reflexivity|]. cbn [map app distinct]. f_equal.
  rewrite distinct_same. rewrite map_map in IH.
  match goal with |- filter _ ?x = _ => assert (X : x = map fst bs) end.
  { apply IH; auto. intros b I. apply E. now right. }
  rewrite X. apply filter_id. intros q I. destruct (pair_eqb q p) eqn:Q; [|reflexivity]. apply pair_eqb_eq in Q. subst q. contradiction.
Qed.

Section Cells.
  Variables (parse : R -> R) (show : R -> string) (back : R -> R).
  Hypothesis U : forall x, read_as parse show back x.
  Lemma cell_number x : read_cell parse (show x) = Ok (Some (back x)).
  Proof.
    destruct (number_back parse show back x (U x)) as (q & N & B). unfold read_cell. rewrite N. cbn [bind option_map]. now rewrite B.
  Qed.
  Lemma cell_empty : read_cell parse "" = Ok None.
  Proof. reflexivity. Qed.
  Lemma show_line x : one_line (show x).
  Proof. destruct (U x) as (y & D & _). apply ordinary_line. eapply decimal_ordinary; eauto. Qed.

  Definition cell (f : heading * list R) (i : nat) : option R := option_map back (nth_error (snd f) i).
  Definition frame_of (f : columns) : frame :=
    mk_frame (map fst f) (map (fun i => map (fun c => cell c i) f) (seq 0 (frame_rows f))).
  Lemma combine_heads (f : columns) :
    combine (combine (map (fun c => fst (fst (fst c))) f) (map (fun c => snd (fst (fst c))) f)) (map (fun c => snd (fst c)) f) = map fst f.
  Proof. induction f as [|[[[a b] c] l] f IH]; [reflexivity|]. cbn [map combine fst snd]. f_equal. exact IH. Qed.
  Lemma frame_back (f : columns) : (2 <= length f)%nat ->
    Forall (fun c => heads_column (fst (fst (fst c))) /\ one_line (snd (fst (fst c))) /\ one_line (snd (fst c))) f ->
    read_frame parse (frame_text show f) = Ok (frame_of f).
  Proof.
    intros N F. unfold read_frame, frame_text. rewrite csv_written.
    - cbn [bind]. rewrite (mapM_ok_map _ (fun row => map (fun t => match read_cell parse t with Ok o => o | Err _ => None end) row)).
      + cbn [bind]. rewrite combine_heads. unfold frame_of. do 2 f_equal. rewrite map_map. apply map_ext. intros i.
        rewrite map_map. apply map_ext. intros c. unfold cell. destruct (nth_error (snd c) i) as [x|]; [now rewrite cell_number|reflexivity].
      + intros row I. apply in_map_iff in I as (i & <- & _). apply mapM_ok_map. intros t I. apply in_map_iff in I as (c & <- & _).
        destruct (nth_error (snd c) i) as [x|]; [now rewrite cell_number|reflexivity].
    - rewrite Forall_forall in F.
      assert (H : forall g : heading * list R -> string, (forall c, In c f -> one_line (g c)) -> (2 <= length (map g f))%nat /\ Forall one_line (map g f)).
      { intros g Hg. split; [now rewrite map_length|]. apply Forall_map, Forall_forall. exact Hg. }
      constructor; [apply H; intros c I; apply (F c I)|]. constructor; [apply H; intros c I; apply (F c I)|]. constructor; [apply H; intros c I; apply (F c I)|].
      apply Forall_map, Forall_forall. intros i _. apply H. intros c _. destruct (nth_error (snd c) i); [apply show_line|]. intros [].
    - intros r H. destruct f as [|[[[a b] d] l] f]; [cbn in N; lia|]. inversion F as [|? ? [[_ (a0 & a' & E & A)] _] _]; subst. cbn [fst] in E. subst a.
      apply (f_equal (hd_error (A := ascii))) in H. unfold BOM in H. cbn [map fst flat_map] in H.
      assert (X : exists t, csv_fields (String a0 a' :: map (fun c => fst (fst (fst c))) f) = a0 :: t \/ csv_fields (String a0 a' :: map (fun c => fst (fst (fst c))) f) = quote :: t).
      { cbn [csv_fields]. assert (Y : exists t, csv_field (String a0 a') = a0 :: t \/ csv_field (String a0 a') = quote :: t).
        { unfold csv_field. destruct (quoted _); eauto. exists (list_ascii_of_string a'). now left. }
        destruct Y as (t & [Y|Y]); rewrite Y; destruct f; cbn [map app]; eauto. }
      destruct X as (t & [X|X]); rewrite X in H; cbn in H; injection H as H; [subst a0|]; [|discriminate].
      vm_compute in A. lia.
  Qed.

  Definition block_row (b : block) (i : nat) : flat :=
    mk_flat (fst (fst b)) (snd (fst b)) (map (fun sc => (fst sc, option_map back (nth_error (snd sc) i))) (snd b)).
  Definition even (b : block) (m : nat) : Prop := snd b <> [] /\ Forall (fun sc => length (snd sc) = m) (snd b).
  Lemma combine_maps {A B C} (g : A -> B) (h : A -> C) l : combine (map g l) (map h l) = map (fun x => (g x, h x)) l.
  Proof. induction l; cbn [map combine]; congruence. Qed.
  Lemma select_block bs b i : NoDup (map fst bs) -> In b bs ->
    flat_map (fun hc : heading * option R => if pair_eqb (fst (fst hc)) (fst b) then [(snd (fst hc), snd hc)] else [])
      (map (fun c => (fst c, cell c i)) (of_blocks bs)) = fl_stats (block_row b i).
  Proof.
    intros N I. induction bs as [|b' bs IH]; [contradiction|]. cbn [of_blocks flat_map map] in *. fold (of_blocks bs).
    inversion N as [|? ? N1 N2]; subst. rewrite map_app, flat_map_app, map_map. cbn [fst].
    assert (G : forall b0 : block, b0 <> b -> fst b0 <> fst b -> forall l, flat_map (fun hc : heading * option R => if pair_eqb (fst (fst hc)) (fst b) then [(snd (fst hc), snd hc)] else [])
      (map (fun sc : string * list R => ((fst b0, fst sc), cell ((fst b0, fst sc), snd sc) i)) l) = []).
    { intros b0 _ Q l. induction l as [|sc l IHl]; [reflexivity|]. cbn [map flat_map fst]. destruct (pair_eqb (fst b0) (fst b)) eqn:X; [apply pair_eqb_eq in X; contradiction|exact IHl]. }
    destruct I as [->|I].
    - assert (Z : flat_map (fun hc : heading * option R => if pair_eqb (fst (fst hc)) (fst b) then [(snd (fst hc), snd hc)] else [])
        (map (fun c => (fst c, cell c i)) (of_blocks bs)) = []).
      { clear -N1. induction bs as [|b' bs IH]; [reflexivity|]. cbn [of_blocks flat_map map] in *. fold (of_blocks bs).
        rewrite map_app, flat_map_app, map_map. cbn [fst]. rewrite IH by (intros X; apply N1; now right). rewrite app_nil_r.
        assert (Q : fst b' <> fst b) by (intros X; apply N1; now left). induction (snd b') as [|sc l IHl]; [reflexivity|]. cbn [map flat_map fst].
        destruct (pair_eqb (fst b') (fst b)) eqn:X; [apply pair_eqb_eq in X; contradiction|exact IHl]. }
      rewrite Z, app_nil_r. unfold block_row. cbn [fl_stats]. induction (snd b) as [|sc l IHl]; [reflexivity|]. cbn [map flat_map fst snd].
      assert (X : pair_eqb (fst b) (fst b) = true) by now apply pair_eqb_eq. rewrite X. cbn [app]. f_equal. exact IHl.
    - rewrite (IH N2 I). assert (Q : fst b' <> fst b) by (intros X; apply N1; rewrite X; now apply in_map).
      rewrite G; [reflexivity| |exact Q]. congruence.
  Qed.
  Lemma flatten_blocks (bs : list block) (m : block -> nat) : NoDup (map fst bs) -> (forall b, In b bs -> even b (m b)) ->
    Permutation (flatten (frame_of (of_blocks bs))) (flat_map (fun b => map (block_row b) (seq 0 (m b))) bs).
  Proof.
    intros N E. unfold flatten, frame_of. cbn [fr_heads fr_rows]. rewrite distinct_blocks by (auto; intros b I; apply (E b I)).
    set (n := frame_rows (of_blocks bs)).
    assert (M : forall b, In b bs -> (m b <= n)%nat).
    { intros b I. destruct (E b I) as [Ne Le]. destruct (snd b) as [|sc l] eqn:Q; [contradiction|]. inversion Le as [|? ? L1 _]; subst.
      rewrite <- L1. apply (frame_rows_in (of_blocks bs) ((fst b, fst sc), snd sc)). unfold of_blocks. apply in_flat_map. exists b. split; [exact I|].
      rewrite Q. now left. }
    assert (Q : flat_map (fun row => flat_map (fun p =>
        let st := flat_map (fun hc : heading * option R => if pair_eqb (fst (fst hc)) p then [(snd (fst hc), snd hc)] else []) (combine (map fst (of_blocks bs)) row) in
        if forallb (fun kv => match snd kv with Some _ => false | None => true end) st then [] else [mk_flat (fst p) (snd p) st]) (map fst bs))
        (map (fun i => map (fun c => cell c i) (of_blocks bs)) (seq 0 n)) =
      flat_map (fun i => flat_map (fun b => if (i <? m b)%nat then [block_row b i] else []) bs) (seq 0 n)).
    { rewrite flat_map_concat_map, map_map, <- flat_map_concat_map. rewrite !flat_map_concat_map. f_equal. apply map_ext. intros i.
      rewrite combine_maps. rewrite !flat_map_concat_map, map_map. f_equal. apply map_ext_in. intros b I. cbv zeta.
      rewrite (select_block bs b i N I). destruct (E b I) as [Ne Le]. unfold block_row. cbn [fl_stats].
      destruct (Nat.ltb_spec i (m b)) as [Lt|Ge].
      - assert (X : forallb (fun kv : string * option R => match snd kv with Some _ => false | None => true end) (map (fun sc => (fst sc, option_map back (nth_error (snd sc) i))) (snd b)) = false).
        { destruct (snd b) as [|sc l]; [contradiction|]. inversion Le as [|? ? L1 _]; subst. cbn [map forallb snd].
          destruct (nth_error (snd sc) i) eqn:Z; [reflexivity|]. apply nth_error_None in Z. lia. }
        now rewrite X.
      - assert (X : forallb (fun kv : string * option R => match snd kv with Some _ => false | None => true end) (map (fun sc => (fst sc, option_map back (nth_error (snd sc) i))) (snd b)) = true).
        { apply forallb_forall. intros kv J. apply in_map_iff in J as (sc & <- & J). cbn [snd]. rewrite Forall_forall in Le. specialize (Le sc J).
          destruct (nth_error (snd sc) i) eqn:Z; [|reflexivity]. assert (i < length (snd sc))%nat by (apply nth_error_Some; congruence). lia. }
        now rewrite X. }
    eapply Permutation_trans; [apply Permutation_refl'; exact Q|]. etransitivity; [apply flat_map_swap|]. rewrite !flat_map_concat_map.
    match goal with |- Permutation (concat ?a) (concat ?b) => replace a with b; [reflexivity|] end.
    apply map_ext_in. intros b I. symmetry. apply upto. now apply M.
  Qed.
End Cells.

(** ** Totals *)
Lemma agg_formed depths t : formed t -> exists am, agg_csv depths t = Ok (Some ((map l_ice t, map l_depth t, map l_time t),
  (Rsum (map l_ice t), fold_right Rmax (hd 0%R (map l_depth t)) (map l_depth t), am))) /\ length am = length depths.
Proof.
  intros (f & F & T). pose proof (agg_error depths t) as A. unfold agg_csv in *. rewrite F in *. cbn [bind] in *.
  assert (K : filter (fun l => Rleb (l_time l) (l_time f)) t = t).
  { apply filter_id. intros l I. rewrite Forall_forall in T. apply Rleb_true. now apply T. }
  rewrite K in *. destruct (Nat.eqb_spec (length t) 0) as [X|X]; [destruct A as [A _]; contradiction|].
  destruct (mapM (ice_above (map l_ice t) (map l_depth t)) depths) as [am|e] eqn:M; cbn [bind] in *.
  - exists am. split; [reflexivity|]. clear A. revert am M. clear. induction depths as [|d ds IH]; intros am M; cbn [mapM] in M; [injection M as <-; reflexivity|].
    destruct (ice_above _ _ d); cbn [bind] in M; [|discriminate]. destruct (mapM _ ds) as [am'|] eqn:Q; cbn [bind] in M; [|discriminate].
    injection M as <-. cbn. f_equal. now apply IH.
  - destruct A as [_ A]. now destruct (A eq_refl).
Qed.
Lemma totals_formed t : formed t -> exists am, agg_csv (map snd agg_depths) t = Ok (Some ((map l_ice t, map l_depth t, map l_time t), totals_of t)) /\
  totals_of t = (Rsum (map l_ice t), fold_right Rmax (hd 0%R (map l_depth t)) (map l_depth t), am) /\ length am = 5%nat.
Proof.
  intros F. destruct (agg_formed [1; 3; 6; 10; 100]%R t F) as (am & A & L). exists am.
  change (map snd agg_depths) with [1; 3; 6; 10; 100]%R. unfold totals_of. rewrite A. auto.
Qed.
Lemma agg_run_formed ts : Forall formed ts -> agg_run (map snd agg_depths) ts = Ok
  ((map l_ice (concat ts), map l_depth (concat ts), map l_time (concat ts)), map totals_of ts).
Proof.
  intros H. unfold agg_run.
  rewrite (mapM_ok_map _ (fun t => Some ((map l_ice t, map l_depth t, map l_time t), totals_of t))).
  - cbn [bind]. f_equal. f_equal.
    + clear. induction ts as [|t ts IH]; [reflexivity|]. cbn [map flat_map app concat].
      rewrite !map_app. injection IH as I1 I2 I3. rewrite <- I1, <- I2, <- I3. reflexivity.
    + rewrite map_map. reflexivity.
  - intros t I. rewrite Forall_forall in H. destruct (totals_formed t (H t I)) as (am & A & _). exact A.
Qed.

(** ** The disk *)
Lemma path_eqb_eq p q : path_eqb p q = true <-> p = q.
Proof. unfold path_eqb. destruct (list_eq_dec _ p q); split; auto; discriminate. Qed.
Lemma path_eqb_refl p : path_eqb p p = true.
Proof. now apply path_eqb_eq. Qed.
Lemma path_eqb_neq p q : p <> q -> path_eqb p q = false.
Proof. intros H. destruct (path_eqb p q) eqn:E; [apply path_eqb_eq in E; contradiction|reflexivity]. Qed.
Lemma string_app_inj a b e : (a ++ e = b ++ e)%string -> a = b.
Proof.
  intros H. apply (f_equal (fun s => rev (chars s))) in H. rewrite !chars_app, !rev_app_distr in H.
  apply app_inv_head in H. apply (f_equal (@rev _)) in H. rewrite !rev_involutive in H.
  rewrite <- (string_of_list_ascii_of_string a), <- (string_of_list_ascii_of_string b). unfold chars in H. now rewrite H.
Qed.
Lemma pickle_inj tmp a b : pickle_of tmp a = pickle_of tmp b -> a = b.
Proof. unfold pickle_of. intros H. apply app_inj_tail in H as [_ H]. now apply string_app_inj in H. Qed.
Lemma write_files p t s q : files (exec (write_text p t) s) q = if path_eqb p q then Some t else files s q.
Proof.
  unfold write_text, exec. cbn [fold_left step files]. destruct (path_eqb p q) eqn:E; [|reflexivity]. reflexivity.
Qed.
Lemma write_dirs p t s q : dirs (exec (write_text p t) s) q = dirs s q.
Proof. reflexivity. Qed.
Lemma exec_app a b s : exec (a ++ b) s = exec b (exec a s).
Proof. apply fold_left_app. Qed.

Definition pickle_ops (tmp : path) (l : list (string * string)) : list op :=
  flat_map (fun ct => [Mkdir tmp; Create (pickle_of tmp (fst ct)); Append (pickle_of tmp (fst ct)) (snd ct)]) l.
Lemma pickles_files tmp l : NoDup (map fst l) -> forall s,
  (forall c t, In (c, t) l -> files (exec (pickle_ops tmp l) s) (pickle_of tmp c) = Some t) /\
  (forall q, (forall c, In c (map fst l) -> q <> pickle_of tmp c) -> files (exec (pickle_ops tmp l) s) q = files s q) /\
  (forall q, dirs (exec (pickle_ops tmp l) s) q = true <-> dirs s q = true \/ l <> [] /\ is_prefix q tmp = true).
Proof.
  induction l as [|[c t] l IH]; intros N s.
  - split; [contradiction|]. split; [reflexivity|]. intros q. cbn. intuition congruence.
  - cbn [map fst] in N. inversion N as [|? ? N1 N2]; subst.
    change (pickle_ops tmp ((c, t) :: l)) with ([Mkdir tmp; Create (pickle_of tmp c); Append (pickle_of tmp c) t] ++ pickle_ops tmp l).
    rewrite exec_app. set (s1 := exec [_; _; _] s).
    assert (F1 : forall q, files s1 q = if path_eqb (pickle_of tmp c) q then Some t else files s q).
    { intros q. unfold s1, exec. cbn [fold_left step files]. destruct (path_eqb (pickle_of tmp c) q) eqn:Q; reflexivity. }
    assert (D1 : forall q, dirs s1 q = dirs s q || is_prefix q tmp) by reflexivity.
    destruct (IH N2 s1) as (A & B & C). split; [|split].
    + intros c' t' [I|I].
      * injection I as <- <-. rewrite B; [now rewrite F1, path_eqb_refl|]. intros c' I Q. apply pickle_inj in Q. subst c'. contradiction.
      * now apply A.
    + intros q H. rewrite B by (intros c' I; apply H; now right). rewrite F1, path_eqb_neq; [reflexivity|]. intros X. apply (H c (or_introl eq_refl)). auto.
    + intros q. rewrite C, D1, orb_true_iff. intuition (try discriminate). 
Qed.
Lemma substring_app a b : String.substring 0 (String.length a) (a ++ b)%string = a.
Proof. induction a as [|x a IH]; cbn; [destruct b; reflexivity|]. now rewrite IH. Qed.
Lemma length_sapp a b : String.length (a ++ b)%string = (String.length a + String.length b)%nat.
Proof. induction a as [|x a IH]; cbn; [reflexivity|]. now rewrite IH. Qed.
Lemma stem_pickle tmp c : stem (pickle_of tmp c) = c.
Proof.
  unfold stem, pickle_of. rewrite last_last, length_sapp. cbn [String.length]. rewrite Nat.add_sub. apply substring_app.
Qed.
Lemma ends_app c e : ends_with e (c ++ e)%string = true.
Proof.
  induction c as [|a c IH].
  - change ("" ++ e)%string with e. destruct e; [reflexivity|]. cbn [ends_with]. now rewrite String.eqb_refl.
  - change (String a c ++ e)%string with (String a (c ++ e)). cbn [ends_with]. rewrite IH. apply orb_true_r.
Qed.
Lemma NoDup_flat_map {A B} (f : A -> list B) l : NoDup l -> (forall a, In a l -> NoDup (f a)) ->
  (forall a b x, In a l -> In b l -> In x (f a) -> In x (f b) -> a = b) -> NoDup (flat_map f l).
Proof.
  induction 1 as [|a l X N IH]; intros H1 H2; [constructor|]. cbn [flat_map]. apply nodup_app.
  - apply H1. now left.
  - apply IH; [intros; apply H1; now right|]. intros. eapply H2; eauto; now right.
  - intros x I J. apply in_flat_map in J as (b & Hb & J). assert (a = b) by (eapply H2; eauto; [now left|now right]). subst b. contradiction.
Qed.
Lemma blocks_nodup (bs : list block) : NoDup (map fst bs) -> (forall b, In b bs -> NoDup (map fst (snd b))) -> NoDup (map fst (of_blocks bs)).
Proof.
  intros N H. induction bs as [|b bs IH]; [constructor|]. cbn [map] in N. inversion N as [|? ? N1 N2]; subst.
  unfold of_blocks. cbn [flat_map]. fold (of_blocks bs). rewrite map_app, map_map. cbn [fst]. apply nodup_app.
  - specialize (H b (or_introl eq_refl)). rewrite <- (map_map fst (fun x => (fst b, x))). apply FinFun.Injective_map_NoDup; [|exact H]. intros u v [= ->]. reflexivity.
  - apply IH; [exact N2|]. intros b' I. apply H. now right.
  - intros x I J. apply in_map_iff in I as (sc & <- & _). apply in_map_iff in J as (c & Q & J). unfold of_blocks in J. apply in_flat_map in J as (b' & Ib & J).
    apply in_map_iff in J as (sc' & <- & _). cbn [fst] in Q. injection Q as Q _. apply N1. rewrite <- Q. now apply in_map.
Qed.
Lemma frame_rows_max (f : columns) n : (forall c, In c f -> (length (snd c) <= n)%nat) -> (frame_rows f <= n)%nat.
Proof.
  intros H. unfold frame_rows. induction f as [|c f IH]; cbn [map fold_right]; [lia|]. apply Nat.max_lub; [apply H; now left|]. apply IH. intros c' I. apply H. now right.
Qed.
Lemma frame_rows_some (f : columns) : frame_rows f = 0%nat \/ exists c, In c f /\ length (snd c) = frame_rows f.
Proof.
  unfold frame_rows. induction f as [|c f IH]; cbn [map fold_right]; [now left|]. destruct (Nat.max_spec (length (snd c)) (fold_right max 0%nat (map (fun c => length (snd c)) f))) as [[_ Q]|[_ Q]]; rewrite Q.
  - destruct IH as [IH|(c' & I & IH)]; [now left|]. right. exists c'. split; [now right|exact IH].
  - right. exists c. split; [now left|reflexivity].
Qed.

Lemma perm_eq {A} (a b : list A) : a = b -> Permutation a b.
Proof. intros ->. apply Permutation_refl. Qed.

Section Day.
  Variables (parse : R -> R) (show : R -> string) (back : R -> R) (dump : pickled -> string) (load : string -> result pickled).
  Variables (L L1 : listing) (cts : list string) (datedir tmp : path) (s : fs).
  Hypotheses (U : forall x, read_as parse show back x) (LD : forall c d, In c cts -> agg_coldtrap parse L s c datedir tmp = Ok d -> load (dump d) = Ok d).
  Hypotheses (HL : lists L s datedir) (HL1 : lists L1 (pickled_disk parse dump L cts tmp datedir s) tmp).
  Hypotheses (Ne : cts <> []) (Nd : NoDup cts) (Hd : Forall heads_column cts) (Np : no_other_pickles s tmp cts).
  Hypotheses (Rx : exists x, dirs s (datedir ++ [x]) = true /\ datedir ++ [x] <> tmp).
  Hypotheses (Ox : forall x, dirs s (datedir ++ [x]) = true -> one_line x).
  Hypotheses (Tb : forall c x p, In c cts -> table_at s datedir tmp c x p -> exists table, read_at parse s p = Ok table /\ formed table).

  Definition xs : list string := filter (fun x => dirs s (datedir ++ [x]) && negb (path_eqb (datedir ++ [x]) tmp)) (children L datedir).
  Definition at_run (c x : string) : list path := rglob L (datedir ++ [x]) (Named ("strat_" ++ c ++ ".csv")%string).
  Definition tab (p : path) : list layer := match read_at parse s p with Ok t => t | Err _ => [] end.
  Definition tabs (c x : string) : list (list layer) := map tab (at_run c x).
  Definition data (c : string) : pickled :=
    map (fun x => (x, ((map l_ice (concat (tabs c x)), map l_depth (concat (tabs c x)), map l_time (concat (tabs c x))), map totals_of (tabs c x)))) xs.

  Lemma xs_in x : In x xs <-> dirs s (datedir ++ [x]) = true /\ datedir ++ [x] <> tmp.
  Proof.
    unfold xs. rewrite filter_In. destruct HL as [[_ C] _]. rewrite C. unfold Model_Save.exists_.
    rewrite andb_true_iff, negb_true_iff. split.
    - intros (_ & D & Q). split; [exact D|]. intros X. apply path_eqb_eq in X. congruence.
    - intros [D Q]. rewrite D. split; [reflexivity|]. split; [reflexivity|]. now apply path_eqb_neq.
  Qed.
  Lemma prefix_app (p q : path) : is_prefix p (p ++ q) = true.
  Proof. induction p as [|a p IH]; [reflexivity|]. cbn. now rewrite String.eqb_refl. Qed.
  Lemma at_run_in c x p : In x xs -> (In p (at_run c x) <-> table_at s datedir tmp c x p).
  Proof.
    intros I. apply xs_in in I as [D Q]. unfold at_run. destruct HL as [_ G]. destruct (G (datedir ++ [x]) (Named ("strat_" ++ c ++ ".csv")%string) (prefix_app _ _)) as [_ G2].
    rewrite G2. unfold table_at. cbn [matches]. split.
    - intros (X & mid & y & E & M). apply String.eqb_eq in M. subst y. split; [exact D|]. split; [exact Q|]. split; [exact X|]. exists mid. rewrite E, <- app_assoc. reflexivity.
    - intros (_ & _ & X & mid & E). split; [exact X|]. exists mid, ("strat_" ++ c ++ ".csv")%string. split; [rewrite E, <- app_assoc; reflexivity|apply String.eqb_refl].
  Qed.
  Lemma at_run_nodup c x : NoDup (at_run c x).
  Proof. destruct HL as [_ G]. apply (G (datedir ++ [x]) (Named ("strat_" ++ c ++ ".csv")%string) (prefix_app _ _)). Qed.
  Lemma tab_ok c x p : In c cts -> In x xs -> In p (at_run c x) -> read_at parse s p = Ok (tab p) /\ formed (tab p).
  Proof.
    intros Ic Ix Ip. apply at_run_in in Ip; [|exact Ix]. destruct (Tb c x p Ic Ip) as (t & T & F). unfold tab. rewrite T. auto.
  Qed.
  Lemma tabs_formed c x : In c cts -> In x xs -> Forall formed (tabs c x).
  Proof. intros Ic Ix. apply Forall_map, Forall_forall. intros p Ip. eapply tab_ok; eauto. Qed.
  Lemma agg_ok c : In c cts -> agg_coldtrap parse L s c datedir tmp = Ok (data c).
  Proof.
    intros Ic. unfold agg_coldtrap. fold xs. unfold data. apply mapM_ok_map. intros x Ix. fold (at_run c x).
    rewrite (mapM_ok_map _ tab) by (intros p Ip; eapply tab_ok; eauto). cbn [bind]. fold (tabs c x).
    rewrite agg_run_formed by now apply tabs_formed. reflexivity.
  Qed.

  Definition texts : list (string * string) := map (fun c => (c, dump (data c))) cts.
  Definition s1 : fs := exec (pickle_ops tmp texts) s.
  Lemma pickled_is : pickled_disk parse dump L cts tmp datedir s = s1.
  Proof.
    unfold pickled_disk, s1. f_equal. unfold pickle_ops, texts. rewrite !flat_map_concat_map, map_map. f_equal. apply map_ext_in. intros c Ic.
    unfold dump_ops. now rewrite agg_ok.
  Qed.
  Lemma texts_fst : map fst texts = cts.
  Proof. unfold texts. rewrite map_map. apply map_id. Qed.
  Lemma s1_files : (forall c, In c cts -> files s1 (pickle_of tmp c) = Some (dump (data c))) /\
    (forall q, (forall c, In c cts -> q <> pickle_of tmp c) -> files s1 q = files s q) /\
    (forall q, dirs s1 q = true <-> dirs s q = true \/ is_prefix q tmp = true).
  Proof.
    destruct (pickles_files tmp texts) with (s := s) as (A & B & C); [now rewrite texts_fst|]. fold s1 in A, B, C. rewrite texts_fst in B. split; [|split].
    - intros c I. apply A. unfold texts. apply in_map_iff. eauto.
    - exact B.
    - intros q. rewrite C. assert (X : texts <> []) by (unfold texts; destruct cts; [contradiction|discriminate]). tauto.
  Qed.
  Lemma pickles_in q : In q (rglob L1 tmp (Ending ".pickle")) <-> exists c, In c cts /\ q = pickle_of tmp c.
  Proof.
    destruct HL1 as [_ G]. rewrite pickled_is in G. destruct (G tmp (Ending ".pickle") (Proofs_Save.is_prefix_refl tmp)) as [_ G2]. rewrite G2. cbn [matches].
    destruct s1_files as (A & B & C). split.
    - intros (X & mid & x & -> & M).
      destruct (in_dec (list_eq_dec string_dec) (tmp ++ mid ++ [x]) (map (pickle_of tmp) cts)) as [J|J].
      + apply in_map_iff in J as (c & <- & Ic). eauto.
      + assert (Y : Model_Save.exists_ s (tmp ++ mid ++ [x]) = true).
        { unfold Model_Save.exists_ in *. rewrite B in X by (intros c Ic Q; apply J; rewrite Q; now apply in_map).
          apply orb_prop in X as [X|X]; [|now rewrite X, orb_true_r]. apply C in X as [X|X]; [now rewrite X|].
          apply is_prefix_longer in X. rewrite !app_length in X. cbn in X. lia. }
        destruct Np as [Np1 _]. destruct (Np1 _ _ Y M) as [-> Ix]. apply in_map_iff in Ix as (c & <- & Ic). exists c. auto.
    - intros (c & Ic & ->). split.
      + unfold Model_Save.exists_. rewrite (A c Ic). apply orb_true_r.
      + exists [], (c ++ ".pickle")%string. split; [reflexivity|]. apply ends_app.
  Qed.
  Definition cts' : list string := map stem (rglob L1 tmp (Ending ".pickle")).
  Lemma pickles_cts : rglob L1 tmp (Ending ".pickle") = map (pickle_of tmp) cts'.
  Proof.
    unfold cts'. rewrite map_map. rewrite <- (map_id (rglob _ _ _)) at 1. apply map_ext_in. intros q I. apply pickles_in in I as (c & _ & ->). now rewrite stem_pickle.
  Qed.
  Lemma cts'_in c : In c cts' <-> In c cts.
  Proof.
    unfold cts'. rewrite in_map_iff. split.
    - intros (q & <- & I). apply pickles_in in I as (c & I & ->). now rewrite stem_pickle.
    - intros I. exists (pickle_of tmp c). split; [apply stem_pickle|]. apply pickles_in. eauto.
  Qed.
  Lemma cts'_nodup : NoDup cts'.
  Proof.
    destruct HL1 as [_ G]. destruct (G tmp (Ending ".pickle") (Proofs_Save.is_prefix_refl tmp)) as [N _]. rewrite pickles_cts in N. now apply NoDup_map_inv in N.
  Qed.
  Lemma xs_nodup : NoDup xs.
  Proof. apply NoDup_filter. apply HL. Qed.

  (** The columns. *)
  Definition names : list string := ["total ice 1m"; "total ice 3m"; "total ice 6m"; "total ice 10m"; "total ice 100m"; "total ice"; "maxdepth"]%string.
  Definition rcols (ts : list (list layer)) : list (string * list R) :=
    let st := map totals_of ts in
    map (fun k => (nth k names ""%string, map (fun t => nth k (snd t) 0%R) st)) (seq 0 5) ++
    [("total ice"%string, map (fun t => fst (fst t)) st); ("maxdepth"%string, map (fun t => snd (fst t)) st)].
  Definition lcols (ts : list (list layer)) : list (string * list R) :=
    [("ice"%string, map l_ice (concat ts)); ("depth"%string, map l_depth (concat ts)); ("time"%string, map l_time (concat ts))].
  Definition blocks (f : list (list layer) -> list (string * list R)) : list block :=
    flat_map (fun c => map (fun x => ((c, x), f (tabs c x))) xs) cts'.
  Lemma run_columns_blocks c : run_columns c (data c) = of_blocks (map (fun x => ((c, x), rcols (tabs c x))) xs).
  Proof. unfold run_columns, data, of_blocks. rewrite !flat_map_concat_map, !map_map. f_equal. Qed.
  Lemma layer_columns_blocks c : layer_columns c (data c) = of_blocks (map (fun x => ((c, x), lcols (tabs c x))) xs).
  Proof. unfold layer_columns, data, of_blocks. rewrite !flat_map_concat_map, !map_map. f_equal. Qed.
  Lemma of_blocks_flat {A} (g : A -> list block) l : of_blocks (flat_map g l) = flat_map (fun a => of_blocks (g a)) l.
  Proof. induction l as [|a l IH]; [reflexivity|]. cbn [flat_map]. unfold of_blocks in *. rewrite flat_map_app, IH. reflexivity. Qed.
  Lemma blocks_in f b : In b (blocks f) <-> exists c x, In c cts /\ In x xs /\ b = ((c, x), f (tabs c x)).
  Proof.
    unfold blocks. rewrite in_flat_map. split.
    - intros (c & I & J). apply in_map_iff in J as (x & <- & J). apply cts'_in in I. eauto 6.
    - intros (c & x & I & J & ->). exists c. split; [now apply cts'_in|]. apply in_map_iff. eauto.
  Qed.
  Lemma blocks_pairs f : NoDup (map fst (blocks f)).
  Proof.
    unfold blocks. rewrite flat_map_concat_map, concat_map, map_map, <- flat_map_concat_map. apply NoDup_flat_map.
    - apply cts'_nodup.
    - intros c _. rewrite map_map. cbn [fst]. apply FinFun.Injective_map_NoDup; [|apply xs_nodup]. intros u v [= ->]. reflexivity.
    - intros a b x _ _ I J. rewrite map_map in I, J. cbn [fst] in I, J. apply in_map_iff in I as (u & <- & _). apply in_map_iff in J as (v & Q & _). congruence.
  Qed.
  Lemma columns_dict f : (forall ts, NoDup (map fst (f ts))) -> dict_of (of_blocks (blocks f)) = of_blocks (blocks f).
  Proof.
    intros H. apply dict_new, blocks_nodup; [apply blocks_pairs|]. intros b I. apply blocks_in in I as (c & x & _ & _ & ->). apply H.
  Qed.
  Lemma rcols_names ts : map fst (rcols ts) = names.
  Proof. reflexivity. Qed.
  Lemma heads_ok f : (forall ts, f ts <> [] /\ Forall one_line (map fst (f ts))) ->
    Forall (fun c => heads_column (fst (fst (fst c))) /\ one_line (snd (fst (fst c))) /\ one_line (snd (fst c))) (of_blocks (blocks f)).
  Proof.
    intros H. apply Forall_forall. intros col I. unfold of_blocks in I. apply in_flat_map in I as (b & Ib & I). apply blocks_in in Ib as (c & x & Ic & Ix & ->).
    apply in_map_iff in I as (sc & <- & I). cbn [fst snd] in *. rewrite Forall_forall in Hd. split; [now apply Hd|]. apply xs_in in Ix as [Ix _]. split; [now apply Ox|].
    destruct (H (tabs c x)) as [_ F]. rewrite Forall_forall in F. apply F. now apply in_map.
  Qed.
  Lemma blocks_long f : (forall ts, (2 <= length (f ts))%nat) -> (2 <= length (of_blocks (blocks f)))%nat.
  Proof.
    intros H. destruct Rx as (x & D & Q). assert (Ix : In x xs) by now apply xs_in.
    assert (exists c, In c cts) as (c & Ic) by (clear -Ne; destruct cts as [|c l]; [contradiction|exists c; now left]).
    assert (Ib : In ((c, x), f (tabs c x)) (blocks f)) by (apply blocks_in; exists c, x; auto).
    unfold of_blocks. induction (blocks f) as [|b bs IH]; [contradiction|]. cbn [flat_map]. rewrite app_length, map_length. destruct Ib as [->|Ib].
    - cbn [snd]. specialize (H (tabs c x)). lia.
    - specialize (IH Ib). lia.
  Qed.
  Lemma short_ok (l : list string) : forallb (fun n => negb (existsb (Ascii.eqb CR) (chars n))) l = true -> Forall one_line l.
  Proof.
    intros H. apply Forall_forall. intros n I. rewrite forallb_forall in H. specialize (H n I). apply negb_true_iff in H. intros X.
    assert (Y : existsb (Ascii.eqb CR) (chars n) = true) by (apply existsb_exists; exists CR; split; [exact X|apply Ascii.eqb_refl]). congruence.
  Qed.
  Lemma rcols_ok ts : (2 <= length (rcols ts))%nat /\ NoDup (map fst (rcols ts)) /\ rcols ts <> [] /\ Forall one_line (map fst (rcols ts)).
  Proof.
    rewrite rcols_names. split; [cbn; lia|]. split; [apply Proofs_Run.nodupb_ok; vm_compute; reflexivity|]. split; [discriminate|]. apply short_ok. vm_compute. reflexivity.
  Qed.
  Lemma lcols_ok ts : (2 <= length (lcols ts))%nat /\ NoDup (map fst (lcols ts)) /\ lcols ts <> [] /\ Forall one_line (map fst (lcols ts)).
  Proof.
    change (map fst (lcols ts)) with ["ice"; "depth"; "time"]%string. split; [cbn; lia|]. split; [apply Proofs_Run.nodupb_ok; vm_compute; reflexivity|]. split; [discriminate|]. apply short_ok. vm_compute. reflexivity.
  Qed.
  Lemma blocks_read f : (forall ts, (2 <= length (f ts))%nat /\ NoDup (map fst (f ts)) /\ f ts <> [] /\ Forall one_line (map fst (f ts))) ->
    read_frame parse (frame_text show (of_blocks (blocks f))) = Ok (frame_of back (of_blocks (blocks f))).
  Proof.
    intros H. apply frame_back; [exact U|apply blocks_long; intros; apply H|]. apply heads_ok. intros. apply H.
  Qed.

  Definition s' : fs := exec (write_text (datedir ++ ["layers.csv"%string]) (frame_text show (of_blocks (blocks lcols))) ++
    write_text (datedir ++ ["runs.csv"%string]) (frame_text show (of_blocks (blocks rcols)))) s1.
  Lemma aggregate_done : aggregate parse show dump load L L1 cts tmp datedir s = Ok s'.
  Proof.
    unfold aggregate, pickles_to_csv. rewrite pickled_is, pickles_cts.
    assert (M : mapM (fun p => match files s1 p with Some t => let* d := load t in Ok (stem p, d) | None => Err FileNotFoundError end) (map (pickle_of tmp) cts')
              = Ok (map (fun p => (stem p, data (stem p))) (map (pickle_of tmp) cts'))).
    { apply mapM_ok_map. intros p I. apply in_map_iff in I as (c & <- & I). apply cts'_in in I. destruct s1_files as (A & _). rewrite (A c I), (LD c _ I (agg_ok c I)). cbn [bind]. now rewrite stem_pickle. }
    rewrite M. cbn [bind]. rewrite map_map.
    assert (Q : map (fun c => (stem (pickle_of tmp c), data (stem (pickle_of tmp c)))) cts' = map (fun c => (c, data c)) cts') by (apply map_ext; intros c; now rewrite stem_pickle).
    rewrite Q. unfold s'. do 3 f_equal.
    - f_equal. f_equal. rewrite <- (columns_dict lcols) by (intros; apply lcols_ok). f_equal. unfold blocks. rewrite of_blocks_flat.
      rewrite !flat_map_concat_map, map_map. f_equal. apply map_ext. intros c. apply layer_columns_blocks.
    - f_equal. f_equal. rewrite <- (columns_dict rcols) by (intros; apply rcols_ok). f_equal. unfold blocks. rewrite of_blocks_flat.
      rewrite !flat_map_concat_map, map_map. f_equal. apply map_ext. intros c. apply run_columns_blocks.
  Qed.
  Lemma s'_files q : files s' q = if path_eqb (datedir ++ ["runs.csv"%string]) q then Some (frame_text show (of_blocks (blocks rcols)))
    else if path_eqb (datedir ++ ["layers.csv"%string]) q then Some (frame_text show (of_blocks (blocks lcols))) else files s1 q.
  Proof. unfold s'. rewrite exec_app, !write_files. reflexivity. Qed.
  Lemma csv_names : datedir ++ ["runs.csv"%string] <> datedir ++ ["layers.csv"%string].
  Proof. intros X. apply app_inj_tail in X as [_ X]. discriminate. Qed.
  Lemma read_done : read_agg_dfs parse s' datedir = Ok (flatten (frame_of back (of_blocks (blocks lcols))), flatten (frame_of back (of_blocks (blocks rcols))), frame_rows (of_blocks (blocks rcols))).
  Proof.
    unfold read_agg_dfs, read_file. rewrite !s'_files, (path_eqb_neq _ _ csv_names), !path_eqb_refl.
    rewrite (blocks_read lcols) by (intros; apply lcols_ok). cbn [bind]. rewrite (blocks_read rcols) by (intros; apply rcols_ok). cbn [bind].
    unfold frame_of at 3. cbn [fr_rows]. now rewrite map_length, seq_length.
  Qed.

  Definition found : list ((string * string * path) * list layer) :=
    flat_map (fun c => flat_map (fun x => map (fun p => ((c, x, p), tab p)) (at_run c x)) xs) cts'.
  Lemma found_in c x p : In (c, x, p) (map fst found) <-> In c cts /\ table_at s datedir tmp c x p.
  Proof.
    rewrite in_map_iff. split.
    - intros (e & Q & I). apply in_flat_map in I as (c' & Ic & I). apply in_flat_map in I as (x' & Ix & I). apply in_map_iff in I as (p' & <- & I).
      cbn [fst] in Q. injection Q as -> -> ->. split; [now apply cts'_in|]. now apply (at_run_in c x p Ix).
    - intros [Ic T]. exists ((c, x, p), tab p). split; [reflexivity|]. apply in_flat_map. exists c. split; [now apply cts'_in|].
      assert (Ix : In x xs) by (apply xs_in; destruct T as (T1 & T2 & _); auto). apply in_flat_map. exists x. split; [exact Ix|].
      apply in_map_iff. exists p. split; [reflexivity|]. now apply at_run_in.
  Qed.
  Lemma found_nodup : NoDup (map fst found).
  Proof.
    unfold found. rewrite flat_map_concat_map, concat_map, map_map, <- flat_map_concat_map. apply NoDup_flat_map; [apply cts'_nodup| |].
    - intros c _. rewrite flat_map_concat_map, concat_map, map_map, <- flat_map_concat_map. apply NoDup_flat_map; [apply xs_nodup| |].
      + intros x _. rewrite map_map. cbn [fst]. apply FinFun.Injective_map_NoDup; [|apply at_run_nodup]. intros u v [= ->]. reflexivity.
      + intros a b q _ _ I J. rewrite map_map in I, J. cbn [fst] in I, J. apply in_map_iff in I as (u & <- & _). apply in_map_iff in J as (v & Q & _). congruence.
    - intros a b q _ _ I J. apply in_map_iff in I as (e & <- & I). apply in_map_iff in J as (e' & Q & J).
      apply in_flat_map in I as (x & _ & I). apply in_map_iff in I as (p & <- & _). apply in_flat_map in J as (x' & _ & J). apply in_map_iff in J as (p' & <- & _).
      cbn [fst] in Q. congruence.
  Qed.
  Lemma found_read : Forall (fun e => read_at parse s (snd (fst e)) = Ok (snd e) /\ formed (snd e)) found.
  Proof.
    apply Forall_forall. intros e I. apply in_flat_map in I as (c & Ic & I). apply in_flat_map in I as (x & Ix & I). apply in_map_iff in I as (p & <- & I).
    cbn [fst snd]. apply cts'_in in Ic. eapply tab_ok; eauto.
  Qed.
  Lemma flat_map_maps {A B C} (g : B -> list C) (h : A -> B) l : flat_map g (map h l) = flat_map (fun a => g (h a)) l.
  Proof. induction l; cbn [map flat_map]; congruence. Qed.
  Lemma flat_map_flat {A B C} (g : B -> list C) (h : A -> list B) l : flat_map g (flat_map h l) = flat_map (fun a => flat_map g (h a)) l.
  Proof. induction l as [|a l IH]; [reflexivity|]. cbn [flat_map]. now rewrite flat_map_app, IH. Qed.
  Lemma flat_map_ext_in {A B} (g h : A -> list B) l : (forall a, In a l -> g a = h a) -> flat_map g l = flat_map h l.
  Proof. intros H. rewrite !flat_map_concat_map. f_equal. now apply map_ext_in. Qed.
  Lemma totals_rows c x ts : Forall formed ts ->
    map (block_row back ((c, x), rcols ts)) (seq 0 (length ts)) = map (fun t => total_row back c x (totals_of t)) ts.
  Proof.
    intros F.
    set (G := fun o : option (list layer) => mk_flat c x
       (map (fun k => (nth k names ""%string, option_map (fun t => back (nth k (snd (totals_of t)) 0%R)) o)) (seq 0 5) ++
        [("total ice"%string, option_map (fun t => back (fst (fst (totals_of t)))) o); ("maxdepth"%string, option_map (fun t => back (snd (fst (totals_of t)))) o)])).
    etransitivity; [|etransitivity; [apply (map_seq_nth G ts)|]].
    - apply map_ext. intros i. unfold block_row, G, rcols. cbn [fst snd]. rewrite map_app, map_map. cbn [seq map app fst snd]. rewrite !nth_error_map.
      destruct (nth_error ts i); reflexivity.
    - apply map_ext_in. intros t I. rewrite Forall_forall in F. destruct (totals_formed t (F t I)) as (am & _ & Q & Len). unfold G. cbn [option_map]. rewrite Q. cbn [fst snd].
      do 5 (destruct am as [|? am]; [discriminate|]). destruct am; [|discriminate]. reflexivity.
  Qed.
  Lemma layer_rows c x ts : map (block_row back ((c, x), lcols ts)) (seq 0 (length (concat ts))) = map (layer_row back c x) (concat ts).
  Proof.
    set (G := fun o : option layer => mk_flat c x [("ice"%string, option_map (fun l => back (l_ice l)) o); ("depth"%string, option_map (fun l => back (l_depth l)) o);
      ("time"%string, option_map (fun l => back (l_time l)) o)]).
    etransitivity; [|apply (map_seq_nth G (concat ts))]. apply map_ext. intros i. unfold block_row, G, lcols. cbn [map fst snd]. rewrite !nth_error_map.
    destruct (nth_error (concat ts) i); reflexivity.
  Qed.
  Lemma runs_rows : Permutation (flatten (frame_of back (of_blocks (blocks rcols))))
    (map (fun e => total_row back (fst (fst (fst e))) (snd (fst (fst e))) (totals_of (snd e))) found).
  Proof.
    etransitivity; [apply (flatten_blocks back (blocks rcols) (fun b => match snd b with sc :: _ => length (snd sc) | [] => 0%nat end)); [apply blocks_pairs|]|].
    - intros b I. apply blocks_in in I as (c & x & _ & _ & ->). split; [discriminate|]. cbn [snd]. unfold rcols. cbn [seq map app].
      repeat (apply Forall_cons; [cbn [snd]; now rewrite !map_length|]). apply Forall_nil.
    - apply perm_eq. unfold blocks, found. rewrite flat_map_flat. rewrite (flat_map_concat_map _ cts'), (flat_map_concat_map _ cts'), concat_map, map_map. f_equal.
      apply map_ext_in. intros c Ic. apply cts'_in in Ic. rewrite flat_map_maps, !flat_map_concat_map, concat_map, map_map. f_equal. apply map_ext_in. intros x Ix. cbn [snd].
      rewrite map_map. cbn [fst snd]. change (length (snd (hd (""%string, []) (rcols (tabs c x))))) with (length (map (fun t => nth 0 (snd t) 0%R) (map totals_of (tabs c x)))).
      transitivity (map (block_row back ((c, x), rcols (tabs c x))) (seq 0 (length (tabs c x)))).
      + f_equal. f_equal. unfold rcols. cbn [seq map app snd]. now rewrite !map_length.
      + rewrite totals_rows by now apply tabs_formed. unfold tabs. now rewrite map_map.
  Qed.
  Lemma layers_rows : Permutation (flatten (frame_of back (of_blocks (blocks lcols))))
    (flat_map (fun e => map (layer_row back (fst (fst (fst e))) (snd (fst (fst e)))) (snd e)) found).
  Proof.
    etransitivity; [apply (flatten_blocks back (blocks lcols) (fun b => match snd b with sc :: _ => length (snd sc) | [] => 0%nat end)); [apply blocks_pairs|]|].
    - intros b I. apply blocks_in in I as (c & x & _ & _ & ->). split; [discriminate|]. cbn [snd]. unfold lcols.
      repeat (apply Forall_cons; [cbn [snd]; now rewrite !map_length|]). apply Forall_nil.
    - apply perm_eq. unfold blocks, found. rewrite !flat_map_flat. apply flat_map_ext_in. intros c Ic. rewrite flat_map_maps, flat_map_flat.
      apply flat_map_ext_in. intros x Ix. cbn [snd]. rewrite flat_map_maps. cbn [fst snd].
      transitivity (map (block_row back ((c, x), lcols (tabs c x))) (seq 0 (length (concat (tabs c x))))).
      + f_equal. f_equal. unfold lcols. cbn [snd]. now rewrite map_length.
      + rewrite layer_rows. unfold tabs. rewrite flat_map_concat_map, concat_map, !map_map. reflexivity.
  Qed.
  Lemma count_rows : (forall c x l, In c cts -> NoDup l -> (forall p, In p l -> table_at s datedir tmp c x p) -> (length l <= frame_rows (of_blocks (blocks rcols)))%nat) /\
    (frame_rows (of_blocks (blocks rcols)) = 0%nat \/ exists c x l, In c cts /\ NoDup l /\ (forall p, In p l -> table_at s datedir tmp c x p) /\ length l = frame_rows (of_blocks (blocks rcols))).
  Proof.
    split.
    - intros c x l Ic N T. destruct l as [|p l]; [cbn; lia|].
      assert (Ix : In x xs) by (apply xs_in; destruct (T p (or_introl eq_refl)) as (T1 & T2 & _); auto).
      assert (Len : (length (p :: l) <= length (at_run c x))%nat) by (apply NoDup_incl_length; [exact N|]; intros q I; apply at_run_in; auto).
      etransitivity; [exact Len|].
      assert (I : In ((c, x, "total ice"%string), map (fun t => fst (fst t)) (map totals_of (tabs c x))) (of_blocks (blocks rcols))).
      { unfold of_blocks. apply in_flat_map. exists ((c, x), rcols (tabs c x)). split; [apply blocks_in; eauto 6|]. cbn [fst snd]. apply in_map_iff.
        exists ("total ice"%string, map (fun t => fst (fst t)) (map totals_of (tabs c x))). split; [reflexivity|]. unfold rcols. apply in_or_app. right. now left. }
      apply frame_rows_in in I. cbn [snd] in I. unfold tabs in I. rewrite !map_length in I. exact I.
    - destruct (frame_rows_some (of_blocks (blocks rcols))) as [Q|(col & I & Q)]; [now left|]. right.
      unfold of_blocks in I. apply in_flat_map in I as (b & Ib & I). apply blocks_in in Ib as (c & x & Ic & Ix & ->). cbn [fst snd] in I.
      exists c, x, (at_run c x). split; [exact Ic|]. split; [apply at_run_nodup|]. split; [intros p Ip; now apply at_run_in|]. rewrite <- Q.
      apply in_map_iff in I as (sc & <- & I). cbn [snd]. unfold rcols in I. cbn [seq map app In] in I.
      repeat (destruct I as [<-|I]; [cbn [snd]; unfold tabs; now rewrite !map_length|]). contradiction.
  Qed.
End Day.
