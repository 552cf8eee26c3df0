(** Proofs about the collected runs of a day. *)
From Coq Require Import ZArith Bool Ascii String List Arith Permutation Sorted Reals Lra Lia.
From Verif Require Import Base Model_Path Model_Cfg Model_Strat Model_Plot Model_Main Model_Run Model_Save Model_Files Model_Cmd Model_Collect
  Spec_Csv Spec_Save Spec_Plot Spec_Strat Spec_Ice Spec_Run Spec_Outputs Spec_Files Spec_Cmd Spec_Collect
  Proofs_Base Proofs_Path Proofs_Strat Proofs_Plot Proofs_Agg Proofs_Outputs Proofs_Files Proofs_Cmd Proofs_Collect Props_Files.
Import ListNotations.
Open Scope list_scope.

(** ** Listings *)
Definition listing_of (cand : list path) (s : fs) : listing := mk_listing
  (fun d => nodup string_dec (map (fun q => last q ""%string) (filter (fun q => Model_Save.exists_ s q && path_eqb (removelast q) d && (0 <? length q)%nat) cand)))
  (fun p pat => nodup (list_eq_dec string_dec) (filter (fun q => Model_Save.exists_ s q && is_prefix p q && (length p <? length q)%nat && matches pat (last q ""%string)) cand)).
Lemma prefix_split p : forall q, is_prefix p q = true -> exists r, q = p ++ r.
Proof.
  induction p as [|a p IH]; intros q H; [now exists q|]. destruct q as [|b q]; [discriminate|]. cbn [is_prefix] in H. apply andb_prop in H as [A B].
  apply String.eqb_eq in A. subst b. destruct (IH q B) as (r & ->). now exists r.
Qed.
Lemma listing_ok cand s d : (forall q, Model_Save.exists_ s q = true -> is_prefix d q = true -> q <> d -> In q cand) -> lists (listing_of cand s) s d.
Proof.
  intros H. split; [split|].
  - apply NoDup_nodup.
  - intros x. cbn [listing_of children]. rewrite nodup_In, in_map_iff. split.
    + intros (q & <- & I). apply filter_In in I as [_ I]. apply andb_prop in I as [I L]. apply andb_prop in I as [I Q]. apply path_eqb_eq in Q.
      assert (q <> []) by (intros ->; discriminate). now rewrite <- Q, <- app_removelast_last.
    + intros X. exists (d ++ [x]). split; [apply last_last|]. apply filter_In. split.
      * apply H; [exact X|apply Proofs_Collect.prefix_app|]. intros Q. apply (f_equal (@length string)) in Q. rewrite app_length in Q. cbn in Q. lia.
      * rewrite X, removelast_last, path_eqb_refl, app_length. cbn. destruct (length d + 1)%nat eqn:Z; [lia|reflexivity].
  - intros p pat Pd. cbn [listing_of rglob]. split; [apply NoDup_nodup|]. intros q. rewrite nodup_In, filter_In. split.
    + intros [_ I]. apply andb_prop in I as [I M]. apply andb_prop in I as [I L]. apply andb_prop in I as [I Q]. split; [exact I|].
      apply prefix_split in Q as (r & ->). rewrite app_length in L. apply Nat.ltb_lt in L. destruct r as [|a r] using rev_ind; [cbn in L; lia|].
      exists r, a. split; [reflexivity|]. now rewrite app_assoc, last_last in M.
    + intros (X & mid & x & -> & M). split.
      * apply H; [exact X| |].
        -- eapply Proofs_Save.is_prefix_trans; [exact Pd|apply Proofs_Collect.prefix_app].
        -- intros Q. apply is_prefix_longer in Pd. rewrite <- Q, !app_length in Pd. cbn in Pd. lia.
      * rewrite X, Proofs_Collect.prefix_app, app_assoc, last_last, M, <- app_assoc, !app_length. cbn [andb length]. rewrite andb_true_r. apply Nat.ltb_lt. lia.
Qed.
Lemma pickled_dec (a b : pickled) : {a = b} + {a <> b}.
Proof. repeat (decide equality; try apply Req_EM_T; try apply string_dec). Qed.
Fixpoint ticks (n : nat) : string := match n with O => EmptyString | S m => String "x" (ticks m) end.
Fixpoint place (d : pickled) (ds : list pickled) : nat := match ds with [] => 0%nat | d' :: r => if pickled_dec d d' then 0%nat else S (place d r) end.
Lemma ticks_length n : String.length (ticks n) = n.
Proof. induction n; cbn; congruence. Qed.
Lemma place_ok d ds : In d ds -> nth_error ds (place d ds) = Some d.
Proof.
  induction ds as [|d' r IH]; [contradiction|]. cbn [place]. destruct (pickled_dec d d') as [->|N]; [reflexivity|]. intros [Q|I]; [congruence|]. cbn. auto.
Qed.
Lemma some_pickle ds : exists (dump : pickled -> string) (load : string -> result pickled), forall d, In d ds -> load (dump d) = Ok d.
Proof.
  exists (fun d => ticks (place d ds)), (fun t => match nth_error ds (String.length t) with Some d => Ok d | None => Err ValueError end).
  intros d I. now rewrite ticks_length, place_ok.
Qed.

(** ** Tables *)
Lemma tables_perm {K T} (r : K -> result T) (f g : list (K * T)) : NoDup (map fst f) -> NoDup (map fst g) -> (forall k, In k (map fst f) <-> In k (map fst g)) ->
  Forall (fun e => r (fst e) = Ok (snd e)) f -> Forall (fun e => r (fst e) = Ok (snd e)) g -> Permutation f g.
Proof.
  intros N1 N2 K1 F G.
  assert (X : forall (a b : list (K * T)), (forall k, In k (map fst a) -> In k (map fst b)) -> Forall (fun e => r (fst e) = Ok (snd e)) a ->
    Forall (fun e => r (fst e) = Ok (snd e)) b -> forall e, In e a -> In e b).
  { intros a b S A B [k t] I. assert (Ik : In k (map fst a)) by (apply in_map_iff; exists (k, t); auto). apply S in Ik.
    apply in_map_iff in Ik as ([k' t'] & Q & I'). cbn [fst] in Q. subst k'. rewrite Forall_forall in A, B. pose proof (A _ I) as U. pose proof (B _ I') as V.
    cbn [fst snd] in *. assert (t' = t) by congruence. now subst. }
  apply NoDup_Permutation; [now apply NoDup_map_inv in N1|now apply NoDup_map_inv in N2|]. intros e. split; apply X; auto; intros k; apply K1.
Qed.
Lemma are_tables_perm parse s datedir tmp cts f parse2 s2 cts2 g :
  are_tables parse s datedir tmp cts f -> are_tables parse2 s2 datedir tmp cts2 g ->
  (forall c x p, In c cts /\ table_at s datedir tmp c x p <-> In c cts2 /\ table_at s2 datedir tmp c x p) ->
  (forall c x p, In c cts -> table_at s datedir tmp c x p -> read_at parse2 s2 p = read_at parse s p) -> Permutation f g.
Proof.
  intros (A1 & A2 & A3) (B1 & B2 & B3) K Rd. apply (tables_perm (fun k => read_at parse s (snd k))); auto.
  - intros [[c x] p]. rewrite A2, B2. apply K.
  - apply Forall_forall. intros [[[c x] p] t] I. rewrite Forall_forall in B3. specialize (B3 _ I). cbn [fst snd] in *. rewrite <- B3.
    assert (J : In (c, x, p) (map fst g)) by (apply in_map_iff; exists ((c, x, p), t); auto). apply B2, K in J as [J1 J2]. symmetry. eauto.
Qed.

(** ** Totals of written tables *)
Lemma renumbered_totals n table back : shipped_table n table -> (forall x y, (x <= y)%R -> (back x <= back y)%R) ->
  formed (map (renumbered back) table) /\
  exists am, totals_of (map (renumbered back) table) = (Rsum (map (fun l => back (l_ice l)) table), back (Rsum (map l_ice table) + Rsum (map l_ej table))%R, am) /\ length am = 5%nat.
Proof.
  intros Sh Mo. apply table_rows, rows_plain in Sh as (rnd & tm & tol & age & steps & H & Rn & N & S & F).
  destruct (strat_rest (fun s => s <> "Formation age")%string rnd tm tol age steps table)
    as (s & kept & l & rest & K1 & E & K3 & _ & _ & K4 & K5 & K6); auto; try discriminate.
  { eapply Forall_impl; [|exact F]. cbn beta. tauto. }
  assert (Fm : formed (map (renumbered back) table)).
  { exists (renumbered back l). rewrite E. cbn [map]. split.
    - apply split_formation; [exact K3|]. apply Forall_map. exact K5.
    - constructor; [apply Rle_refl|]. apply Forall_map. eapply Forall_impl; [|exact K6]. cbn beta. intros x (s' & Hs & Hx). cbn [renumbered l_time]. apply Mo.
      rewrite Hx, K4. pose proof (SS_filter _ (in_span rnd tol true age) _ S) as Q. rewrite K1 in Q.
      inversion Q as [|? ? _ Q2]; subst. destruct Hs as [->|Hs]; [lra|]. rewrite Forall_forall in Q2. exact (Q2 _ Hs). }
  split; [exact Fm|]. destruct (totals_formed _ Fm) as (am & _ & Q & Len). exists am. split; [|exact Len]. rewrite Q. f_equal. f_equal.
  - rewrite map_map. reflexivity.
  - pose proof (table_holds _ _ _ _ _ _ _ H Rn N) as Hh. destruct (strat_depth_steps _ _ _ _ _ _ _ H) as (_ & B & _). rewrite <- (B l rest E).
    assert (Up : Forall (fun x => (l_depth x <= l_depth l)%R) table).
    { rewrite E in *. constructor; [apply Rle_refl|]. apply Forall_forall. intros x I. destruct Hh as [Hh Hr].
      pose proof (holds_above l rest (conj Hh Hr) x I). cbn [top_of] in *. lra. }
    rewrite E. cbn [map hd fold_right]. assert (Lo : forall t, Forall (fun x => (l_depth x <= l_depth l)%R) t ->
      fold_right Rmax (back (l_depth l)) (map l_depth (map (renumbered back) t)) = back (l_depth l)).
    { induction 1 as [|x t Hx _ IH]; [reflexivity|]. cbn [map fold_right]. rewrite IH. cbn [renumbered l_depth]. apply Rmax_right. now apply Mo. }
    cbn [renumbered l_depth]. rewrite E in Up. inversion Up as [|? ? _ Up2]; subst. rewrite (Lo rest Up2). apply Rmax_left, Rle_refl.
Qed.
Lemma holds_totals t : formed t -> holds_ice t ->
  totals_of t = (Rsum (map l_ice t), top_of t, map (fun d => Rsum (map (ice_of_layer_above d) t)) [1; 3; 6; 10; 100]%R).
Proof.
  intros (f & F & T) H. assert (K : filter (fun l => Rleb (l_time l) (l_time f)) t = t).
  { apply filter_id. intros l I. rewrite Forall_forall in T. apply Rleb_true. now apply T. }
  pose proof (agg_csv_ok [1; 3; 6; 10; 100]%R t f F) as A. cbv zeta in A. rewrite K in A. unfold totals_of. now rewrite (A H).
Qed.

(** ** The runs of a day *)
Lemma seed_name z n : format_05d z <> table_name n.
Proof.
  intros H. unfold table_name in H. unfold format_05d in H. destruct (z <? 0)%Z; [discriminate|]. destruct (digits_shape 5 (Z.to_N z)) as [D _]. rewrite H in D. discriminate.
Qed.
Lemma table_written c : In c with_hop -> In (table_name c) tables /\ In (table_name c) written.
Proof.
  intros I. assert (In (table_name c) tables) by (apply in_or_app; left; now apply in_map). split; [assumption|]. unfold written. apply in_or_app. now right.
Qed.
Definition tbl (P : libraries) (E : env) (s : fs) (z : Z) (c : string) : list layer :=
  match run (text_of E s) (p_rnd P) (p_ppf P) (p_sort P) (conf E s z) (p_stream P z) 0%nat with
  | Ok (out, _) => match find (fun nt => String.eqb (table_name (fst nt)) (table_name c)) (o_strat out) with Some nt => snd nt | None => [] end
  | Err _ => []
  end.
Lemma tbl_ok P E s z c : lawful P -> ready E s -> In c with_hop ->
  shipped_table c (tbl P E s z c) /\ forall E2 s2, ready E2 s2 -> text_for P E2 s2 z (table_name c) = strat_text (p_show P) (tbl P E s z c).
Proof.
  intros L H I. destruct (run_any P z E s L H) as (out & k' & Sh & A). unfold tbl. rewrite (A E s H).
  pose proof (shipped_rows _ _ Sh) as [Sn _].
  destruct (find (fun nt => String.eqb (table_name (fst nt)) (table_name c)) (o_strat out)) as [nt|] eqn:F.
  - pose proof F as F'. apply find_some in F' as [I1 I2]. apply String.eqb_eq in I2. apply strat_inj in I2. split.
    + exists with_hop, out. split; [exact Sh|]. rewrite <- I2. now destruct nt.
    + intros E2 s2 H2. unfold text_for. now rewrite (A E2 s2 H2), F.
  - exfalso. rewrite <- Sn in I. apply in_map_iff in I as (nt & <- & I). pose proof (find_none _ _ F nt I) as X. cbn beta in X. now rewrite String.eqb_refl in X.
Qed.
Lemma run_dir_day E z : run_dir E z = day_dir E ++ ["moonpies"%string; format_05d z].
Proof. unfold run_dir, day_dir. now rewrite <- app_assoc. Qed.
Lemma traps_head : with_hop <> [] /\ NoDup with_hop /\ Forall heads_column with_hop.
Proof.
  split; [discriminate|]. split; [apply Proofs_Run.nodupb_ok; reflexivity|].
  assert (X : forallb (fun c => negb (existsb (Ascii.eqb CR) (chars c)) && match c with String a _ => (nat_of_ascii a <? 128)%nat | EmptyString => false end) with_hop = true)
    by (vm_compute; reflexivity).
  rewrite forallb_forall in X. apply Forall_forall. intros c I. apply X in I. apply andb_prop in I as [A B]. split.
  - apply negb_true_iff in A. intros J. assert (existsb (Ascii.eqb CR) (chars c) = true) by (apply existsb_exists; exists CR; split; [exact J|apply Ascii.eqb_refl]). congruence.
  - destruct c as [|a r]; [discriminate|]. exists a, r. split; [reflexivity|]. now apply Nat.ltb_lt.
Qed.

Section Runs.
  Variables (P : libraries) (E0 E1 : env) (s s' : fs) (zs : list Z) (parse back : R -> R).
  Hypotheses (Lw : lawful P) (Re : ready E1 s) (U : forall x, read_as parse (p_show P) back x) (Mo : forall x y, (x <= y)%R -> (back x <= back y)%R).
  Hypotheses (Nz : NoDup zs) (Zn : zs <> []).
  Notation day := (day_dir E0).
  Notation tmp := (day_dir E0 ++ ["tmp"%string]).
  Hypothesis K1 : forall z x, In z zs -> In x tables -> files s' (run_dir E0 z ++ [x]) = Some (text_for P E1 s z x).
  Hypothesis K2 : forall p, is_prefix day p = true -> files s' p <> None -> exists z x, In z zs /\ In x written /\ p = run_dir E0 z ++ [x].
  Hypothesis K3 : forall q, is_prefix day q = true -> (dirs s' q = true <-> exists z, In z zs /\ is_prefix q (run_dir E0 z) = true).
  Hypothesis K4 : forall p, is_prefix p day = true -> files s' p = None.

  Lemma day_below q : is_prefix day (day ++ q) = true.
  Proof. apply Proofs_Collect.prefix_app. Qed.
  Lemma day_child x : dirs s' (day ++ [x]) = true <-> x = "moonpies"%string.
  Proof.
    rewrite (K3 _ (day_below _)). split.
    - intros (z & _ & H). rewrite run_dir_day, is_prefix_app_head in H. cbn [is_prefix] in H. apply andb_prop in H as [H _]. now apply String.eqb_eq in H.
    - intros ->. assert (exists z, In z zs) as (z & I) by (clear -Zn; destruct zs as [|z l]; [contradiction|exists z; now left]).
      exists z. split; [exact I|]. rewrite run_dir_day, is_prefix_app_head. reflexivity.
  Qed.
  Lemma day_table c x p : In c with_hop -> (table_at s' day tmp c x p <-> x = "moonpies"%string /\ exists z, In z zs /\ p = run_dir E0 z ++ [table_name c]).
  Proof.
    intros Ic. split.
    - intros (D & _ & X & mid & Q). apply day_child in D. subst x. split; [reflexivity|]. change ("strat_" ++ c ++ ".csv")%string with (table_name c) in Q.
      unfold Model_Save.exists_ in X. apply orb_prop in X as [X|X].
      + exfalso. rewrite Q in X. apply K3 in X as (z & Iz & X); [|apply day_below]. rewrite run_dir_day, is_prefix_app_head in X. cbn [is_prefix] in X.
        rewrite String.eqb_refl in X. cbn [andb] in X. pose proof (is_prefix_longer _ _ X) as Ln. rewrite app_length in Ln. cbn in Ln.
        destruct mid as [|m mid]; [|cbn in Ln; lia]. cbn [app is_prefix] in X. apply andb_prop in X as [X _]. apply String.eqb_eq in X. symmetry in X. now apply seed_name in X.
      + destruct (files s' p) eqn:Fp; [|discriminate]. destruct (K2 p) as (z & y & Iz & Iy & Qp).
        * rewrite Q. apply day_below.
        * rewrite Fp. discriminate.
        * exists z. split; [exact Iz|]. rewrite Qp in Q. rewrite run_dir_day in *.
          change (day ++ "moonpies"%string :: mid ++ [table_name c]) with (day ++ ("moonpies"%string :: mid) ++ [table_name c]) in Q. rewrite app_assoc in Q.
          apply app_inj_tail in Q as [_ ->]. exact Qp.
    - intros (-> & z & Iz & ->). split; [now apply day_child|]. split; [intros X; apply app_inv_head in X; discriminate|]. split.
      + unfold Model_Save.exists_. rewrite K1; [apply orb_true_r|exact Iz|now apply table_written].
      + exists [format_05d z]. rewrite run_dir_day, <- app_assoc. reflexivity.
  Qed.
  Notation T z c := (map (renumbered back) (tbl P E1 s z c)).
  Lemma day_read z c : In z zs -> In c with_hop -> read_at parse s' (run_dir E0 z ++ [table_name c]) = Ok (T z c).
  Proof.
    intros Iz Ic. unfold read_at. rewrite K1; [|exact Iz|now apply table_written]. destruct (tbl_ok P E1 s z c Lw Re Ic) as [Sh Tx]. rewrite (Tx E1 s Re).
    apply (C84_shipped parse (p_show P) back c); [exact Sh|]. apply Forall_forall. intros x _. apply U.
  Qed.
  Lemma tmp_empty q : is_prefix tmp q = true -> Model_Save.exists_ s' q = false.
  Proof.
    intros H. apply prefix_split in H as (r & ->). rewrite <- app_assoc. cbn [app]. unfold Model_Save.exists_. apply orb_false_intro.
    - destruct (dirs s' (day ++ "tmp"%string :: r)) eqn:D; [|reflexivity]. apply K3 in D as (z & _ & D); [|apply day_below].
      rewrite run_dir_day, is_prefix_app_head in D. cbn [is_prefix] in D. discriminate.
    - destruct (files s' (day ++ "tmp"%string :: r)) eqn:F; [|reflexivity]. destruct (K2 (day ++ "tmp"%string :: r)) as (z & x & _ & _ & Q); [apply day_below|congruence|].
      rewrite run_dir_day, <- app_assoc in Q. apply app_inv_head in Q. discriminate.
  Qed.
  Lemma day_aggregable : aggregable parse s' day tmp with_hop.
  Proof.
    split; [apply traps_head|]. split; [|split; [|split; [|split; [|split; [|split]]]]].
    - split.
      + intros mid x X _. rewrite tmp_empty in X; [discriminate|apply Proofs_Collect.prefix_app].
      + intros c _. pose proof (tmp_empty (tmp ++ [(c ++ ".pickle")%string]) (Proofs_Collect.prefix_app _ _)) as X. unfold Model_Save.exists_ in X. now apply orb_false_elim in X as [X _].
    - exists "moonpies"%string. split; [now apply day_child|]. intros X. apply app_inv_head in X. discriminate.
    - intros x D. apply day_child in D. subst x. vm_compute. intuition discriminate.
    - intros c x p Ic Tb. apply day_table in Tb as (-> & z & Iz & ->); [|exact Ic]. exists (T z c). split; [now apply day_read|].
      destruct (tbl_ok P E1 s z c Lw Re Ic) as [Sh _]. now apply (renumbered_totals c).
    - intros p X. destruct (is_prefix p day) eqn:Y; [now apply K4|].
      assert (p = tmp).
      { apply prefix_split in X as (r & X). destruct r as [|a r] using rev_ind; [rewrite app_nil_r in X; now symmetry|]. clear IHr.
        rewrite app_assoc in X. apply app_inj_tail in X as [X _]. rewrite X in Y. rewrite Proofs_Collect.prefix_app in Y. discriminate. }
      subst p. pose proof (tmp_empty tmp (Proofs_Save.is_prefix_refl _)) as Z. unfold Model_Save.exists_ in Z. apply orb_false_elim in Z as [_ Z]. now destruct (files s' tmp).
    - destruct (dirs s' (day ++ ["layers.csv"%string])) eqn:D; [|reflexivity]. apply day_child in D. discriminate.
    - destruct (dirs s' (day ++ ["runs.csv"%string])) eqn:D; [|reflexivity]. apply day_child in D. discriminate.
  Qed.
  Definition day_found : list ((string * string * path) * list layer) :=
    flat_map (fun c => map (fun z => ((c, "moonpies"%string, run_dir E0 z ++ [table_name c]), T z c)) zs) with_hop.
  Lemma dir_inj z z2 x x2 : run_dir E0 z ++ [x] = run_dir E0 z2 ++ [x2] -> z = z2.
  Proof. intros H. apply app_inj_tail in H as [H _]. now apply dir_seed in H. Qed.
  Lemma day_are : are_tables parse s' day tmp with_hop day_found.
  Proof.
    unfold day_found. split; [|split].
    - rewrite flat_map_concat_map, concat_map, map_map, <- flat_map_concat_map. apply NoDup_flat_map; [apply traps_head| |].
      + intros c _. rewrite map_map. cbn [fst]. apply FinFun.Injective_map_NoDup; [|exact Nz]. intros u v [= Q]. now apply dir_inj in Q.
      + intros a b q _ _ I J. rewrite map_map in I, J. cbn [fst] in I, J. apply in_map_iff in I as (u & <- & _). apply in_map_iff in J as (v & Q & _). congruence.
    - intros c x p. rewrite in_map_iff. split.
      + intros (e & Q & I). apply in_flat_map in I as (c' & Ic & I). apply in_map_iff in I as (z & <- & Iz). cbn [fst] in Q. injection Q as -> <- <-.
        split; [exact Ic|]. apply day_table; [exact Ic|]. eauto.
      + intros [Ic Tb]. apply day_table in Tb as (-> & z & Iz & ->); [|exact Ic]. exists ((c, "moonpies"%string, run_dir E0 z ++ [table_name c]), T z c).
        split; [reflexivity|]. apply in_flat_map. exists c. split; [exact Ic|]. apply in_map_iff. eauto.
    - apply Forall_forall. intros e I. apply in_flat_map in I as (c' & Ic & I). apply in_map_iff in I as (z & <- & Iz). cbn [fst snd]. now apply day_read.
  Qed.
  Lemma day_count n :
    (forall c x l, In c with_hop -> NoDup l -> (forall p, In p l -> table_at s' day tmp c x p) -> (length l <= n)%nat) ->
    (n = 0%nat \/ exists c x l, In c with_hop /\ NoDup l /\ (forall p, In p l -> table_at s' day tmp c x p) /\ length l = n) -> n = length zs.
  Proof.
    intros Up Lo. apply Nat.le_antisymm.
    - destruct Lo as [->|(c & x & l & Ic & N & A & <-)]; [lia|]. rewrite <- (map_length (fun z => run_dir E0 z ++ [table_name c])). apply NoDup_incl_length; [exact N|].
      intros p I. apply A, day_table in I as (_ & z & Iz & ->); [|exact Ic]. apply in_map_iff. eauto.
    - rewrite <- (map_length (fun z => run_dir E0 z ++ [table_name (hd ""%string with_hop)])). apply (Up (hd ""%string with_hop) "moonpies"%string); [now left| |].
      + apply FinFun.Injective_map_NoDup; [|exact Nz]. intros u v Q. now apply dir_inj in Q.
      + intros p I. apply in_map_iff in I as (z & <- & Iz). apply day_table; [now left|]. eauto.
  Qed.
End Runs.

(** What the commands of a day leave. *)
Lemma day_facts P l s E0 zs : lawful P -> l <> [] ->
  (forall E argv, In (E, argv) l -> ready E s /\ same_place E0 E /\ date_now E = date_now E0 /\ exists resume z, asks E argv resume z) ->
  (forall z, In z zs <-> exists E argv resume, In (E, argv) l /\ asks E argv resume z) ->
  (forall q, is_prefix (day_dir E0) q = true -> Model_Save.exists_ s q = false) ->
  zs <> [] /\ exists s' E1, ready E1 s /\ commands P l s = Ok s' /\
    (forall z x, In z zs -> In x tables -> files s' (run_dir E0 z ++ [x]) = Some (text_for P E1 s z x)) /\
    (forall p, is_prefix (day_dir E0) p = true -> files s' p <> None -> exists z x, In z zs /\ In x written /\ p = run_dir E0 z ++ [x]) /\
    (forall q, is_prefix (day_dir E0) q = true -> (dirs s' q = true <-> exists z, In z zs /\ is_prefix q (run_dir E0 z) = true)) /\
    (forall p, is_prefix p (day_dir E0) = true -> files s' p = None).
Proof.
  intros L Nl H Hz Fr.
  assert (exists E1 argv1, In (E1, argv1) l) as (E1 & argv1 & I1) by (clear -Nl; destruct l as [|[E a] l]; [contradiction|exists E, a; now left]).
  destruct (H E1 argv1 I1) as (R1 & S1 & D1 & r1 & z1 & A1).
  assert (Q : forall E argv z, In (E, argv) l -> run_dir E z = run_dir E0 z).
  { intros E argv z I. destruct (H E argv I) as (_ & [Sp _] & Da & _). unfold run_dir. now rewrite Sp, Da. }
  assert (Fd : forall z, dirs s (run_dir E0 z) = false).
  { intros z. pose proof (Fr (run_dir E0 z)) as X. rewrite run_dir_day in *. specialize (X (Proofs_Collect.prefix_app _ _)). unfold Model_Save.exists_ in X. now apply orb_false_elim in X as [X _]. }
  destruct (campaign P E1 s L R1 l s) as (s' & B1 & B2 & _ & B4 & B5 & B6 & _).
  { intros E argv I. destruct (H E argv I) as (Re & Sp & Da & r & z & A). split; [exact Re|]. split; [destruct S1, Sp; split; congruence|].
    exists r, z. split; [exact A|]. intros _ X. rewrite (Q E argv z I), Fd in X. discriminate. }
  split.
  { intros ->. apply (proj2 (Hz z1)). eauto. }
  exists s', E1. split; [exact R1|]. split; [exact B1|]. split; [|split; [|split]].
  - intros z x Iz Ix. apply Hz in Iz as (E & argv & r & I & A). rewrite <- (Q E argv z I). now apply (B2 E argv r z I A).
  - intros p Pd Fp. destruct (in_dec (list_eq_dec string_dec) p (flat_map (fun z => map (fun x => run_dir E0 z ++ [x]) written) zs)) as [J|J].
    + apply in_flat_map in J as (z & Iz & J). apply in_map_iff in J as (x & <- & Ix). eauto.
    + exfalso. apply Fp. rewrite B4.
      * specialize (Fr p Pd). unfold Model_Save.exists_ in Fr. apply orb_false_elim in Fr as [_ Fr]. now destruct (files s p).
      * intros E argv r z x I A Ix ->. apply J. apply in_flat_map. exists z. split; [apply Hz; eauto|]. apply in_map_iff. exists x. split; [|exact Ix]. now rewrite (Q E argv z I).
  - intros q Pq. rewrite B6. split.
    + intros [X|(E & argv & r & z & I & A & X)].
      * specialize (Fr q Pq). unfold Model_Save.exists_ in Fr. rewrite X in Fr. discriminate.
      * exists z. split; [apply Hz; eauto|]. now rewrite <- (Q E argv z I).
    + intros (z & Iz & X). right. apply Hz in Iz as (E & argv & r & I & A). exists E, argv, r, z. split; [exact I|]. split; [exact A|]. now rewrite (Q E argv z I).
  - intros p Pp. assert (R' : ready E1 s') by (apply B5; [split; reflexivity|exact R1]). destruct R' as (_ & _ & _ & _ & _ & _ & R'). apply (R' z1).
    rewrite (Q E1 argv1 z1 I1), run_dir_day. eapply Proofs_Save.is_prefix_trans; [exact Pp|apply Proofs_Collect.prefix_app].
Qed.

(** ** Disks with finitely many files *)
Lemma exec_exists ops : forall s q, Model_Save.exists_ (exec ops s) q = true ->
  Model_Save.exists_ s q = true \/ exists o, In o ops /\ match o with Mkdir p => is_prefix q p = true | Create p => q = p | Append p _ => q = p end.
Proof.
  induction ops as [|o ops IH]; intros s q H; [now left|]. cbn [exec fold_left] in H. apply IH in H as [H|(o' & I & H)].
  - unfold Model_Save.exists_ in *. destruct o as [p|p|p t]; cbn [step dirs files] in H.
    + apply orb_prop in H as [H|H]; [apply orb_prop in H as [H|H]|].
      * left. now rewrite H.
      * right. exists (Mkdir p). split; [now left|exact H].
      * left. now rewrite H, orb_true_r.
    + destruct (path_eqb p q) eqn:X; [|now left]. apply path_eqb_eq in X. right. exists (Create p). split; [now left|now symmetry].
    + destruct (path_eqb p q) eqn:X; [|now left]. apply path_eqb_eq in X. right. exists (Append p t). split; [now left|now symmetry].
  - right. exists o'. split; [now right|exact H].
Qed.
Lemma pickled_exists parse dump L cts tmp datedir s q : Model_Save.exists_ (pickled_disk parse dump L cts tmp datedir s) q = true ->
  Model_Save.exists_ s q = true \/ is_prefix q tmp = true \/ In q (map (pickle_of tmp) cts).
Proof.
  intros H. apply exec_exists in H as [H|(o & I & H)]; [now left|]. right. apply in_flat_map in I as (c & Ic & I). unfold dump_ops in I.
  destruct (agg_coldtrap parse L s c datedir tmp); [|contradiction]. destruct I as [<-|[<-|[<-|[]]]]; [now left|right; subst q; now apply in_map..].
Qed.
Definition prefixes (p : path) : list path := map (fun k => firstn k p) (seq 0 (S (length p))).
Lemma prefixes_ok q p : is_prefix q p = true -> In q (prefixes p).
Proof.
  intros H. apply prefix_split in H as (r & ->). unfold prefixes. apply in_map_iff. exists (length q). split.
  - rewrite firstn_app, firstn_all, Nat.sub_diag. cbn. apply app_nil_r.
  - apply in_seq. rewrite app_length. lia.
Qed.
(** Listings and pickles of such a disk. *)
Lemma some_listings parse cts tmp datedir s cand : (forall q, Model_Save.exists_ s q = true -> is_prefix datedir q = true -> In q cand) ->
  is_prefix datedir tmp = true -> exists L dump load L1, lists L s datedir /\ pickles_back parse dump load L cts tmp datedir s /\
    lists L1 (pickled_disk parse dump L cts tmp datedir s) tmp.
Proof.
  intros H Tm. set (L := listing_of cand s).
  destruct (some_pickle (flat_map (fun c => match agg_coldtrap parse L s c datedir tmp with Ok d => [d] | Err _ => [] end) cts)) as (dump & load & B).
  exists L, dump, load. exists (listing_of (cand ++ prefixes tmp ++ map (pickle_of tmp) cts) (pickled_disk parse dump L cts tmp datedir s)).
  split; [apply listing_ok; auto|]. split.
  - intros c d Ic Hd. apply B. apply in_flat_map. exists c. split; [exact Ic|]. rewrite Hd. now left.
  - apply listing_ok. intros q X Pq _. apply pickled_exists in X as [X|[X|X]].
    + apply in_or_app. left. apply H; [exact X|]. eapply Proofs_Save.is_prefix_trans; eauto.
    + apply in_or_app. right. apply in_or_app. left. now apply prefixes_ok.
    + apply in_or_app. right. apply in_or_app. now right.
Qed.

(** ** Failures *)
Lemma mapM_err {A B} (f : A -> result B) l a : In a l -> (forall b, f a <> Ok b) -> exists e, mapM f l = Err e.
Proof.
  induction l as [|x l IH]; [contradiction|]. intros I N. cbn [mapM]. destruct (f x) as [b|e] eqn:Q; [|cbn; eauto]. cbn [bind].
  destruct I as [->|I]; [now apply N in Q|]. destruct (IH I N) as (e & ->). cbn. eauto.
Qed.
Lemma agg_fails parse L s c datedir tmp x p : lists L s datedir -> table_at s datedir tmp c x p ->
  (forall t, read_at parse s p = Ok t -> length (filter (fun l => String.eqb (l_label l) "Formation age") t) <> 1%nat) ->
  exists e, agg_coldtrap parse L s c datedir tmp = Err e.
Proof.
  intros HL Tb F. unfold agg_coldtrap. cbv zeta. fold (xs L datedir tmp s). eapply (mapM_err _ _ x).
  - eapply xs_in; [exact HL|]. destruct Tb as (A & B & _). auto.
  - fold (at_run L datedir c x). assert (Ip : In p (at_run L datedir c x)).
    { eapply at_run_in; [exact HL| |exact Tb]. eapply xs_in; [exact HL|]. destruct Tb as (A & B & _). auto. }
    intros b. destruct (mapM (read_at parse s) (at_run L datedir c x)) as [csvs|e] eqn:M; cbn [bind]; [|discriminate].
    assert (exists t, read_at parse s p = Ok t /\ In t csvs) as (t & Rt & It).
    { clear -M Ip. revert csvs M. induction (at_run L datedir c x) as [|q l IH]; intros csvs M; [contradiction|]. cbn [mapM] in M.
      destruct (read_at parse s q) as [t|] eqn:Q; cbn [bind] in M; [|discriminate]. destruct (mapM _ l) as [ts|]; cbn [bind] in M; [|discriminate].
      injection M as <-. destruct Ip as [->|Ip]; [exists t; split; [exact Q|now left]|]. destruct (IH Ip ts eq_refl) as (t' & A & B). exists t'. split; [exact A|now right]. }
    unfold agg_run. destruct (mapM_err (agg_csv (map snd agg_depths)) csvs t It) as (e & ->); [|discriminate].
    intros r X. pose proof (agg_error (map snd agg_depths) t) as A. rewrite X in A. destruct A as (_ & f & A). specialize (F t Rt). rewrite A in F. now apply F.
Qed.
Lemma aggregate_skips parse show dump load L L1 a c b tmp datedir s e : agg_coldtrap parse L s c datedir tmp = Err e ->
  aggregate parse show dump load L L1 (a ++ c :: b) tmp datedir s = aggregate parse show dump load L L1 (a ++ b) tmp datedir s.
Proof.
  intros H. unfold aggregate, pickled_disk. do 2 f_equal. rewrite !flat_map_app. cbn [flat_map]. unfold dump_ops at 2. now rewrite H.
Qed.
Lemma pickled_skips parse dump L a c b tmp datedir s e : agg_coldtrap parse L s c datedir tmp = Err e ->
  pickled_disk parse dump L (a ++ c :: b) tmp datedir s = pickled_disk parse dump L (a ++ b) tmp datedir s.
Proof. intros H. unfold pickled_disk. f_equal. rewrite !flat_map_app. cbn [flat_map]. unfold dump_ops at 2. now rewrite H. Qed.
