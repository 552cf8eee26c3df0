(** Properties of collected runs. *)
From Coq Require Import ZArith Bool Ascii String List Arith Permutation Reals Lra Lia.
From Verif Require Import Base Model_Path Model_Cfg Model_Strat Model_Plot Model_Save Model_Files Model_Cmd Model_Collect
  Spec_Csv Spec_Save Spec_Plot Spec_Run Spec_Outputs Spec_Files Spec_Cmd Spec_Collect
  Proofs_Base Proofs_Agg Proofs_Files Proofs_Cmd Proofs_Collect Proofs_Day Props_Cfg Props_Files Props_Cmd.
Import ListNotations.
Open Scope list_scope.

(** ** C86: collecting many runs *)

(** Aggregating the runs of a day finishes; what is read from the files it leaves has a row
    of totals for each table of each run, and a row for each layer, with the numbers of the
    tables to 32 bits; the number of runs that is counted is the largest number of tables of
    one cold trap and one run name.  No other file is changed. *)
Theorem C86_collected : forall parse show back dump load L L1 cts datedir tmp s,
  (forall x, read_as parse show back x) -> pickles_back parse dump load L cts tmp datedir s ->
  aggregable parse s datedir tmp cts ->
  lists L s datedir -> lists L1 (pickled_disk parse dump L cts tmp datedir s) tmp ->
  exists s' lay tot n found,
    aggregate parse show dump load L L1 cts tmp datedir s = Ok s' /\
    read_agg_dfs parse s' datedir = Ok (lay, tot, n) /\
    are_tables parse s datedir tmp cts found /\
    Permutation tot (map (fun '(c, x, _, table) => total_row back c x (totals_of table)) found) /\
    Permutation lay (flat_map (fun '(c, x, _, table) => map (layer_row back c x) table) found) /\
    (forall c x l, In c cts -> NoDup l -> (forall p, In p l -> table_at s datedir tmp c x p) -> (length l <= n)%nat) /\
    (n = 0%nat \/ exists c x l, In c cts /\ NoDup l /\ (forall p, In p l -> table_at s datedir tmp c x p) /\ length l = n) /\
    (forall p, ~ In p ([datedir ++ ["layers.csv"%string]; datedir ++ ["runs.csv"%string]] ++ map (pickle_of tmp) cts) ->
       files s' p = files s p) /\
    (forall q, dirs s' q = true <-> dirs s q = true \/ is_prefix q tmp = true).
Proof.
  intros parse show back dump load L L1 cts datedir tmp s U LD ((A1 & A2 & A3) & A4 & A5 & A6 & A7 & _) HL HL1.
  assert (H : aggregate parse show dump load L L1 cts tmp datedir s = Ok (s' parse show dump L L1 cts datedir tmp s)) by (eapply aggregate_done; eassumption).
  assert (H2 : read_agg_dfs parse (s' parse show dump L L1 cts datedir tmp s) datedir = Ok (flatten (frame_of back (of_blocks (blocks parse L L1 datedir tmp s lcols))),
    flatten (frame_of back (of_blocks (blocks parse L L1 datedir tmp s rcols))), frame_rows (of_blocks (blocks parse L L1 datedir tmp s rcols)))) by (eapply read_done; eassumption).
  eexists _, _, _, _, (found parse L L1 datedir tmp s). split; [exact H|]. split; [exact H2|].
  edestruct s1_files with (cts := cts) (s := s) as (F1 & F2 & F3); try eassumption.
  split; [|split; [|split; [|split; [|split; [|split]]]]].
  - split; [eapply found_nodup; eassumption|]. split; [eapply found_in; eassumption|].
    eapply Forall_impl; [|eapply found_read; eassumption]. cbn beta. tauto.
  - etransitivity; [eapply runs_rows; eassumption|]. apply perm_eq, map_ext. intros [[[c x] p] t]. reflexivity.
  - etransitivity; [eapply layers_rows; eassumption|]. apply perm_eq, flat_map_ext. intros [[[c x] p] t]. reflexivity.
  - eapply count_rows; eassumption.
  - eapply count_rows; eassumption.
  - intros p N. rewrite s'_files. rewrite !path_eqb_neq by (intros X; apply N; subst p; cbn [app In]; auto).
    apply F2. intros c I X. apply N. apply in_or_app. right. subst p. now apply in_map.
  - intros q. exact (F3 q).
Qed.

(** The totals of a table: all its ice, its largest depth, and, if no layer holds more ice
    than it is thick, the ice above each depth. *)
Theorem C86_totals : forall t, formed t -> exists total maxdepth amounts, totals_of t = (total, maxdepth, amounts) /\
  total = Rsum (map l_ice t) /\ In maxdepth (map l_depth t) /\ Forall (fun l => l_depth l <= maxdepth)%R t /\ length amounts = 5%nat /\
  (holds_ice t -> amounts = map (fun d => Rsum (map (ice_of_layer_above d) t)) [1; 3; 6; 10; 100]%R).
Proof.
  intros t F. destruct (totals_formed t F) as (am & _ & Q & Len). eexists _, _, am. split; [exact Q|]. split; [reflexivity|].
  assert (M : forall a l, (In (fold_right Rmax a l) l \/ fold_right Rmax a l = a) /\ Forall (fun x => x <= fold_right Rmax a l)%R l).
  { intros a l. induction l as [|x l [I J]]; [split; [now right|constructor]|]. cbn [fold_right]. split.
    - unfold Rmax at 1 3. destruct (Rle_dec x (fold_right Rmax a l)); [|left; now left]. destruct I as [I|I]; [left; now right|right; exact I].
    - constructor; [apply Rmax_l|]. eapply Forall_impl; [|exact J]. cbn beta. intros y Y. pose proof (Rmax_r x (fold_right Rmax a l)). lra. }
  destruct (M (hd 0%R (map l_depth t)) (map l_depth t)) as [M1 M2]. split; [|split; [|split; [exact Len|]]].
  - destruct M1 as [M1|M1]; [exact M1|]. rewrite M1. destruct F as (f & F & _). destruct t as [|l t]; [discriminate|]. now left.
  - now apply Forall_map in M2.
  - intros H. rewrite (holds_totals t F H) in Q. congruence.
Qed.

(** The rows of the tables that runs leave: all ice, as it is written, and the whole depth. *)
Theorem C86_shipped_totals : forall c table back, shipped_table c table -> (forall x y, x <= y -> back x <= back y)%R ->
  exists amounts, length amounts = 5%nat /\ totals_of (map (renumbered back) table) =
    (Rsum (map (fun l => back (l_ice l)) table), back (Rsum (map l_ice table) + Rsum (map l_ej table))%R, amounts).
Proof. intros c table back Sh Mo. destruct (renumbered_totals c table back Sh Mo) as (_ & am & Q & Len). eauto. Qed.

(** A second aggregation of a day, with the files of the first there, finds the same. *)
Theorem C86_again : forall parse show back dump load L L1 cts datedir s s' lay tot n dump2 load2 L2 L3,
  let tmp := datedir ++ ["tmp"%string] in
  (forall x, read_as parse show back x) -> aggregable parse s datedir tmp cts ->
  pickles_back parse dump load L cts tmp datedir s -> lists L s datedir -> lists L1 (pickled_disk parse dump L cts tmp datedir s) tmp ->
  aggregate parse show dump load L L1 cts tmp datedir s = Ok s' -> read_agg_dfs parse s' datedir = Ok (lay, tot, n) ->
  pickles_back parse dump2 load2 L2 cts tmp datedir s' -> lists L2 s' datedir -> lists L3 (pickled_disk parse dump2 L2 cts tmp datedir s') tmp ->
  exists s2 lay2 tot2, aggregate parse show dump2 load2 L2 L3 cts tmp datedir s' = Ok s2 /\
    read_agg_dfs parse s2 datedir = Ok (lay2, tot2, n) /\ Permutation lay2 lay /\ Permutation tot2 tot.
Proof.
  intros parse show back dump load L L1 cts datedir s s' lay tot n dump2 load2 L2 L3 tmp U A B HL HL1 H H2 B' HL2 HL3.
  destruct (C86_collected parse show back dump load L L1 cts datedir tmp s U B A HL HL1) as (t' & lay' & tot' & n' & found & Q1 & Q2 & F & P1 & P2 & C1 & C2 & Fs & Ds).
  assert (Inj : forall X (a b : X), Ok a = Ok b -> a = b) by congruence. rewrite H in Q1. apply Inj in Q1. subst t'. rewrite H2 in Q2. apply Inj in Q2. injection Q2 as <- <- <-.
  assert (Oth : forall x q, x <> "tmp"%string -> q <> [] -> files s' (datedir ++ x :: q) = files s (datedir ++ x :: q) /\ dirs s' (datedir ++ x :: q) = dirs s (datedir ++ x :: q)).
  { intros x q Nx Nq. split.
    - apply Fs. intros I. apply in_app_or in I as [[I|[I|[]]]|I].
      + apply app_inv_head in I. congruence.
      + apply app_inv_head in I. congruence.
      + apply in_map_iff in I as (c & I & _). unfold pickle_of, tmp in I. rewrite <- app_assoc in I. apply app_inv_head in I. cbn [app] in I. congruence.
    - destruct (dirs s (datedir ++ x :: q)) eqn:D; [apply Ds; now left|]. destruct (dirs s' (datedir ++ x :: q)) eqn:D'; [|reflexivity].
      apply Ds in D' as [D'|D']; [congruence|]. unfold tmp in D'. rewrite is_prefix_app_head in D'. cbn [is_prefix] in D'. apply andb_prop in D' as [D' _]. apply String.eqb_eq in D'. congruence. }
  assert (Ch : forall x, dirs s' (datedir ++ [x]) = true <-> dirs s (datedir ++ [x]) = true \/ x = "tmp"%string).
  { intros x. rewrite Ds. unfold tmp. rewrite is_prefix_app_head. cbn [is_prefix]. rewrite andb_true_r, String.eqb_eq. reflexivity. }
  assert (Tt : forall x, datedir ++ [x] <> tmp <-> x <> "tmp"%string).
  { intros x. unfold tmp. split; intros X Y; apply X; [now rewrite Y|]. apply app_inv_head in Y. congruence. }
  assert (Tb : forall c x p, table_at s' datedir tmp c x p <-> table_at s datedir tmp c x p).
  { intros c x p. unfold table_at. rewrite Ch, Tt. split.
    - intros (D & Nx & X & mid & Q). destruct D as [D|D]; [|contradiction]. split; [exact D|]. split; [exact Nx|]. split; [|eauto].
      subst p. destruct (Oth x (mid ++ [("strat_" ++ c ++ ".csv")%string]) Nx) as [O1 O2]; [now destruct mid|]. unfold Model_Save.exists_ in *. now rewrite O1, O2 in X.
    - intros (D & Nx & X & mid & Q). split; [now left|]. split; [exact Nx|]. split; [|eauto].
      subst p. destruct (Oth x (mid ++ [("strat_" ++ c ++ ".csv")%string]) Nx) as [O1 O2]; [now destruct mid|]. unfold Model_Save.exists_ in *. now rewrite O1, O2. }
  assert (Rd : forall c x p, table_at s datedir tmp c x p -> read_at parse s' p = read_at parse s p).
  { intros c x p (_ & Nx & _ & mid & ->). apply Tt in Nx. destruct (Oth x (mid ++ [("strat_" ++ c ++ ".csv")%string]) Nx) as [O1 _]; [now destruct mid|]. unfold read_at. now rewrite O1. }
  assert (A' : aggregable parse s' datedir tmp cts).
  { destruct A as (A1 & (A2 & A2') & (x0 & A3 & A3') & A4 & A5 & A6 & A7 & A8). split; [exact A1|]. split; [split|split; [|split; [|split; [|split; [|split]]]]].
    - intros mid x X M. unfold Model_Save.exists_ in X. apply orb_prop in X as [X|X].
      + apply Ds in X as [X|X]; [apply A2; [unfold Model_Save.exists_; now rewrite X|exact M]|]. apply is_prefix_longer in X. rewrite !app_length in X. cbn in X. lia.
      + destruct (in_dec (list_eq_dec string_dec) (tmp ++ mid ++ [x]) ([datedir ++ ["layers.csv"%string]; datedir ++ ["runs.csv"%string]] ++ map (pickle_of tmp) cts)) as [J|J].
        * apply in_app_or in J as [[J|[J|[]]]|J].
          -- unfold tmp in J. rewrite <- app_assoc in J. apply app_inv_head in J. discriminate.
          -- unfold tmp in J. rewrite <- app_assoc in J. apply app_inv_head in J. discriminate.
          -- apply in_map_iff in J as (c & J & Ic). unfold pickle_of in J. apply app_inv_head in J. destruct mid as [|m mid].
             ++ cbn [app] in J. injection J as <-. split; [reflexivity|]. apply in_map_iff. eauto.
             ++ exfalso. apply (f_equal (@length string)) in J. cbn in J. rewrite app_length in J. cbn in J. lia.
        * rewrite (Fs _ J) in X. apply A2; [unfold Model_Save.exists_; now rewrite X, orb_true_r|exact M].
    - intros c Ic. destruct (dirs s' (tmp ++ [(c ++ ".pickle")%string])) eqn:D; [|reflexivity]. apply Ds in D as [D|D]; [now rewrite A2' in D|].
      apply is_prefix_longer in D. rewrite app_length in D. cbn in D. lia.
    - exists x0. split; [apply Ch; now left|exact A3'].
    - intros x D. apply Ch in D as [D| ->]; [now apply A4|]. vm_compute. intuition discriminate.
    - intros c x p Ic T. apply Tb in T. rewrite (Rd c x p T). eauto.
    - intros p Pp. rewrite Fs; [now apply A6|]. intros I. apply in_app_or in I as [[I|[I|[]]]|I].
      + subst p. unfold tmp in Pp. rewrite is_prefix_app_head in Pp. discriminate.
      + subst p. unfold tmp in Pp. rewrite is_prefix_app_head in Pp. discriminate.
      + apply in_map_iff in I as (c & <- & _). apply is_prefix_longer in Pp. unfold pickle_of in Pp. rewrite app_length in Pp. cbn in Pp. lia.
    - destruct (dirs s' (datedir ++ ["layers.csv"%string])) eqn:D; [|reflexivity]. apply Ch in D as [D|D]; [congruence|discriminate].
    - destruct (dirs s' (datedir ++ ["runs.csv"%string])) eqn:D; [|reflexivity]. apply Ch in D as [D|D]; [congruence|discriminate]. }
  destruct (C86_collected parse show back dump2 load2 L2 L3 cts datedir tmp s' U B' A' HL2 HL3) as (s2 & lay2 & tot2 & n2 & found2 & Q1 & Q2 & F2 & P1' & P2' & C1' & C2' & _).
  exists s2, lay2, tot2. split; [exact Q1|].
  assert (n2 = n).
  { apply Nat.le_antisymm.
    - destruct C2' as [->|(c & x & l & Ic & Nl & T & <-)]; [lia|]. apply (C1 c x l Ic Nl). intros p I. now apply Tb, T.
    - destruct C2 as [->|(c & x & l & Ic & Nl & T & <-)]; [lia|]. apply (C1' c x l Ic Nl). intros p I. now apply Tb, T. }
  subst n2. split; [exact Q2|].
  assert (Pf : Permutation found2 found).
  { symmetry. apply (are_tables_perm _ _ _ _ _ _ _ _ _ _ F F2); [|intros; eapply Rd; eauto]. intros c x p. rewrite Tb. reflexivity. }
  split.
  - rewrite P2', P2. now apply Permutation_flat_map.
  - rewrite P1', P1. now apply Permutation_map.
Qed.

(** A cold trap with one table that cannot be read, or without exactly one row of its age,
    is left out with all its tables; the rest is aggregated as if it had not been asked for,
    without an error. *)
Theorem C86_failed : forall parse show dump load L L1 a c b datedir tmp s x p,
  lists L s datedir -> table_at s datedir tmp c x p ->
  (forall t, read_at parse s p = Ok t -> length (filter (fun l => String.eqb (l_label l) "Formation age") t) <> 1%nat) ->
  aggregate parse show dump load L L1 (a ++ c :: b) tmp datedir s = aggregate parse show dump load L L1 (a ++ b) tmp datedir s /\
  pickled_disk parse dump L (a ++ c :: b) tmp datedir s = pickled_disk parse dump L (a ++ b) tmp datedir s.
Proof.
  intros parse show dump load L L1 a c b datedir tmp s x p HL T F. destruct (agg_fails parse L s c datedir tmp x p HL T F) as (e & Q).
  split; [eapply aggregate_skips; eauto|eapply pickled_skips; eauto].
Qed.

(** From the commands of a day to the numbers of its figures.  Any number of commands in one
    working directory, with any seeds, some of them several times or resumed, and then the
    aggregation of that day: all finish; there is one row of totals for each cold trap and
    each seed, from the table that this seed gives on any disk; the number of runs is the
    number of seeds. *)
Theorem C86_campaign : forall P l s E0 zs parse back, lawful P -> l <> [] ->
  (forall E argv, In (E, argv) l -> ready E s /\ same_place E0 E /\ date_now E = date_now E0 /\ exists resume z, asks E argv resume z) ->
  NoDup zs -> (forall z, In z zs <-> exists E argv resume, In (E, argv) l /\ asks E argv resume z) ->
  (forall q, is_prefix (day_dir E0) q = true -> Model_Save.exists_ s q = false) ->
  (forall x, read_as parse (p_show P) back x) -> (forall x y, x <= y -> back x <= back y)%R ->
  exists s' table, commands P l s = Ok s' /\
    (forall z c, In z zs -> In c with_hop -> shipped_table c (table z c) /\
       forall E1 s1 argv1 s1', ready E1 s1 -> asks E1 argv1 false z -> command P E1 argv1 s1 = Ok s1' ->
       Model_Save.files s1' (run_dir E1 z ++ [table_name c]) = Some (strat_text (p_show P) (table z c))) /\
    forall show back32 dump load L L1, let day := day_dir E0 in let tmp := day ++ ["tmp"%string] in
    (forall x, read_as parse show back32 x) -> pickles_back parse dump load L with_hop tmp day s' ->
    lists L s' day -> lists L1 (pickled_disk parse dump L with_hop tmp day s') tmp ->
    exists s2 lay tot, aggregate parse show dump load L L1 with_hop tmp day s' = Ok s2 /\
      read_agg_dfs parse s2 day = Ok (lay, tot, length zs) /\
      Permutation tot (flat_map (fun c => map (fun z =>
        total_row back32 c "moonpies" (totals_of (map (renumbered back) (table z c)))) zs) with_hop) /\
      Permutation lay (flat_map (fun c => flat_map (fun z =>
        map (layer_row back32 c "moonpies") (map (renumbered back) (table z c))) zs) with_hop).
Proof.
  intros P l s E0 zs parse back Lw Nl H Nz Hz Fr U Mo.
  destruct (day_facts P l s E0 zs Lw Nl H Hz Fr) as (Zn & s' & E1 & Re & C & K1 & K2 & K3 & K4).
  exists s', (tbl P E1 s). split; [exact C|]. split.
  - intros z c Iz Ic. destruct (tbl_ok P E1 s z c Lw Re Ic) as [Sh Tx]. split; [exact Sh|]. intros E2 s2 argv2 s2' R2 A2 C2.
    destruct (command_run P E2 s2 argv2 false z Lw R2 A2) as (t' & _ & C' & _ & _ & _ & T); [discriminate|].
    assert (Inj : forall a b : fs, Ok a = Ok b -> a = b) by congruence. rewrite C2 in C'. apply Inj in C'. subst t'.
    rewrite (T (table_name c)) by now apply table_written. f_equal. now apply Tx.
  - intros show back32 dump load L L1 day tmp U2 B HL HL1.
    pose proof (day_aggregable P E0 E1 s s' zs parse back Lw Re U Mo Zn K1 K2 K3 K4) as A.
    destruct (C86_collected parse show back32 dump load L L1 with_hop day tmp s' U2 B A HL HL1) as (s2 & lay & tot & n & found & Q1 & Q2 & F & P1 & P2 & C1 & C2 & _).
    pose proof (day_are P E0 E1 s s' zs parse back Lw Re U Nz Zn K1 K2 K3) as G.
    assert (Pf : Permutation found (day_found P E0 E1 s zs back)) by (apply (are_tables_perm _ _ _ _ _ _ _ _ _ _ F G); intros; reflexivity).
    assert (n = length zs) by (eapply day_count; eauto). subst n.
    exists s2, lay, tot. split; [exact Q1|]. split; [exact Q2|]. split.
    + rewrite P1, Pf. apply perm_eq. unfold day_found. rewrite flat_map_concat_map, concat_map, map_map, <- flat_map_concat_map. apply flat_map_ext. intros c. rewrite map_map. reflexivity.
    + rewrite P2, Pf. apply perm_eq. unfold day_found. rewrite flat_map_flat. apply flat_map_ext. intros c. rewrite flat_map_maps. reflexivity.
Qed.

(** ** Concrete cases *)
(** A day with two seeds and a second kind of run, each with a table that has the row of age
    only.  One of the tables of another cold trap is empty. *)
Definition zero : R -> R := fun _ => 0%R.
Definition bare : list layer := [mk_layer 0 0 "Formation age" 0 0 None].
Definition bare_text : string := strat_text (fun _ => "0.0"%string) bare.
Definition day_files : list (path * string) :=
  [(["out"; "d"; "moonpies"; "00001"; "strat_Haworth.csv"], bare_text); (["out"; "d"; "moonpies"; "00002"; "strat_Haworth.csv"], bare_text);
   (["out"; "d"; "no_bsed"; "00001"; "strat_Haworth.csv"], bare_text); (["out"; "d"; "moonpies"; "00001"; "strat_Faustini.csv"], "")]%string.
Definition disk_of (l : list (path * string)) : fs :=
  mk_fs (fun q => existsb (fun f => is_prefix q (removelast (fst f))) l)
        (fun p => match find (fun f => path_eqb p (fst f)) l with Some f => Some (snd f) | None => None end).
Lemma disk_cand l q : Model_Save.exists_ (disk_of l) q = true -> In q (flat_map (fun f => prefixes (fst f)) l).
Proof.
  intros H. apply in_flat_map. unfold Model_Save.exists_ in H. apply orb_prop in H as [H|H]; cbn [disk_of dirs Model_Save.files] in H.
  - apply existsb_exists in H as (f & I & H). exists f. split; [exact I|]. apply prefixes_ok. apply prefix_split in H as (r & H).
    destruct f as [g t]. cbn [fst] in *. clear I. destruct g as [|a g]; [cbn in H; destruct q; [reflexivity|discriminate]|].
    rewrite (app_removelast_last ""%string (l := a :: g)) by discriminate. rewrite H, <- app_assoc. apply Proofs_Collect.prefix_app.
  - destruct (find _ l) as [f|] eqn:F; [|discriminate]. apply find_some in F as [I F]. apply path_eqb_eq in F. exists f. split; [exact I|]. apply prefixes_ok. rewrite F. apply Proofs_Save.is_prefix_refl.
Qed.
Definition dday : path := ["out"; "d"]%string.
Definition dtmp : path := ["out"; "d"; "tmp"]%string.
Lemma zero_read x : read_as zero (fun _ => "0.0"%string) zero x.
Proof.
  eexists. split; [|unfold zero; reflexivity]. exists [], 1%R, [0%nat], ["."%char], [0%nat], [], 1%R.
  split; [constructor|]. split; [repeat constructor; lia|]. split; [repeat constructor; lia|]. split; [left; discriminate|].
  split; [now left|]. split; [constructor|]. split; reflexivity.
Qed.
Lemma bare_read : read_strat zero bare_text = Ok bare.
Proof.
  unfold bare_text. rewrite (C84_table zero _ zero); [reflexivity|apply Forall_forall; intros; apply zero_read|].
  repeat constructor; [|vm_compute; intuition discriminate]. intros I. assert (X : existsb (String.eqb "Formation age") missing = true) by (apply existsb_exists; exists "Formation age"%string; split; [exact I|reflexivity]).
  vm_compute in X. discriminate.
Qed.

Lemma day_places q : Model_Save.exists_ (disk_of day_files) q = true -> In q (nodup (list_eq_dec string_dec) (flat_map (fun f => prefixes (fst f)) day_files)).
Proof. intros H. apply nodup_In. now apply disk_cand. Qed.
Lemma day_tables c x p : In c ["Haworth"; "Faustini"]%string ->
  (table_at (disk_of day_files) dday dtmp c x p <-> In (c, x, p) [("Haworth", "moonpies", ["out"; "d"; "moonpies"; "00001"; "strat_Haworth.csv"]);
    ("Haworth", "moonpies", ["out"; "d"; "moonpies"; "00002"; "strat_Haworth.csv"]); ("Haworth", "no_bsed", ["out"; "d"; "no_bsed"; "00001"; "strat_Haworth.csv"]);
    ("Faustini", "moonpies", ["out"; "d"; "moonpies"; "00001"; "strat_Faustini.csv"])]%string).
Proof.
  intros Ic. split.
  - intros (_ & _ & X & mid & Q). apply day_places in X. vm_compute in X. unfold dday in Q. cbn [app] in Q.
    repeat (destruct X as [<-|X]; [|]); try contradiction; try discriminate; injection Q as Q1 Q2; subst x;
      destruct mid as [|m [|m2 mid]]; try discriminate; cbn [app] in Q2; try (injection Q2 as Q2 Q3; subst);
      destruct Ic as [<-|[<-|[]]]; try discriminate; cbn [In]; auto 6.
    all: destruct mid as [|? [|]]; discriminate.
  - cbn [In]. intros [Q|[Q|[Q|[Q|[]]]]]; injection Q as <- <- <-; (split; [reflexivity|]); (split; [discriminate|]); (split; [reflexivity|]);
      [exists ["00001"%string]|exists ["00002"%string]|exists ["00001"%string]|exists ["00001"%string]]; reflexivity.
Qed.
Lemma bare_formed : formed bare.
Proof. exists (mk_layer 0 0 "Formation age" 0 0 None). split; [reflexivity|]. constructor; [apply Rle_refl|constructor]. Qed.
Lemma day_ok : aggregable zero (disk_of day_files) dday dtmp ["Haworth"%string].
Proof.
  split; [split; [discriminate|split; [repeat constructor; intros []|constructor; [|constructor]]]|].
  { split; [vm_compute; intuition discriminate|]. exists "H"%char, "aworth"%string. split; [reflexivity|]. vm_compute. lia. }
  split; [split|split; [|split; [|split; [|split; [|split; reflexivity]]]]].
  - intros mid x X _. apply day_places in X. vm_compute in X. repeat (destruct X as [X|X]; [discriminate|]). contradiction.
  - intros c _. reflexivity.
  - exists "moonpies"%string. split; [reflexivity|discriminate].
  - intros x D. assert (X : Model_Save.exists_ (disk_of day_files) (dday ++ [x]) = true) by (unfold Model_Save.exists_; now rewrite D).
    apply day_places in X. vm_compute in X. repeat (destruct X as [X|X]; [try discriminate; injection X as <-; vm_compute; intuition discriminate|]). contradiction.
  - intros c x p [<-|[]] T. apply day_tables in T; [|now left]. exists bare. split; [|apply bare_formed].
    cbn [In] in T. destruct T as [Q|[Q|[Q|[Q|[]]]]]; try discriminate; injection Q as <- <-; exact bare_read.
  - intros p X. apply prefixes_ok in X. vm_compute in X. repeat (destruct X as [<-|X]; [reflexivity|]). contradiction.
Qed.
(** The day is aggregated, once and again; Faustini is asked for and left out without an
    error. *)
Theorem C86_reported_refuted : exists parse show dump load L L1 cts datedir tmp s s' lay tot n c x p,
  lists L s datedir /\ In c cts /\ table_at s datedir tmp c x p /\ (forall t, read_at parse s p <> Ok t) /\
  aggregate parse show dump load L L1 cts tmp datedir s = Ok s' /\ read_agg_dfs parse s' datedir = Ok (lay, tot, n) /\
  length tot = 3%nat /\ Forall (fun r => fl_trap r <> c) tot.
Proof.
  destruct (some_listings zero ["Haworth"%string] dtmp dday (disk_of day_files) (flat_map (fun f => prefixes (fst f)) day_files)) as (L & dump & load & L1 & HL & B & HL1).
  { intros q X _. now apply disk_cand. }
  { reflexivity. }
  destruct (C86_collected zero (fun _ => "0.0"%string) zero dump load L L1 ["Haworth"%string] dday dtmp (disk_of day_files) zero_read B day_ok HL HL1)
    as (s' & lay & tot & n & found & Q1 & Q2 & F & P1 & _).
  assert (Tf : table_at (disk_of day_files) dday dtmp "Faustini" "moonpies" ["out"; "d"; "moonpies"; "00001"; "strat_Faustini.csv"]%string).
  { apply day_tables; [right; now left|]. cbn [In]. auto 6. }
  assert (Ef : forall t, read_at zero (disk_of day_files) ["out"; "d"; "moonpies"; "00001"; "strat_Faustini.csv"]%string <> Ok t) by (intros t; vm_compute; discriminate).
  destruct (C86_failed zero (fun _ => "0.0"%string) dump load L L1 ["Haworth"%string] "Faustini" [] dday dtmp (disk_of day_files) _ _ HL Tf) as [A _].
  { intros t X. now apply Ef in X. }
  exists zero, (fun _ => "0.0"%string), dump, load, L, L1, ["Haworth"; "Faustini"]%string, dday, dtmp, (disk_of day_files), s', lay, tot, n, "Faustini"%string, "moonpies"%string.
  eexists. split; [exact HL|]. split; [right; now left|]. split; [exact Tf|]. split; [exact Ef|]. split; [etransitivity; [exact A|exact Q1]|]. split; [exact Q2|].
  destruct F as (F1 & F2 & _). split.
  - rewrite (Permutation_length P1), map_length, <- (map_length fst).
    set (three := [("Haworth", "moonpies", ["out"; "d"; "moonpies"; "00001"; "strat_Haworth.csv"]);
      ("Haworth", "moonpies", ["out"; "d"; "moonpies"; "00002"; "strat_Haworth.csv"]); ("Haworth", "no_bsed", ["out"; "d"; "no_bsed"; "00001"; "strat_Haworth.csv"])]%string).
    assert (N : NoDup three) by (unfold three; repeat constructor; cbn [In]; intuition discriminate).
    apply Permutation_length with (l' := three). apply NoDup_Permutation; [exact F1|exact N|]. intros [[c x] p]. rewrite F2. unfold three. split.
    + intros [[<-|[]] T]. apply day_tables in T; [|now left]. cbn [In] in *. intuition discriminate.
    + intros I. assert (c = "Haworth"%string) by (cbn [In] in I; intuition congruence). subst c. split; [now left|]. apply day_tables; [now left|]. cbn [In] in *. tauto.
  - eapply Permutation_Forall; [symmetry; exact P1|]. apply Forall_forall. intros r I. apply in_map_iff in I as ([[[c x] p] t] & <- & I).
    assert (J : In (c, x, p) (map fst found)) by (apply in_map_iff; exists ((c, x, p), t); auto). apply F2 in J as [[<-|[]] _].
    unfold total_row. destruct (totals_of t) as [[? ?] ?]. discriminate.
Qed.
Example C86_case : exists dump load L L1 s' lay tot n dump2 load2 L2 L3 s2 lay2 tot2,
  aggregate zero (fun _ => "0.0"%string) dump load L L1 ["Haworth"%string] dtmp dday (disk_of day_files) = Ok s' /\
  read_agg_dfs zero s' dday = Ok (lay, tot, n) /\ In (total_row zero "Haworth" "no_bsed" (totals_of bare)) tot /\
  aggregate zero (fun _ => "0.0"%string) dump2 load2 L2 L3 ["Haworth"%string] dtmp dday s' = Ok s2 /\
  read_agg_dfs zero s2 dday = Ok (lay2, tot2, n) /\ Permutation tot2 tot.
Proof.
  destruct (some_listings zero ["Haworth"%string] dtmp dday (disk_of day_files) (flat_map (fun f => prefixes (fst f)) day_files)) as (L & dump & load & L1 & HL & B & HL1).
  { intros q X _. now apply disk_cand. }
  { reflexivity. }
  destruct (C86_collected zero (fun _ => "0.0"%string) zero dump load L L1 ["Haworth"%string] dday dtmp (disk_of day_files) zero_read B day_ok HL HL1)
    as (s' & lay & tot & n & found & Q1 & Q2 & (F1 & F2 & F3) & P1 & _ & _ & _ & Fs & Ds).
  destruct (some_listings zero ["Haworth"%string] dtmp dday s' (flat_map (fun f => prefixes (fst f)) day_files ++
    prefixes dtmp ++ [dday ++ ["layers.csv"%string]; dday ++ ["runs.csv"%string]] ++ map (pickle_of dtmp) ["Haworth"%string])) as (L2 & dump2 & load2 & L3 & HL2 & B2 & HL3).
  { intros q X _. apply in_or_app. destruct (in_dec (list_eq_dec string_dec) q ([dday ++ ["layers.csv"%string]; dday ++ ["runs.csv"%string]] ++ map (pickle_of dtmp) ["Haworth"%string])) as [J|J].
    - right. apply in_or_app. now right.
    - unfold Model_Save.exists_ in X. rewrite (Fs q J) in X. apply orb_prop in X as [X|X].
      + apply Ds in X as [X|X]; [|right; apply in_or_app; left; now apply prefixes_ok]. left. apply disk_cand. unfold Model_Save.exists_. now rewrite X.
      + left. apply disk_cand. unfold Model_Save.exists_. now rewrite X, orb_true_r. }
  { reflexivity. }
  destruct (C86_again zero (fun _ => "0.0"%string) zero dump load L L1 ["Haworth"%string] dday (disk_of day_files) s' lay tot n dump2 load2 L2 L3
    zero_read day_ok B HL HL1 Q1 Q2 B2 HL2 HL3) as (s2 & lay2 & tot2 & A1 & A2 & _ & A3).
  exists dump, load, L, L1, s', lay, tot, n, dump2, load2, L2, L3, s2, lay2, tot2. split; [exact Q1|]. split; [exact Q2|]. split; [|auto].
  assert (I : In ("Haworth", "no_bsed", ["out"; "d"; "no_bsed"; "00001"; "strat_Haworth.csv"])%string (map fst found)).
  { apply F2. split; [now left|]. apply day_tables; [now left|]. cbn [In]. auto. }
  apply in_map_iff in I as ([k t] & Q & I). cbn [fst] in Q. subst k. rewrite Forall_forall in F3. pose proof (F3 _ I) as Rt. cbn [fst snd] in Rt.
  assert (Bt : t = bare).
  { assert (X : read_at zero (disk_of day_files) ["out"; "d"; "no_bsed"; "00001"; "strat_Haworth.csv"]%string = Ok bare) by exact bare_read. congruence. }
  subst t. eapply Permutation_in; [symmetry; exact P1|]. apply in_map_iff. eexists. split; [|exact I]. reflexivity.
Qed.
(** A table with two metres of ice. *)
Example C86_totals_case : exists amounts, totals_of [mk_layer 0 0 "Formation age" 4 3 None; mk_layer 2 1 "Ice" 3 3 None]%string%R = (2, 3, amounts)%R /\ nth 0 amounts 5%R = 0%R.
Proof.
  set (t := [_; _]). assert (F : formed t).
  { exists (mk_layer 0 0 "Formation age" 4 3 None). split; [reflexivity|]. repeat constructor; cbn [l_time]; lra. }
  assert (H : holds_ice t) by (unfold t; cbn [holds_ice l_ice l_depth top_of]; lra).
  destruct (C86_totals t F) as (total & maxd & am & -> & -> & I & A & _ & B). specialize (B H). eexists. split.
  - f_equal. f_equal; [unfold t; cbn [map Rsum fold_right l_ice]; cbn; lra|]. unfold t in I. cbn [map l_depth In] in I. destruct I as [<-|[<-|[]]]; reflexivity.
  - rewrite B. unfold t. cbn [map nth]. unfold ice_of_layer_above. cbn [l_ice l_depth]. rewrite (Rmax_left 0 (1 - (3 - 2))) by lra. rewrite (Rmax_left 0 (1 - (3 - 0))) by lra.
    rewrite !Rmin_right by lra. cbn. lra.
Qed.
(** A day of the installation of C85 with the seeds 7 and 3, 7 twice. *)
Definition one_day : list (env * list string) :=
  [(machine [] "240101", ["7"]); (machine [] "240101", ["3"]); (machine [] "240101", ["--resume"; "7"])]%string.
Example C86_campaign_case : exists s' show dump load L L1 s2 lay tot,
  let day := ["work"; "out"; "240101"]%string in
  commands libraries0 one_day installed0 = Ok s' /\
  aggregate zero show dump load L L1 with_hop (day ++ ["tmp"%string]) day s' = Ok s2 /\ read_agg_dfs zero s2 day = Ok (lay, tot, 2%nat) /\ tot <> [].
Proof.
  assert (R0 : ready (machine [] "240101") installed0) by (apply ready0; [reflexivity..|now apply day_plain]).
  assert (A7 : asks (machine [] "240101") ["7"%string] false 7) by (apply (asks0 "240101" 7 "7"); [auto|reflexivity|lia]).
  assert (A3 : asks (machine [] "240101") ["3"%string] false 3) by (apply (asks0 "240101" 3 "3"); [auto|reflexivity|lia]).
  assert (A7' : asks (machine [] "240101") ["--resume"; "7"]%string true 7) by (apply (asks0 "240101" 7 "7"); [auto|reflexivity|lia]).
  assert (H1 : forall E argv, In (E, argv) one_day -> ready E installed0 /\ same_place (machine [] "240101") E /\ date_now E = date_now (machine [] "240101") /\
    exists resume z, asks E argv resume z).
  { intros E argv [I|[I|[I|[]]]]; injection I as <- <-; (split; [exact R0|]); (split; [split; reflexivity|]); (split; [reflexivity|]); eauto. }
  assert (H2 : forall z, In z [7; 3]%Z <-> exists E argv resume, In (E, argv) one_day /\ asks E argv resume z).
  { intros z. split.
    - intros [<-|[<-|[]]]; [exists (machine [] "240101"), ["7"%string], false|exists (machine [] "240101"), ["3"%string], false]; (split; [cbn [one_day In]; auto|assumption]).
    - intros (E & argv & r & [I|[I|[I|[]]]] & A); injection I as <- <-.
      + destruct (asks_unique _ _ _ _ _ _ A7 A) as [_ ->]. now left.
      + destruct (asks_unique _ _ _ _ _ _ A3 A) as [_ ->]. right. now left.
      + destruct (asks_unique _ _ _ _ _ _ A7' A) as [_ ->]. now left. }
  assert (H3 : forall q, is_prefix (day_dir (machine [] "240101")) q = true -> Model_Save.exists_ installed0 q = false).
  { intros q X. apply prefix_split in X as (r & ->). change (day_dir (machine [] "240101") ++ r) with ("work"%string :: "out"%string :: "240101"%string :: r).
    unfold Model_Save.exists_. rewrite work_files. reflexivity. }
  assert (U : forall x, read_as zero (p_show libraries0) zero x) by exact zero_read.
  assert (Nz : NoDup [7; 3]%Z) by (repeat constructor; cbn [In]; intuition discriminate).
  destruct (day_facts libraries0 one_day installed0 (machine [] "240101") [7; 3]%Z lawful0 ltac:(discriminate) H1 H2 H3) as (_ & t' & E1 & _ & C & _ & K2 & K3 & _).
  destruct (C86_campaign libraries0 one_day installed0 (machine [] "240101") [7; 3]%Z zero zero lawful0 ltac:(discriminate) H1 Nz H2 H3 U) as (s' & table & C' & _ & G).
  { intros. apply Rle_refl. }
  assert (Inj : forall a b : fs, Ok a = Ok b -> a = b) by congruence. rewrite C in C'. apply Inj in C'. subst t'.
  destruct (some_listings zero with_hop (day_dir (machine [] "240101") ++ ["tmp"%string]) (day_dir (machine [] "240101")) s'
    (flat_map (fun z => prefixes (run_dir (machine [] "240101") z) ++ map (fun x => run_dir (machine [] "240101") z ++ [x]) written) [7; 3]%Z)) as (L & dump & load & L1 & HL & B & HL1).
  { intros q X Pq. apply in_flat_map. unfold Model_Save.exists_ in X. apply orb_prop in X as [X|X].
    - apply K3 in X as (z & Iz & X); [|exact Pq]. exists z. split; [exact Iz|]. apply in_or_app. left. now apply prefixes_ok.
    - destruct (K2 q Pq) as (z & x & Iz & Ix & ->); [destruct (Model_Save.files s' q); discriminate|]. exists z. split; [exact Iz|]. apply in_or_app. right. apply in_map_iff. eauto. }
  { apply Proofs_Collect.prefix_app. }
  destruct (G (fun _ => "0.0"%string) zero dump load L L1 zero_read B HL HL1) as (s2 & lay & tot & Q1 & Q2 & P1 & _).
  exists s', (fun _ => "0.0"%string), dump, load, L, L1, s2, lay, tot. split; [exact C|]. split; [exact Q1|]. split; [exact Q2|].
  intros ->. apply Permutation_nil in P1. discriminate.
Qed.

Print Assumptions C86_collected.
Print Assumptions C86_totals.
Print Assumptions C86_shipped_totals.
Print Assumptions C86_again.
Print Assumptions C86_failed.
Print Assumptions C86_campaign.
Print Assumptions C86_reported_refuted.
