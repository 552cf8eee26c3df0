(** Proofs about the stratigraphy figure. *)
From Coq Require Import String Ascii List ZArith Reals Bool Lra Lia Sorted Permutation.
From Verif Require Import Base Model_Path Model_Strat Model_Plot Model_Figure Spec_Plot Spec_Figure
  Proofs_Base Proofs_Plot Proofs_Ranges.
Import ListNotations.
Open Scope R_scope.
Open Scope list_scope.

(** * Sorting texts *)
Lemma insert_str_In x l z : In z (insert_str x l) <-> z = x \/ In z l.
Proof.
  induction l as [|y l IH]; cbn; [intuition|]. destruct (String.leb x y); cbn; [intuition|].
  rewrite IH. intuition.
Qed.
Lemma sort_str_In l z : In z (sort_str l) <-> In z l.
Proof. induction l as [|y l IH]; cbn; [tauto|]. rewrite insert_str_In, IH. intuition. Qed.

Lemma ascii_compare_eq a b : Ascii.compare a b = Eq -> a = b.
Proof.
  unfold Ascii.compare. intros H. apply N.compare_eq in H.
  rewrite <- (ascii_N_embedding a), <- (ascii_N_embedding b), H. reflexivity.
Qed.
Lemma str_compare_trans a : forall b c, String.compare a b <> Gt -> String.compare b c <> Gt -> String.compare a c <> Gt.
Proof.
  induction a as [|x a IH]; intros [|y b] [|z c]; cbn [String.compare]; try congruence.
  destruct (Ascii.compare x y) eqn:E; [| |congruence].
  - apply ascii_compare_eq in E. subst y. destruct (Ascii.compare x z); try congruence. apply IH.
  - intros _. destruct (Ascii.compare y z) eqn:F; [| |congruence].
    + apply ascii_compare_eq in F. subst z. rewrite E. congruence.
    + intros _. unfold Ascii.compare in *. apply N.compare_lt_iff in E, F.
      pose proof (N.lt_trans _ _ _ E F) as L. apply N.compare_lt_iff in L. rewrite L. congruence.
Qed.
Lemma leb_trans a b c : String.leb a b = true -> String.leb b c = true -> String.leb a c = true.
Proof.
  unfold String.leb. intros H1 H2.
  assert (G : String.compare a c <> Gt).
  { apply (str_compare_trans a b c); [destruct (String.compare a b)|destruct (String.compare b c)]; congruence. }
  destruct (String.compare a c); congruence.
Qed.

Definition sleb a b := String.leb a b = true.
Lemma insert_str_sorted x l : StronglySorted sleb l -> StronglySorted sleb (insert_str x l).
Proof.
  induction 1 as [|y l S IH F]; cbn; [repeat constructor|].
  destruct (String.leb x y) eqn:E.
  - constructor; [now constructor|]. constructor; auto.
    eapply Forall_impl; [|exact F]. intros z Hz. exact (leb_trans _ _ _ E Hz).
  - constructor; auto. apply Forall_forall. intros z Hz. apply insert_str_In in Hz as [->|Hz].
    + destruct (String.leb_total x y) as [T|T]; [congruence|exact T].
    + rewrite Forall_forall in F. auto.
Qed.
Lemma sort_str_sorted l : StronglySorted sleb (sort_str l).
Proof. induction l; cbn; [constructor|]. now apply insert_str_sorted. Qed.
Lemma insert_str_NoDup x l : ~ In x l -> NoDup l -> NoDup (insert_str x l).
Proof.
  induction l as [|y l IH]; intros N D; cbn; [repeat constructor; auto|].
  destruct (String.leb x y); [constructor; auto|]. inversion D; subst. constructor.
  - rewrite insert_str_In. intros [->|H]; [apply N; now left|auto].
  - apply IH; auto. intros H. apply N. now right.
Qed.
Lemma sort_str_NoDup l : NoDup l -> NoDup (sort_str l).
Proof. induction 1; cbn; [constructor|]. apply insert_str_NoDup; auto. now rewrite sort_str_In. Qed.

(** * The order of the labels *)
Definition uniq_labels (labels : list string) : list string :=
  let uniq := sort_str (nodup string_dec
                (filter (fun l => negb (String.eqb l "Ice" || String.eqb l "Other")) labels)) in
  let uniq := if existsb (String.eqb "Ice") labels then "Ice"%string :: uniq else uniq in
  if existsb (String.eqb "Other") labels then uniq ++ ["Other"%string] else uniq.

Lemma existsb_str x l : existsb (String.eqb x) l = true <-> In x l.
Proof.
  rewrite existsb_exists. split.
  - intros (y & H & E). apply String.eqb_eq in E. now subst.
  - intros H. exists x. split; auto. apply String.eqb_refl.
Qed.

Lemma uniq_shape labels : exists mid,
  uniq_labels labels = (if existsb (String.eqb "Ice") labels then ["Ice"%string] else []) ++ mid ++
                       (if existsb (String.eqb "Other") labels then ["Other"%string] else []) /\
  NoDup mid /\ StronglySorted sleb mid /\
  forall l, In l mid <-> In l labels /\ l <> "Ice"%string /\ l <> "Other"%string.
Proof.
  unfold uniq_labels. eexists. split.
  - destruct (existsb (String.eqb "Ice") labels), (existsb (String.eqb "Other") labels); cbn [app]; try reflexivity;
      now rewrite app_nil_r.
  - split; [apply sort_str_NoDup, NoDup_nodup|]. split; [apply sort_str_sorted|].
    intros l. rewrite sort_str_In, nodup_In, filter_In, negb_true_iff, orb_false_iff, !String.eqb_neq. tauto.
Qed.

Lemma uniq_In labels l : In l (uniq_labels labels) <-> In l labels.
Proof.
  destruct (uniq_shape labels) as (mid & -> & _ & _ & H). rewrite !in_app_iff, H.
  destruct (existsb (String.eqb "Ice") labels) eqn:E, (existsb (String.eqb "Other") labels) eqn:F;
    try (apply existsb_str in E); try (apply existsb_str in F);
    assert (E' : existsb (String.eqb "Ice") labels = false -> ~ In "Ice"%string labels)
      by (intros X Y; apply existsb_str in Y; congruence);
    assert (F' : existsb (String.eqb "Other") labels = false -> ~ In "Other"%string labels)
      by (intros X Y; apply existsb_str in Y; congruence);
    destruct (string_dec l "Ice") as [X|X], (string_dec l "Other") as [Y|Y]; try subst l; cbn [In]; intuition congruence.
Qed.
Lemma uniq_NoDup labels : NoDup (uniq_labels labels).
Proof.
  destruct (uniq_shape labels) as (mid & -> & D & _ & H).
  assert (I : ~ In "Ice"%string mid) by (rewrite H; tauto).
  assert (O : ~ In "Other"%string mid) by (rewrite H; tauto).
  assert (T : NoDup (mid ++ (if existsb (String.eqb "Other") labels then ["Other"%string] else []))).
  { destruct (existsb (String.eqb "Other") labels); [|now rewrite app_nil_r].
    apply (Permutation_NoDup (l := "Other"%string :: mid)); [apply Permutation_cons_append|now constructor]. }
  destruct (existsb (String.eqb "Ice") labels); [|exact T]. cbn [app]. constructor; auto.
  rewrite in_app_iff. destruct (existsb (String.eqb "Other") labels); cbn; intuition discriminate.
Qed.

(** * Handles *)
Lemma enum_In {A} (l : list A) i x : In (i, x) (enum l) <-> nth_error l i = Some x.
Proof.
  unfold enum. enough (G : forall n, In (i, x) (combine (seq n (length l)) l) <-> (n <= i)%nat /\ nth_error l (i - n) = Some x).
  { rewrite (G O), Nat.sub_0_r. split; [tauto|]. intros; split; [lia|auto]. }
  induction l as [|y l IH]; intros n; cbn [length seq combine In].
  - split; [tauto|]. intros [_ H]. destruct (i - n)%nat; discriminate.
  - rewrite IH. split.
    + intros [[= -> ->]|[L H]].
      * rewrite Nat.sub_diag. auto.
      * split; [lia|]. replace (i - n)%nat with (S (i - S n)) by lia. exact H.
    + intros [L H]. destruct (Nat.eq_dec n i) as [->|N].
      * rewrite Nat.sub_diag in H. injection H as ->. now left.
      * right. split; [lia|]. replace (i - n)%nat with (S (i - S n)) in H by lia. exact H.
Qed.
Lemma enum_sorted {A} (l : list A) : StronglySorted (fun a b => (fst a < fst b)%nat) (enum l).
Proof.
  unfold enum. generalize 0%nat. induction l as [|y l IH]; intros n; cbn [length seq combine]; constructor; auto.
  apply Forall_forall. intros [i x] H. apply in_combine_l, in_seq in H. cbn. lia.
Qed.

Lemma in_legend_public l : in_legend l = true <-> public l.
Proof.
  unfold public. destruct l as [|c l]; cbn.
  - split; [discriminate|]. intros [H _]. congruence.
  - rewrite negb_true_iff, Ascii.eqb_neq. split.
    + intros H. split; [discriminate|]. intros r [= E]. auto.
    + intros [_ H] ->. exact (H l eq_refl).
Qed.

Lemma handles_In axes p k l : In (p, k, l) (handles axes) <->
  public l /\ exists a, artist_at axes p k = Some a /\ a_label a = l.
Proof.
  unfold handles, artist_at. rewrite in_flat_map. split.
  - intros ((p' & arts) & H1 & H2). apply in_flat_map in H2 as ((k' & a) & H2 & H3).
    apply enum_In in H1, H2. destruct (in_legend (a_label a)) eqn:E; [|contradiction].
    destruct H3 as [[= -> -> <-]|[]]. rewrite H1. split; [now apply in_legend_public|]. eauto.
  - intros [P (a & H & <-)]. destruct (nth_error axes p) as [arts|] eqn:E; [|discriminate].
    exists (p, arts). split; [now apply enum_In|]. apply in_flat_map. exists (k, a). split; [now apply enum_In|].
    apply in_legend_public in P. rewrite P. now left.
Qed.

Lemma SS_flat_map {A B} (f : A -> list B) (Q : A -> A -> Prop) (Q' : B -> B -> Prop) l :
  StronglySorted Q l -> (forall a, StronglySorted Q' (f a)) ->
  (forall a a' b b', Q a a' -> In b (f a) -> In b' (f a') -> Q' b b') -> StronglySorted Q' (flat_map f l).
Proof.
  intros S F G. induction S as [|a l S IH H]; cbn; [constructor|]. apply SS_app; auto.
  apply Forall_forall. intros b Hb. apply Forall_forall. intros b' Hb'. apply in_flat_map in Hb' as (a' & H1 & H2).
  rewrite Forall_forall in H. eauto.
Qed.

Lemma handles_sorted axes : StronglySorted (fun a b : nat * nat * string => drawn_before (fst a) (fst b)) (handles axes).
Proof.
  unfold handles. eapply SS_flat_map; [apply enum_sorted| |].
  - intros [p arts]. eapply SS_flat_map; [apply enum_sorted| |].
    + intros [k a]. destruct (in_legend (a_label a)); repeat constructor.
    + intros [k a] [k' a'] [[? ?] ?] [[? ?] ?] L H1 H2.
      destruct (in_legend (a_label a)); [|contradiction]. destruct (in_legend (a_label a')); [|contradiction].
      destruct H1 as [[= <- <- <-]|[]], H2 as [[= <- <- <-]|[]]. cbn in *. right. auto.
  - intros [p arts] [p' arts'] [[? ?] ?] [[? ?] ?] L H1 H2.
    apply in_flat_map in H1 as ([? a] & _ & H1), H2 as ([? a'] & _ & H2).
    destruct (in_legend (a_label a)); [|contradiction]. destruct (in_legend (a_label a')); [|contradiction].
    destruct H1 as [[= <- <- <-]|[]], H2 as [[= <- <- <-]|[]]. left. exact L.
Qed.

Lemma index_of_ok l x : In x l -> exists i, index_of l x = Ok i /\ nth_error l i = Some x /\
  forall j, nth_error l j = Some x -> (i <= j)%nat.
Proof.
  induction l as [|y l IH]; intros H; [contradiction|]. cbn [index_of].
  destruct (String.eqb_spec x y) as [->|N].
  - exists O. split; auto. split; auto. intros; lia.
  - destruct H as [->|H]; [congruence|]. destruct (IH H) as (i & -> & E & F). exists (S i). split; auto. split; auto.
    intros [|j] Hj; cbn in Hj; [congruence|]. specialize (F j Hj). lia.
Qed.

(** * Recolouring *)
Lemma nth_upd {A} (l : list A) i j x : nth_error (upd l i x) j =
  if Nat.eqb i j then (if Nat.ltb i (length l) then Some x else None) else nth_error l j.
Proof.
  revert i j. induction l as [|y l IH]; intros [|i] [|j]; cbn [upd length nth_error]; auto.
  - change (Nat.eqb (S i) (S j)) with (Nat.eqb i j). destruct (Nat.eqb i j); reflexivity.
  - rewrite IH. reflexivity.
Qed.

Definition same_shape (axes axes' : list (list artist)) : Prop := map (@length artist) axes = map (@length artist) axes'.
Lemma upd_map {A B} (f : A -> B) l i x y : nth_error l i = Some y -> f x = f y -> map f (upd l i x) = map f l.
Proof.
  revert i. induction l as [|z l IH]; intros [|i] H E; cbn in *; try congruence. f_equal. auto.
Qed.

Definition recoloured (a : artist) (c : option R) : artist := mk_artist (a_label a) (a_where a) c.
Lemma set_colour_at axes p k c a p' k' : artist_at axes p k = Some a ->
  artist_at (set_colour axes p k c) p' k' =
  if (Nat.eqb p p' && Nat.eqb k k')%bool then Some (recoloured a c) else artist_at axes p' k'.
Proof.
  unfold artist_at, set_colour. intros H. destruct (nth_error axes p) as [arts|] eqn:E; [|discriminate].
  rewrite H, nth_upd.
  assert (L : (p < length axes)%nat) by (apply nth_error_Some; congruence).
  apply Nat.ltb_lt in L. rewrite L.
  destruct (Nat.eqb_spec p p') as [<-|N]; cbn [andb]; [|reflexivity].
  rewrite nth_upd. assert (L' : (k < length arts)%nat) by (apply nth_error_Some; congruence).
  apply Nat.ltb_lt in L'. rewrite L', E. destruct (Nat.eqb k k'); reflexivity.
Qed.
Lemma set_colour_shape axes p k c : same_shape (set_colour axes p k c) axes.
Proof.
  unfold same_shape, set_colour. destruct (nth_error axes p) as [arts|] eqn:E; auto.
  destruct (nth_error arts k) eqn:F; auto. eapply upd_map; [exact E|]. apply upd_length.
Qed.

(** * The legend *)
Definition entry_ok (axes : list (list artist)) (e : string * (nat * nat)) : Prop :=
  let '(l, (p, k)) := e in
  (exists a, artist_at axes p k = Some a /\ a_label a = l) /\
  forall p' k' a, artist_at axes p' k' = Some a -> a_label a = l -> ~ drawn_before (p', k') (p, k).

Lemma find_app {A} (f : A -> bool) l l' : find f (l ++ l') = match find f l with Some x => Some x | None => find f l' end.
Proof. induction l as [|x l IH]; cbn; auto. destruct (f x); auto. Qed.

Lemma legend_fold axes u : forall (es : list (string * (nat * nat))) axes0,
  (forall l, In l u -> In l (map snd (handles axes))) ->
  Forall (entry_ok axes) es -> same_shape axes0 axes ->
  NoDup (map fst es ++ u) ->
  (forall p k, artist_at axes0 p k =
     match find (fun e => Nat.eqb (fst (snd e)) p && Nat.eqb (snd (snd e)) k)%bool es with
     | Some (l, _) => option_map (fun a => recoloured a (Some (colour_of l))) (artist_at axes p k)
     | None => artist_at axes p k
     end) ->
  exists es' axes',
    fold_left (fun acc label =>
      let* (entries, axes0) := acc in
      let* i := index_of (map snd (handles axes)) label in
      let* h := get (handles axes) i in
      let '(p, k, _) := h in
      let c := if String.eqb label "Ice" then 100 else 0 in
      Ok (entries ++ [(label, (p, k))], set_colour axes0 p k (Some c))) u (Ok (es, axes0)) = Ok (es', axes') /\
    map fst es' = map fst es ++ u /\ Forall (entry_ok axes) es' /\ same_shape axes' axes /\
    (forall p k, artist_at axes' p k =
       match find (fun e => Nat.eqb (fst (snd e)) p && Nat.eqb (snd (snd e)) k)%bool es' with
       | Some (l, _) => option_map (fun a => recoloured a (Some (colour_of l))) (artist_at axes p k)
       | None => artist_at axes p k
       end).
Proof.
  induction u as [|l u IH]; intros es axes0 U F Sh D A; cbn [fold_left].
  - exists es, axes0. rewrite app_nil_r. auto.
  - destruct (index_of_ok _ l (U l (or_introl eq_refl))) as (i & Ei & Ni & Fi). cbn [bind]. rewrite Ei. cbn [bind].
    rewrite nth_error_map in Ni. destruct (nth_error (handles axes) i) as [[[p k] l']|] eqn:Eh; [|discriminate].
    injection Ni as ->. rewrite (proj2 (get_Ok _ _ _) Eh). cbn [bind].
    assert (Hin := nth_error_In _ _ Eh). apply handles_In in Hin as (Pl & a & Aa & La).
    assert (NW : find (fun e => Nat.eqb (fst (snd e)) p && Nat.eqb (snd (snd e)) k)%bool es = None).
    { destruct (find _ es) as [[l2 [p2 k2]]|] eqn:Ef; auto. exfalso. apply find_some in Ef as [E1' E2'].
      cbn in E2'. apply andb_true_iff in E2' as [X Y]. apply Nat.eqb_eq in X, Y. subst p2 k2.
      rewrite Forall_forall in F. specialize (F _ E1'). cbn in F. destruct F as [(a2 & A2 & L2) _].
      assert (X2 : l2 = l) by congruence. rewrite X2 in E1'.
      apply NoDup_remove_2 in D. apply D. apply in_or_app. left. apply in_map_iff. exists (l, (p, k)). split; [reflexivity|exact E1']. }
    destruct (IH (es ++ [(l, (p, k))]) (set_colour axes0 p k (Some (colour_of l)))) as (es' & axes' & E' & M' & F' & S' & A').
    + intros x Hx. apply U. now right.
    + apply Forall_app. split; auto. constructor; [|constructor]. cbn. split; [eauto|].
      intros p' k' a' Ha' La' B.
      assert (Hin' : In (p', k', l) (handles axes)) by (apply handles_In; split; eauto).
      apply In_nth_error in Hin' as (j & Hj).
      assert (L : (i <= j)%nat) by (apply Fi; rewrite nth_error_map, Hj; reflexivity).
      pose proof (handles_sorted axes) as SS.
      assert (Q : i = j \/ drawn_before (p, k) (p', k')).
      { destruct (Nat.eq_dec i j) as [|N]; auto. right.
        clear -SS Eh Hj L N. revert i j Eh Hj L N. induction SS as [|x r S IHs G]; intros [|i] [|j] Eh Hj L N; cbn in *; try discriminate; try lia.
        - injection Eh as ->. rewrite Forall_forall in G. exact (G _ (nth_error_In _ _ Hj)).
        - apply (IHs i j); auto; lia. }
      unfold drawn_before in *. cbn in *. destruct Q as [<-|Q]; [|lia]. rewrite Eh in Hj. injection Hj as -> ->. lia.
    + unfold same_shape in *. etransitivity; [apply set_colour_shape|exact Sh].
    + rewrite map_app, <- app_assoc. exact D.
    + intros p' k'. assert (A0 : artist_at axes0 p k = Some a) by (rewrite A, NW; exact Aa).
      rewrite (set_colour_at _ _ _ _ a) by exact A0.
      rewrite find_app. cbn [find fst snd].
      assert (Z : forall o : option (string * (nat * nat)), match o with Some x => Some x | None => None end = o)
        by (intros []; reflexivity).
      destruct (Nat.eqb_spec p p') as [<-|N]; cbn [andb].
      * destruct (Nat.eqb_spec k k') as [<-|N].
        -- rewrite NW, Aa. reflexivity.
        -- rewrite A, Z. reflexivity.
      * rewrite A, Z. reflexivity.
    + exists es', axes'. split; [exact E'|]. split; [|auto]. rewrite M', map_app, <- app_assoc. reflexivity.
Qed.

Lemma legend_ok axes : exists es axes', strat_legend axes = Ok (es, axes') /\
  map fst es = uniq_labels (map snd (handles axes)) /\ Forall (entry_ok axes) es /\ same_shape axes' axes /\
  (forall p k, artist_at axes' p k =
     match find (fun e => Nat.eqb (fst (snd e)) p && Nat.eqb (snd (snd e)) k)%bool es with
     | Some (l, _) => option_map (fun a => recoloured a (Some (colour_of l))) (artist_at axes p k)
     | None => artist_at axes p k
     end).
Proof.
  apply (legend_fold axes (uniq_labels (map snd (handles axes))) [] axes).
  - intros l. apply uniq_In.
  - constructor.
  - reflexivity.
  - cbn. apply uniq_NoDup.
  - reflexivity.
Qed.

(** * What remains visible *)
Lemma painted_artists rows : painted (artists rows) = fills rows.
Proof.
  unfold painted, artists, fills. rewrite flat_map_concat_map, map_map, <- flat_map_concat_map.
  apply flat_map_ext. intros r. cbn [a_where a_colour].
  induction (combine rows (skipn 1 rows)) as [|[a b] l IH]; cbn [flat_map map]; [reflexivity|].
  rewrite map_app, IH. f_equal. destruct (_ && _)%bool; reflexivity.
Qed.

Lemma visible_cons a arts y : visible_at (painted (a :: arts)) y =
  match visible_at (painted arts) y with
  | Some c => Some c
  | None => if existsb (fun '(u, v) => Rltb u y && Rltb y v)%bool (a_where a) then Some (a_colour a) else None
  end.
Proof.
  rewrite !visible_lastopt. unfold painted at 1. cbn [flat_map]. fold (painted arts).
  rewrite filter_app, lastopt_app. destruct (lastopt (filter _ (painted arts))) as [x|]; [reflexivity|]. cbn [option_map].
  induction (a_where a) as [|[u v] l IH] using rev_ind; [reflexivity|].
  rewrite map_app, filter_app, lastopt_app, existsb_app. cbn [map filter existsb].
  destruct (Rltb u y && Rltb y v)%bool.
  - rewrite orb_true_r. reflexivity.
  - rewrite orb_false_r. cbn [lastopt rev hd_error]. exact IH.
Qed.

Lemma visible_covered arts b y : nth_error arts 0 = Some b ->
  existsb (fun '(u, v) => Rltb u y && Rltb y v)%bool (a_where b) = true -> visible_at (painted arts) y <> None.
Proof.
  destruct arts as [|b' arts]; [discriminate|]. intros [= ->] E. rewrite visible_cons, E.
  destruct (visible_at (painted arts) y); discriminate.
Qed.

Lemma hidden arts y : forall arts', length arts' = length arts ->
  (forall k a a', nth_error arts k = Some a -> nth_error arts' k = Some a' ->
     a_where a' = a_where a /\
     (a_colour a' = a_colour a \/ exists b, nth_error arts (S k) = Some b /\ a_where b = a_where a)) ->
  visible_at (painted arts') y = visible_at (painted arts) y.
Proof.
  induction arts as [|a arts IH]; intros [|a' arts'] L H; try discriminate; [reflexivity|].
  rewrite !visible_cons. rewrite (IH arts'); [|cbn in L; lia|].
  - destruct (H O a a' eq_refl eq_refl) as [W [C|(b & Hb & Wb)]].
    + now rewrite W, C.
    + rewrite W. destruct (existsb _ (a_where a)) eqn:E; [|reflexivity].
      destruct (visible_at (painted arts) y) eqn:V; [reflexivity|]. exfalso.
      apply (visible_covered arts b y); auto. now rewrite Wb.
  - intros k b b' Hb Hb'. exact (H (S k) b b' Hb Hb').
Qed.

Lemma artists_nth rows k : nth_error (artists rows) k = option_map (fun r => mk_artist (g_hatchlabel r)
    (flat_map (fun '(a, b) =>
      if String.eqb (g_hatch a) (g_hatch r) && String.eqb (g_hatch b) (g_hatch r)
      then [(l_depth (g_layer a), l_depth (g_layer b))] else []) (combine rows (skipn 1 rows)))
    (l_icepct (g_layer r))) (nth_error rows k).
Proof. unfold artists. apply nth_error_map. Qed.

(** Each artist of a plotted column is either not the first of its label or followed by one
    with the same stretches. *)
Lemma artists_paired by_depth by_diam hash cdf col out k a :
  sorts_by l_depth by_depth -> stacked col ->
  get_strat_col_ranges by_depth by_diam hash cdf col = Ok out ->
  nth_error (artists out) k = Some a ->
  (exists k' a', (k' < k)%nat /\ nth_error (artists out) k' = Some a' /\ a_label a' = a_label a) \/
  (exists b, nth_error (artists out) (S k) = Some b /\ a_where b = a_where a).
Proof.
  intros SD K E Ha. destruct (list_eq_dec Nat.eq_dec [] (map (fun _ => O) col)) as [Z|Z].
  { destruct col; [|discriminate]. cbn in E. injection E as <-. destruct k; discriminate. }
  assert (NE : col <> []) by (intros ->; apply Z; reflexivity).
  destruct (ranges_map _ _ _ _ _ _ SD K NE E) as (H & _ & Eo).
  set (c := rev col) in *.
  assert (Lc : length c = length col) by apply rev_length.
  assert (Lo : length out = (2 * length c + 1)%nat) by (rewrite Eo, map_length, all_spans_length; reflexivity).
  assert (Lk : (k < 2 * length c + 1)%nat).
  { rewrite artists_nth in Ha. rewrite <- Lo. apply nth_error_Some. destruct (nth_error out k); discriminate. }
  assert (LAB : forall r r' j j', nth_error out j = Some r -> nth_error out j' = Some r' ->
            l_label (g_layer r) = l_label (g_layer r') -> g_hatch r = g_hatch r' /\ g_hatchlabel r = g_hatchlabel r').
  { intros r r' j j' Hr Hr' El. rewrite Eo, nth_error_map in Hr, Hr'.
    destruct (nth_error (all_spans c) j) as [x|]; [|discriminate]. injection Hr as <-.
    destruct (nth_error (all_spans c) j') as [x'|]; [|discriminate]. injection Hr' as <-.
    cbn [g_layer g_hatch g_hatchlabel] in *. now rewrite El. }
  assert (ROW : forall i, (i < length c)%nat -> exists r r' , nth_error out (2 * i) = Some r /\ nth_error out (2 * i + 1) = Some r' /\
            l_label (g_layer r) = l_label (g_layer r')).
  { intros i Li. destruct (nth_error c i) as [l|] eqn:El; [|apply nth_error_None in El; lia].
    destruct (all_spans_nth c i l El) as [A B]. rewrite Eo. eexists _, _.
    split; [exact (map_nth_error _ _ _ A)|]. split; [exact (map_nth_error _ _ _ B)|]. reflexivity. }
  assert (LAST : exists r r', nth_error out (2 * length c - 1) = Some r /\ nth_error out (2 * length c) = Some r' /\
            l_label (g_layer r) = l_label (g_layer r')).
  { assert (P : (0 < length c)%nat) by (rewrite Lc; destruct col; [congruence|cbn; lia]).
    destruct (nth_error c (length c - 1)) as [l|] eqn:El; [|apply nth_error_None in El; lia].
    destruct (all_spans_nth c _ l El) as [_ B]. replace (2 * (length c - 1) + 1)%nat with (2 * length c - 1)%nat in B by lia.
    rewrite Eo. eexists _, _. split; [exact (map_nth_error _ _ _ B)|].
    assert (X : nth_error (all_spans c) (2 * length c) = Some (with_label (last c zero_row) (l_label (last c zero_row)))).
    { unfold all_spans. rewrite nth_error_app2; rewrite spans_length; [|lia]. rewrite Nat.sub_diag. reflexivity. }
    split; [exact (map_nth_error _ _ _ X)|]. cbn [g_layer l_label with_label].
    apply nth_error_nth with (d := zero_row) in El. rewrite <- El. f_equal.
    clear. induction c as [|x c IH]; [reflexivity|]. destruct c as [|y c]; [reflexivity|].
    change (last (x :: y :: c) zero_row) with (last (y :: c) zero_row).
    replace (length (x :: y :: c) - 1)%nat with (S (length (y :: c) - 1)) by (cbn; lia). cbn [nth]. exact IH. }
  rewrite artists_nth in Ha.
  destruct (Nat.Even_or_Odd k) as [[i Hi]|[i Hi]].
  - destruct (Nat.eq_dec i (length c)) as [->|N].
    + left. destruct LAST as (r & r' & R1 & R2 & R3). rewrite Hi, R2 in Ha. injection Ha as <-.
      exists (2 * length c - 1)%nat. rewrite artists_nth, R1. eexists. split; [|split; [reflexivity|]].
      * rewrite Lc in *. destruct col; [congruence|]. cbn in *. lia.
      * cbn [a_label]. apply (LAB _ _ _ _ R1 R2 R3).
    + right. destruct (ROW i) as (r & r' & R1 & R2 & R3); [lia|]. rewrite Hi, R1 in Ha. injection Ha as <-.
      rewrite artists_nth. replace (S k) with (2 * i + 1)%nat by lia. rewrite R2. eexists. split; [reflexivity|].
      cbn [a_where]. destruct (LAB _ _ _ _ R1 R2 R3) as [-> _]. reflexivity.
  - left. destruct (ROW i) as (r & r' & R1 & R2 & R3); [lia|]. rewrite Hi, R2 in Ha. injection Ha as <-.
    exists (2 * i)%nat. rewrite artists_nth, R1. eexists. split; [lia|]. split; [reflexivity|].
    cbn [a_label]. apply (LAB _ _ _ _ R1 R2 R3).
Qed.

(** An axis that is empty or shows a plotted column. *)
Definition column_axis (by_depth : list layer -> list layer) (by_diam : list (string * R) -> list (string * R))
  (hash : string -> Z) (cdf : list (string * R)) (arts : list artist) : Prop :=
  arts = [] \/ exists col out, stacked col /\ get_strat_col_ranges by_depth by_diam hash cdf col = Ok out /\ arts = artists out.

Lemma legend_hidden by_depth by_diam hash cdf axes es axes' p arts arts' y :
  sorts_by l_depth by_depth -> Forall (column_axis by_depth by_diam hash cdf) axes ->
  strat_legend axes = Ok (es, axes') -> nth_error axes p = Some arts -> nth_error axes' p = Some arts' ->
  visible_at (painted arts') y = visible_at (painted arts) y.
Proof.
  intros SD F E Hp Hp'. destruct (legend_ok axes) as (es0 & axes0 & E0 & _ & EO & SH & AT).
  rewrite E in E0. injection E0 as <- <-.
  assert (L : length arts' = length arts).
  { pose proof (f_equal (fun l => nth_error l p) SH) as X. cbv beta in X. rewrite !nth_error_map, Hp, Hp' in X.
    now injection X. }
  apply hidden; auto. intros k a a' Ha Ha'. specialize (AT p k). unfold artist_at in AT. rewrite Hp, Hp', Ha, Ha' in AT.
  destruct (find _ es) as [[l [p2 k2]]|] eqn:Ef.
  - injection AT as ->. split; [reflexivity|]. right.
    apply find_some in Ef as [I1 I2]. cbn in I2. apply andb_true_iff in I2 as [X Y]. apply Nat.eqb_eq in X, Y. subst p2 k2.
    rewrite Forall_forall in EO. destruct (EO _ I1) as [(a2 & A2 & L2) FI].
    unfold artist_at in A2. rewrite Hp, Ha in A2. injection A2 as <-.
    rewrite Forall_forall in F. destruct (F _ (nth_error_In _ _ Hp)) as [->|(col & out & K & Eo & ->)].
    { destruct k; discriminate. }
    destruct (artists_paired _ _ _ _ _ _ _ _ SD K Eo Ha) as [(k' & b & B1 & B2 & B3)|B]; [|exact B].
    exfalso. apply (FI p k' b); [unfold artist_at; now rewrite Hp|congruence|]. right. cbn. lia.
  - injection AT as ->. auto.
Qed.

(** * The columns of the figure *)
Section FigureProofs.
  Variable read : string -> Z -> string -> option (list layer).
  Variable by_depth : list layer -> list layer.
  Variable by_diam : list (string * R) -> list (string * R).
  Variable hash : string -> Z.
  Variable cdf : list (string * R).
  Variable min_thick : R.
  Local Notation draw := (draw_column read by_depth by_diam hash cdf min_thick).
  Local Notation dcell := (draw_cell read by_depth by_diam hash cdf min_thick).

  Definition saved (k : key) : option (list (option R)) :=
    match draw (fst (fst k)) (snd (fst k)) (snd k) with
    | Ok (Some (sdf, _)) => Some (map l_icepct (by_depth sdf))
    | _ => None
    end.

  Lemma key_eqb_eq a b : key_eqb a b = true <-> a = b.
  Proof.
    destruct a as [[a1 a2] a3], b as [[b1 b2] b3]. unfold key_eqb. cbn [fst snd].
    rewrite !andb_true_iff, !String.eqb_eq, Z.eqb_eq. split; [intros [[-> ->] ->]; reflexivity|intros [= -> -> ->]; auto].
  Qed.

  (** The table of percentages so far holds what is saved of the keys in [seen]. *)
  Definition holds (seen : key -> Prop) (d : list (key * list (option R))) : Prop :=
    NoDup (map fst d) /\ forall k v, In (k, v) d <-> seen k /\ saved k = Some v.

  Lemma dict_set_In {A} (k : key) (v : A) d k' v' : NoDup (map fst d) ->
    (In (k', v') (dict_set k v d) <-> (k' = k /\ v' = v) \/ (k' <> k /\ In (k', v') d)).
  Proof.
    induction d as [|[k0 v0] d IH]; intros D; cbn [dict_set In map fst] in *.
    - split; [intros [[= -> ->]|[]]; auto|]. intros [[-> ->]|[_ []]]; auto.
    - inversion D as [|? ? N D']; subst. destruct (key_eqb k k0) eqn:E.
      + apply key_eqb_eq in E. subst k0. cbn [In]. split.
        * intros [[= -> ->]|H]; auto. right. split; auto. intros ->. apply N. apply in_map_iff. exists (k, v'). auto.
        * intros [[-> ->]|[H1 [[= -> ->]|H2]]]; auto; congruence.
      + assert (NE : k <> k0) by (intros ->; rewrite (proj2 (key_eqb_eq _ _) eq_refl) in E; discriminate).
        cbn [In]. rewrite IH by auto. split.
        * intros [[= <- <-]|[H|[H1 H2]]]; auto.
        * intros [H|[H1 [H2|H2]]]; auto.
  Qed.
  Lemma dict_set_keys {A} (k : key) (v : A) d : map fst (dict_set k v d) = map fst d \/
    (~ In k (map fst d) /\ map fst (dict_set k v d) = map fst d ++ [k]).
  Proof.
    induction d as [|[k0 v0] d IH]; cbn [dict_set map fst]; [right; split; auto|].
    destruct (key_eqb k k0) eqn:E; [left; reflexivity|].
    assert (NE : k <> k0) by (intros ->; rewrite (proj2 (key_eqb_eq _ _) eq_refl) in E; discriminate).
    cbn [map fst]. destruct IH as [->|[N ->]]; auto. right. split; auto. cbn. intros [X|X]; auto.
  Qed.
  Lemma holds_set seen d k v : holds seen d -> saved k = Some v -> holds (fun k' => seen k' \/ k' = k) (dict_set k v d).
  Proof.
    intros [D H] E. split.
    - destruct (dict_set_keys k v d) as [->|[N ->]]; auto.
      apply (Permutation_NoDup (l := k :: map fst d)); [apply Permutation_cons_append|now constructor].
    - intros k' v'. rewrite dict_set_In, H by auto. split.
      + intros [[-> ->]|[N [H1 H2]]]; auto.
      + intros [[H1|H1] H2].
        * destruct (key_eqb k' k) eqn:Ek; [apply key_eqb_eq in Ek; subst; left; split; congruence|].
          right. split; auto. intros ->. rewrite (proj2 (key_eqb_eq _ _) eq_refl) in Ek. discriminate.
        * subst k'. left. split; congruence.
  Qed.
  Lemma holds_ext (seen seen' : key -> Prop) d : (forall k, saved k <> None -> (seen k <-> seen' k)) -> holds seen d -> holds seen' d.
  Proof.
    intros E [D H]. split; auto. intros k v. rewrite H. split; intros [A B]; split; auto; apply E; congruence.
  Qed.

  (** The depth [m] is [m0] or the largest of the depths [P]. *)
  Definition grown (m0 : R) (P : R -> Prop) (m : R) : Prop :=
    m0 <= m /\ (forall x, P x -> x <= m) /\ (m = m0 \/ P m).

  Lemma fold_Rmax_ok l : forall d, let m := fold_left Rmax l d in
    d <= m /\ (forall x, In x l -> x <= m) /\ (m = d \/ In m l).
  Proof.
    induction l as [|x l IH]; intros d; cbn [fold_left].
    - split; [lra|]. split; [contradiction|auto].
    - destruct (IH (Rmax d x)) as (A & B & C). cbv zeta. set (m := fold_left Rmax l (Rmax d x)) in *.
      pose proof (Rmax_l d x). pose proof (Rmax_r d x). split; [lra|]. split.
      + intros y [<-|Hy]; [lra|auto].
      + destruct C as [C|C]; [|right; now right]. rewrite C. destruct (Rle_dec d x).
        * rewrite Rmax_right by auto. right. now left.
        * rewrite Rmax_left by lra. auto.
  Qed.
  Lemma deeper_ok m0 strat : grown m0 (fun x => exists g, In g strat /\ x = l_depth (g_layer g)) (deeper m0 strat).
  Proof.
    unfold deeper. assert (G : forall x, In x (map (fun g => l_depth (g_layer g)) strat) <-> exists g, In g strat /\ x = l_depth (g_layer g)).
    { intros x. rewrite in_map_iff. firstorder. }
    destruct (map (fun g => l_depth (g_layer g)) strat) as [|d l].
    - split; [lra|]. split; [|auto]. intros x Hx. apply G in Hx. contradiction.
    - destruct (fold_Rmax_ok l d) as (A & B & C). cbv zeta in *. set (m := fold_left Rmax l d) in *.
      assert (I : forall x, In x (d :: l) -> x <= m) by (intros x [<-|H]; auto).
      assert (J : In m (d :: l)) by (destruct C as [->|C]; [now left|now right]).
      rcase m0 m K; (split; [lra|]); split.
      + intros x Hx. apply I. now apply G.
      + right. now apply G.
      + intros x Hx. apply G, I in Hx. lra.
      + auto.
  Qed.
  Lemma grown_trans m0 m1 m2 (P Q S : R -> Prop) : grown m0 P m1 -> grown m1 Q m2 -> (forall x, S x <-> P x \/ Q x) -> grown m0 S m2.
  Proof.
    intros (A1 & A2 & A3) (B1 & B2 & B3) E. split; [lra|]. split.
    - intros x Hx. apply E in Hx as [Hx|Hx]; [apply A2 in Hx; lra|auto].
    - destruct B3 as [->|B3]; [|right; apply E; auto]. destruct A3 as [A3|A3]; auto. right. apply E. auto.
  Qed.
  Lemma grown_same m (P : R -> Prop) : (forall x, ~ P x) -> grown m P m.
  Proof. intros H. split; [lra|]. split; auto. intros x Hx. destruct (H x Hx). Qed.
  Lemma grown_ext m0 (P Q : R -> Prop) m : (forall x, P x <-> Q x) -> grown m0 P m -> grown m0 Q m.
  Proof. intros E (A & B & C). split; auto. split; [intros x Hx; apply B, E, Hx|]. destruct C; auto. right. now apply E. Qed.

  Definition cell := (nat * Z * (nat * string))%type.
  Definition pos (n : nat) (c : cell) : nat := (fst (fst c) * n + fst (snd c) + fst (fst c))%nat.
  Definition cdraw (run : string) (c : cell) := draw run (snd (fst c)) (snd (snd c)).
  Definition ckey (run : string) (c : cell) : key := (run, snd (fst c), snd (snd c)).

  Lemma cells_fold n run cells : forall d seen,
    StronglySorted (fun a b => (pos n a < pos n b)%nat) cells ->
    (forall c, In c cells -> (pos n c < length (d_axs d))%nat) ->
    (forall c, In c cells -> nth_error (d_axs d) (pos n c) = Some None) ->
    holds seen (d_pct d) ->
    match fold_left (dcell n run) cells (Ok d) with
    | Ok d' =>
      length (d_axs d') = length (d_axs d) /\
      (forall p, (forall c, In c cells -> p <> pos n c) -> nth_error (d_axs d') p = nth_error (d_axs d) p) /\
      (forall c, In c cells -> exists o, cdraw run c = Ok o /\ nth_error (d_axs d') (pos n c) = Some (option_map snd o)) /\
      grown (d_max d) (fun x => exists c sdf strat g, In c cells /\ cdraw run c = Ok (Some (sdf, strat)) /\ In g strat /\ x = l_depth (g_layer g)) (d_max d') /\
      holds (fun k => seen k \/ exists c, In c cells /\ k = ckey run c) (d_pct d')
    | Err e => exists c, In c cells /\ cdraw run c = Err e
    end.
  Proof.
    induction cells as [|c cells IH]; intros d seen SS B NN Hd.
    - cbn [fold_left]. split; auto. split; auto. split; [contradiction|]. split.
      + apply grown_same. intros x (c & _ & _ & _ & [] & _).
      + eapply holds_ext; [|exact Hd]. intros k _. split; auto. intros [H|(c & [] & _)]; auto.
    - cbn [fold_left]. unfold draw_cell at 2. destruct c as [[s seed] [i ct]] eqn:Ec. rewrite <- Ec in *. cbn [bind].
      assert (Dc : draw run seed ct = cdraw run c) by (subst c; reflexivity). rewrite Dc.
      apply StronglySorted_inv in SS as [SS' HF]. rewrite Forall_forall in HF.
      assert (ERR : forall e, fold_left (dcell n run) cells (Err e) = Err e).
      { intros e. clear. induction cells as [|[[? ?] [? ?]] cells IH]; [reflexivity|]. cbn [fold_left draw_cell bind]. exact IH. }
      destruct (cdraw run c) as [[[sdf strat]|]|e] eqn:Ed; cbn [bind].
      + assert (Sv : saved (ckey run c) = Some (map l_icepct (by_depth sdf))).
        { unfold saved, ckey. cbn [fst snd]. change (draw run (snd (fst c)) (snd (snd c))) with (cdraw run c). now rewrite Ed. }
        assert (Lp : (s * n + i + s < length (d_axs d))%nat).
        { specialize (B c (or_introl eq_refl)). unfold pos in B. rewrite Ec in B. exact B. }
        rewrite (proj2 (set_Ok _ _ _ _) (conj Lp eq_refl)). cbn [bind].
        assert (Ep : pos n c = (s * n + i + s)%nat) by (rewrite Ec; reflexivity).
        assert (Ek : ckey run c = (run, seed, ct)) by (rewrite Ec; reflexivity).
        rewrite <- Ep, <- Ek. set (d1 := mk_drawing _ _ _).
        specialize (IH d1 (fun k => seen k \/ k = ckey run c) SS').
        assert (L1 : length (d_axs d1) = length (d_axs d)) by apply upd_length.
        assert (N1 : forall p, p <> pos n c -> nth_error (d_axs d1) p = nth_error (d_axs d) p).
        { intros p Hp. cbn [d1 d_axs]. rewrite nth_upd. destruct (Nat.eqb_spec (pos n c) p); [congruence|reflexivity]. }
        assert (C1 : nth_error (d_axs d1) (pos n c) = Some (Some strat)).
        { cbn [d1 d_axs]. rewrite nth_upd, Nat.eqb_refl. rewrite <- Ep in Lp. apply Nat.ltb_lt in Lp. now rewrite Lp. }
        specialize (IH ltac:(intros c' Hc'; rewrite L1; apply B; now right)).
        specialize (IH ltac:(intros c' Hc'; rewrite N1; [apply NN; now right|]; specialize (HF c' Hc'); lia)).
        specialize (IH (holds_set _ _ _ _ Hd Sv)).
        destruct (fold_left (dcell n run) cells (Ok d1)) as [d'|e].
        * destruct IH as (I1 & I2 & I3 & I4 & I5). split; [lia|]. split; [|split; [|split]].
          -- intros p Hp. rewrite I2 by (intros c' Hc'; apply Hp; now right). apply N1. apply Hp. now left.
          -- intros c' [<-|Hc']; [|auto]. exists (Some (sdf, strat)). split; [exact Ed|]. rewrite I2, C1; [reflexivity|].
             intros c' Hc'. specialize (HF c' Hc'). lia.
          -- eapply grown_trans; [apply deeper_ok|exact I4|]. cbv beta. intros x. split.
             ++ intros (c' & sdf' & strat' & g & [Ha|Ha] & E' & Hg & ->).
                ** left. exists g. rewrite <- Ha, Ed in E'. injection E' as <- <-. auto.
                ** right. exists c', sdf', strat', g. auto.
             ++ intros [(g & Hg & ->)|(c' & sdf' & strat' & g & Ha & E' & Hg & ->)].
                ** exists c, sdf, strat, g. split; [now left|]. auto.
                ** exists c', sdf', strat', g. split; [now right|]. auto.
          -- eapply holds_ext; [|exact I5]. cbv beta. intros k _. split.
             ++ intros [[H|H]|(c' & H & H')]; auto; right; [exists c; split; [now left|auto]|exists c'; split; [now right|auto]].
             ++ intros [H|(c' & [Ha|H] & H')]; auto; [left; right; now rewrite Ha|right; eauto].
        * destruct IH as (c' & H & H'). exists c'. split; [now right|auto].
      + specialize (IH d seen SS' ltac:(intros c' Hc'; apply B; now right) ltac:(intros c' Hc'; apply NN; now right) Hd).
        destruct (fold_left (dcell n run) cells (Ok d)) as [d'|e].
        * destruct IH as (I1 & I2 & I3 & I4 & I5). split; [lia|]. split; [|split; [|split]].
          -- intros p Hp. apply I2. intros c' Hc'. apply Hp. now right.
          -- intros c' [<-|Hc']; [|auto]. exists None. split; [exact Ed|]. rewrite I2; [apply NN; now left|].
             intros c' Hc'. specialize (HF c' Hc'). lia.
          -- eapply grown_ext; [|exact I4]. cbv beta. intros x. split.
             ++ intros (c' & sdf' & strat' & g & Ha & E' & Hg & ->). exists c', sdf', strat', g. split; [now right|]. auto.
             ++ intros (c' & sdf' & strat' & g & [Ha|Ha] & E' & Hg & ->); [rewrite <- Ha, Ed in E'; discriminate|].
                exists c', sdf', strat', g. auto.
          -- eapply holds_ext; [|exact I5]. cbv beta. intros k Hk. split.
             ++ intros [H|(c' & H & H')]; auto. right. exists c'. split; [now right|auto].
             ++ intros [H|(c' & [Ha|H] & H')]; auto; [|right; eauto]. exfalso. apply Hk. subst k. rewrite <- Ha. unfold saved, ckey. cbn [fst snd].
                change (draw run (snd (fst c)) (snd (snd c))) with (cdraw run c). now rewrite Ed.
        * destruct IH as (c' & H & H'). exists c'. split; [now right|auto].
      + rewrite ERR. exists c. split; [now left|exact Ed].
  Qed.

  Definition fig_cells (seeds : list Z) (coldtraps : list string) : list cell :=
    flat_map (fun '(s, seed) => map (fun ic => (s, seed, ic)) (enum coldtraps)) (enum seeds).
  Lemma fig_cells_In seeds coldtraps s seed i ct : In (s, seed, (i, ct)) (fig_cells seeds coldtraps) <->
    nth_error seeds s = Some seed /\ nth_error coldtraps i = Some ct.
  Proof.
    unfold fig_cells. rewrite in_flat_map. split.
    - intros ((s' & seed') & H1 & H2). apply in_map_iff in H2 as ((i' & ct') & [= -> -> -> ->] & H2).
      apply enum_In in H1, H2. auto.
    - intros [H1 H2]. exists (s, seed). split; [now apply enum_In|]. apply in_map_iff. exists (i, ct). split; auto. now apply enum_In.
  Qed.
  Lemma fig_cells_sorted seeds coldtraps :
    StronglySorted (fun a b => (pos (length coldtraps) a < pos (length coldtraps) b)%nat) (fig_cells seeds coldtraps).
  Proof.
    unfold fig_cells. eapply SS_flat_map; [apply enum_sorted| |].
    - intros [s seed]. assert (G := enum_sorted coldtraps). revert G. generalize (length coldtraps). intros n G.
      induction G as [|[i ct] l G IH F]; cbn [map]; constructor; auto.
      apply Forall_forall. intros c Hc. apply in_map_iff in Hc as ((i' & ct') & <- & Hc). rewrite Forall_forall in F.
      specialize (F _ Hc). unfold pos. cbn in *. lia.
    - intros [s seed] [s' seed'] c c' L H H'. apply in_map_iff in H as ((i & ct) & <- & H), H' as ((i' & ct') & <- & H').
      apply enum_In in H, H'. assert (I : (i < length coldtraps)%nat) by (apply nth_error_Some; congruence).
      unfold pos. cbn in *. nia.
  Qed.

  Definition row_ok (seeds : list Z) (coldtraps : list string) (ncols : nat) (run : string) (axs : list (option (list grow))) : Prop :=
    length axs = ncols /\
    (forall p, (forall c, In c (fig_cells seeds coldtraps) -> p <> pos (length coldtraps) c) -> (p < ncols)%nat -> nth_error axs p = Some None) /\
    (forall c, In c (fig_cells seeds coldtraps) -> exists o, cdraw run c = Ok o /\
       nth_error axs (pos (length coldtraps) c) = Some (option_map snd o)).
  Definition depths_of (seeds : list Z) (coldtraps : list string) (run : string) (x : R) : Prop :=
    exists c sdf strat g, In c (fig_cells seeds coldtraps) /\ cdraw run c = Ok (Some (sdf, strat)) /\ In g strat /\ x = l_depth (g_layer g).

  Lemma nth_repeat_some {A} (x : A) n p : (p < n)%nat -> nth_error (repeat x n) p = Some x.
  Proof. revert p. induction n as [|n IH]; intros [|p] L; cbn; auto; try lia. apply IH. lia. Qed.

  Lemma runs_fold seeds coldtraps ncols runs : 
    (forall c, In c (fig_cells seeds coldtraps) -> (pos (length coldtraps) c < ncols)%nat) ->
    forall rows0 m0 pct0 seen, holds seen pct0 ->
    match fold_left (draw_run read by_depth by_diam hash cdf min_thick seeds coldtraps ncols) runs (Ok (rows0, m0, pct0)) with
    | Ok (rows, _, pct) => exists new, rows = rows0 ++ new /\ length new = length runs /\
        holds (fun k => seen k \/ exists run c, In run runs /\ In c (fig_cells seeds coldtraps) /\ k = ckey run c) pct /\
        forall r run axs depth, nth_error runs r = Some run -> nth_error new r = Some (axs, depth) ->
          row_ok seeds coldtraps ncols run axs /\
          grown m0 (fun x => exists r' run', (r' <= r)%nat /\ nth_error runs r' = Some run' /\ depths_of seeds coldtraps run' x) depth
    | Err e => exists run c, In run runs /\ In c (fig_cells seeds coldtraps) /\ cdraw run c = Err e
    end.
  Proof.
    intros B. induction runs as [|run runs IH]; intros rows0 m0 pct0 seen Hd; cbn [fold_left].
    - exists []. rewrite app_nil_r. split; auto. split; auto. split.
      + eapply holds_ext; [|exact Hd]. intros k _. split; auto. intros [H|(? & ? & [] & _)]; auto.
      + intros [|r]; discriminate.
    - unfold draw_run at 2. cbn [bind]. fold (fig_cells seeds coldtraps).
      pose proof (cells_fold (length coldtraps) run (fig_cells seeds coldtraps)
        (mk_drawing (repeat None ncols) m0 pct0) seen (fig_cells_sorted seeds coldtraps)) as C.
      cbn [d_axs d_max d_pct] in C. rewrite repeat_length in C. specialize (C B).
      specialize (C ltac:(intros c Hc; apply nth_repeat_some; auto) Hd).
      destruct (fold_left (dcell (length coldtraps) run) (fig_cells seeds coldtraps) _) as [d|e] eqn:Ed.
      + cbn [bind]. destruct C as (C1 & C2 & C3 & C4 & C5).
        specialize (IH (rows0 ++ [(d_axs d, d_max d)]) (d_max d) (d_pct d) _ C5).
        destruct (fold_left (draw_run _ _ _ _ _ _ _ _ _) runs _) as [[[rows m] pct]|e].
        * destruct IH as (new & -> & L & H & I). exists ((d_axs d, d_max d) :: new).
          split; [now rewrite <- app_assoc|]. split; [cbn; lia|]. split.
          -- eapply holds_ext; [|exact H]. cbv beta. intros k _. split.
             ++ intros [[Hs|(c & Hc & ->)]|(run' & c & Hr & Hc & ->)]; auto; right;
                  [exists run, c; split; [now left|auto]|exists run', c; split; [now right|auto]].
             ++ intros [Hs|(run' & c & [<-|Hr] & Hc & ->)]; auto; [left; right; eauto|right; eauto 6].
          -- intros [|r] run' axs depth Hr Hn; cbn in Hr, Hn.
             ++ injection Hr as <-. injection Hn as <- <-. split.
                ** split; [exact C1|]. split; [|exact C3]. intros p Hp Lp. rewrite C2 by auto. now apply nth_repeat_some.
                ** eapply grown_ext; [|exact C4]. intros x. split.
                   --- intros Hx. exists O, run. split; auto.
                   --- intros (r' & run'' & L' & Hr' & Hx). replace r' with O in Hr' by lia. injection Hr' as <-. exact Hx.
             ++ destruct (I r run' axs depth Hr Hn) as [I1 I2]. split; auto.
                eapply grown_trans; [exact C4|exact I2|]. cbv beta. intros x. split.
                ** intros ([|r'] & run'' & L' & Hr' & Hx).
                   --- injection Hr' as <-. left. exact Hx.
                   --- right. exists r', run''. split; [lia|auto].
                ** intros [Hx|(r' & run'' & L' & Hr' & Hx)].
                   --- exists O, run. split; [lia|]. split; auto.
                   --- exists (S r'), run''. split; [lia|]. auto.
        * destruct IH as (run' & c & H1 & H2 & H3). exists run', c. split; [now right|auto].
      + cbn [bind]. assert (ERR : forall e', fold_left (draw_run read by_depth by_diam hash cdf min_thick seeds coldtraps ncols) runs (Err e') = Err e').
        { intros e'. clear. induction runs as [|x runs IH]; [reflexivity|]. cbn [fold_left draw_run bind]. exact IH. }
        rewrite ERR. destruct C as (c & H1 & H2). exists run, c. split; [now left|auto].
  Qed.

  Lemma figure_ok runs seeds coldtraps :
    let n := length coldtraps in
    let ncols := (length seeds * (n + 1) - 1)%nat in
    match plot_figure read by_depth by_diam hash cdf min_thick runs seeds coldtraps with
    | Ok (rows, pct) => ncols <> O /\ length rows = length runs /\
        holds (fun k => exists run c, In run runs /\ In c (fig_cells seeds coldtraps) /\ k = ckey run c) pct /\
        forall r run axs depth, nth_error runs r = Some run -> nth_error rows r = Some (axs, depth) ->
          row_ok seeds coldtraps ncols run axs /\
          grown 0 (fun x => exists r' run', (r' <= r)%nat /\ nth_error runs r' = Some run' /\ depths_of seeds coldtraps run' x) depth
    | Err e => (e = ValueError /\ ncols = O) \/
               (ncols <> O /\ exists run c, In run runs /\ In c (fig_cells seeds coldtraps) /\ cdraw run c = Err e)
    end.
  Proof.
    cbv zeta. unfold plot_figure. cbv zeta.
    set (z := (Z.of_nat (length seeds) * Z.of_nat (length coldtraps) + (Z.of_nat (length seeds) - 1))%Z).
    assert (Ez : Z.to_nat z = (length seeds * (length coldtraps + 1) - 1)%nat) by (unfold z; nia).
    destruct (Z.leb_spec z 0) as [L|L].
    - left. split; auto. lia.
    - assert (B : forall c, In c (fig_cells seeds coldtraps) -> (pos (length coldtraps) c < Z.to_nat z)%nat).
      { intros [[s seed] [i ct]] Hc. apply fig_cells_In in Hc as [H1 H2]. rewrite Ez. unfold pos. cbn [fst snd].
        assert (L1 : (s < length seeds)%nat) by (apply nth_error_Some; congruence).
        assert (L2 : (i < length coldtraps)%nat) by (apply nth_error_Some; congruence). nia. }
      pose proof (runs_fold seeds coldtraps (Z.to_nat z) runs B [] 0 [] (fun _ => False)) as F.
      assert (H0 : holds (fun _ => False) []).
      { split; [constructor|]. intros k v. cbn. tauto. }
      specialize (F H0). destruct (fold_left _ runs _) as [[[rows m] pct]|e]; cbn [bind].
      + destruct F as (new & -> & L' & H & I). cbn [app]. rewrite <- Ez. split; [lia|]. split; auto. split; auto.
        eapply holds_ext; [|exact H]. cbv beta. intros k _. split; auto. intros [[]|X]; auto.
      + right. split; [lia|]. exact F.
  Qed.
End FigureProofs.
