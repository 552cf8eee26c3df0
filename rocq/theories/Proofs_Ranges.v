(** Proofs about the plotted ranges and colours, and about the Monte Carlo totals. *)
From Coq Require Import String Ascii List ZArith Reals Bool Lra Lia Sorted Permutation.
From Verif Require Import Base Model_Time Model_Strat Model_Plot Spec_Strat Spec_Plot Proofs_Base
  Proofs_Time Proofs_Strat Proofs_Plot.
Import ListNotations.
Open Scope R_scope.

(** * Sorting *)
Lemma sorted_perm_eq {A} (key : A -> R) l1 : forall l2,
  StronglySorted (fun a b => key a <= key b) l1 -> StronglySorted (fun a b => key a <= key b) l2 ->
  Permutation l1 l2 -> (forall a b, In a l1 -> In b l1 -> key a = key b -> a = b) -> l1 = l2.
Proof.
  induction l1 as [|a l1 IH]; intros l2 S1 S2 P I.
  - apply Permutation_nil in P. now subst.
  - destruct l2 as [|b l2]; [apply Permutation_sym, Permutation_nil in P; discriminate|].
    inversion S1 as [|? ? S1' F1]; subst. inversion S2 as [|? ? S2' F2]; subst.
    rewrite Forall_forall in F1, F2.
    assert (E : a = b).
    { assert (Hb : In b (a :: l1)) by (eapply Permutation_in; [symmetry; exact P|now left]).
      assert (Ha : In a (b :: l2)) by (eapply Permutation_in; [exact P|now left]).
      apply I; auto; [now left|].
      destruct Hb as [->|Hb]; [auto|]. destruct Ha as [->|Ha]; [auto|].
      apply Rle_antisym; auto. }
    subst b. f_equal. apply IH; auto.
    + now apply Permutation_cons_inv in P.
    + intros x y Hx Hy. apply I; now right.
Qed.

Definition doubled {A} (l : list A) : list A := flat_map (fun x => [x; x]) l.

Lemma doubled_perm {A} (l : list A) : Permutation (l ++ l) (doubled l).
Proof.
  induction l as [|x l IH]; [constructor|]. cbn [app doubled flat_map].
  apply perm_skip. etransitivity; [symmetry; apply Permutation_middle|]. apply perm_skip. exact IH.
Qed.

Lemma doubled_In {A} (x : A) l : In x (doubled l) <-> In x l.
Proof. unfold doubled. rewrite in_flat_map. split; [intros (y & Hy & [->|[->|[]]]); auto|]. intros H. exists x. cbn; auto. Qed.

Lemma doubled_sorted (l : list layer) : StronglySorted (fun a b => l_depth a < l_depth b) l ->
  StronglySorted (fun a b => l_depth a <= l_depth b) (doubled l).
Proof.
  induction 1 as [|x l S IH F]; [constructor|]. cbn [doubled flat_map app].
  rewrite Forall_forall in F.
  assert (G : Forall (fun b => l_depth x <= l_depth b) (doubled l)).
  { apply Forall_forall. intros y Hy. apply (proj1 (doubled_In _ _)) in Hy. apply Rlt_le. exact (F y Hy). }
  constructor; [constructor; auto|]. constructor; [lra|auto].
Qed.

Lemma SS_app {A} (Q : A -> A -> Prop) l l' : StronglySorted Q l -> StronglySorted Q l' ->
  Forall (fun a => Forall (Q a) l') l -> StronglySorted Q (l ++ l').
Proof.
  intros S S' F. induction S as [|x l S IH G]; auto. cbn. inversion F; subst. constructor; auto.
  apply Forall_app. auto.
Qed.

Lemma SS_rev {A} (Q : A -> A -> Prop) l : StronglySorted Q l -> StronglySorted (fun a b => Q b a) (rev l).
Proof.
  induction 1 as [|x l S IH F]; [constructor|]. cbn. apply SS_app; auto.
  - repeat constructor.
  - apply Forall_forall. intros y Hy. constructor; auto. rewrite Forall_forall in F. apply F. now apply in_rev.
Qed.

Lemma SS_lt_inj l a b : StronglySorted (fun a b => l_depth a < l_depth b) l -> In a l -> In b l ->
  l_depth a = l_depth b -> a = b.
Proof.
  induction 1 as [|x l S IH F]; intros Ha Hb E; [contradiction|]. rewrite Forall_forall in F.
  destruct Ha as [->|Ha], Hb as [->|Hb]; auto.
  - specialize (F _ Hb). lra.
  - specialize (F _ Ha). lra.
Qed.

Lemma by_depth_doubled by_depth col : sorts_by l_depth by_depth -> stacked col ->
  by_depth (col ++ col) = doubled (rev col).
Proof.
  intros H [S _]. destruct (H (col ++ col)) as [P Q].
  pose proof (SS_rev _ _ S) as S'. cbv beta in S'.
  symmetry. apply (sorted_perm_eq l_depth); auto using doubled_sorted.
  - etransitivity; [|exact P]. symmetry. etransitivity; [|apply doubled_perm].
    apply Permutation_app; apply Permutation_rev.
  - intros a b Ha Hb. apply (SS_lt_inj (rev col)); auto; now apply (proj1 (doubled_In _ _)).
Qed.

(** * Ranges *)
Fixpoint spans (prev : layer) (c : list layer) : list layer :=
  match c with
  | [] => []
  | l :: r => with_label prev (l_label l) :: with_label l (l_label l) :: spans l r
  end.

Lemma last_default {A} (x : A) l d d' : last (x :: l) d = last (x :: l) d'.
Proof. revert x. induction l as [|y l IH]; intros x; auto. change (last (y :: l) d = last (y :: l) d'). auto. Qed.

Lemma combine_spans c : forall prev z,
  map (fun '(r, l) => with_label r l) (combine (prev :: doubled c) (map l_label (doubled c) ++ [z]))
  = spans prev c ++ [with_label (last c prev) z].
Proof.
  induction c as [|l c IH]; intros prev z; [reflexivity|].
  cbn [doubled flat_map app map combine spans]. f_equal. f_equal. etransitivity; [apply (IH l z)|]. f_equal. f_equal.
  f_equal. destruct c as [|x c]; [reflexivity|]. change (last (x :: c) l = last (x :: c) prev). apply last_default.
Qed.

Definition zero_row : layer := mk_layer 0 0 EmptyString 0 0 (Some 0).

Lemma last_doubled {A} (c : list A) d : last (doubled c) d = last c d.
Proof.
  induction c as [|x c IH]; auto. cbn [doubled flat_map app]. destruct c as [|y c]; auto.
Qed.
Lemma last_map {A B} (f : A -> B) l d : last (map f l) (f d) = f (last l d).
Proof. induction l as [|x [|y l] IH]; auto. Qed.

Definition all_spans (c : list layer) : list layer := spans zero_row c ++ [with_label (last c zero_row) (l_label (last c zero_row))].

(** The hatch of a label, and the label it is for. *)
Lemma ranges_rows by_depth by_diam hash cdf col : sorts_by l_depth by_depth -> stacked col -> col <> [] ->
  get_strat_col_ranges by_depth by_diam hash cdf col =
  mapM (fun r =>
          let* label := hatch_label by_diam cdf (l_label r) in
          let* h := dict_get (get_lith_key hash (flat_map split (map l_label (all_spans (rev col))))) label in
          Ok (mk_grow r h label)) (all_spans (rev col)).
Proof.
  intros H S N. unfold get_strat_col_ranges. rewrite (by_depth_doubled _ _ H S).
  destruct col as [|l0 col0] eqn:Ec; [congruence|]. rewrite <- Ec in *.
  fold zero_row. set (c := rev col).
  cbn [map skipn]. change (map l_label) with (map l_label).
  assert (EL : last (l_label zero_row :: map l_label (doubled c)) EmptyString = l_label (last c zero_row)).
  { change (l_label zero_row :: map l_label (doubled c)) with (map l_label (zero_row :: doubled c)).
    change EmptyString with (l_label zero_row). rewrite last_map.
    assert (Nc : c <> []) by (unfold c; rewrite Ec; cbn; intros X; symmetry in X; revert X; apply app_cons_not_nil).
    clear -Nc. destruct c as [|x c]; [congruence|]. change (last (zero_row :: doubled (x :: c)) zero_row) with (last (doubled (x :: c)) zero_row).
    now rewrite last_doubled. }
  rewrite EL. rewrite combine_spans. fold (all_spans c).
  assert (EM : map l_label (doubled c) ++ [l_label (last c zero_row)] = map l_label (all_spans c)).
  { unfold all_spans. rewrite map_app. cbn [map with_label l_label]. f_equal. clear.
    generalize zero_row. induction c as [|x c IH]; intros z; [reflexivity|].
    cbn [doubled flat_map app map spans with_label l_label]. f_equal. f_equal. apply IH. }
  rewrite EM. reflexivity.
Qed.

Lemma mapM_map {A B} (f : A -> result B) l out : mapM f l = Ok out ->
  forall i b, nth_error out i = Some b -> exists a, nth_error l i = Some a /\ f a = Ok b.
Proof.
  revert out. induction l as [|a l IH]; intros out H i b Hi; cbn [mapM] in H.
  - injection H as <-. destruct i; discriminate.
  - destruct (f a) as [x|e] eqn:Ea; [|discriminate]. cbn [bind] in H.
    destruct (mapM f l) as [o|e] eqn:Eo; [|discriminate]. injection H as <-.
    destruct i as [|i]; cbn in Hi.
    + injection Hi as <-. exists a. auto.
    + now apply (IH o eq_refl).
Qed.

(** All rows of a label have the same hatch. *)
Definition hatch_fn by_diam hash cdf (c : list layer) (label : string) : result (string * string) :=
  let* n := hatch_label by_diam cdf label in
  let* h := dict_get (get_lith_key hash (flat_map split (map l_label (all_spans c)))) n in
  Ok (h, n).

Lemma ranges_map by_depth by_diam hash cdf col out : sorts_by l_depth by_depth -> stacked col -> col <> [] ->
  get_strat_col_ranges by_depth by_diam hash cdf col = Ok out ->
  exists H : string -> string * string,
    (forall l, In l col -> hatch_fn by_diam hash cdf (rev col) (l_label l) = Ok (H (l_label l))) /\
    out = map (fun r => mk_grow r (fst (H (l_label r))) (snd (H (l_label r)))) (all_spans (rev col)).
Proof.
  intros S K N E. rewrite (ranges_rows _ _ _ _ _ S K N) in E.
  set (c := rev col) in *.
  exists (fun s => match hatch_fn by_diam hash cdf c s with Ok x => x | Err _ => (EmptyString, EmptyString) end).
  unfold hatch_fn. set (key := get_lith_key _ _) in *. clearbody key.
  assert (G : forall rows out, mapM (fun r =>
          let* label := hatch_label by_diam cdf (l_label r) in
          let* h := dict_get key label in Ok (mk_grow r h label)) rows = Ok out ->
     (forall l, In l rows -> exists x, (let* n := hatch_label by_diam cdf (l_label l) in
           let* h := dict_get key n in Ok (h, n)) = Ok x) /\
     out = map (fun r => let H := (fun s => match (let* n := hatch_label by_diam cdf s in
           let* h := dict_get key n in Ok (h, n)) with Ok x => x | Err _ => (EmptyString, EmptyString) end) in
           mk_grow r (fst (H (l_label r))) (snd (H (l_label r)))) rows).
  { induction rows as [|r rows IH]; intros o Eo; cbn [mapM] in Eo.
    - injection Eo as <-. split; [contradiction|reflexivity].
    - destruct (hatch_label by_diam cdf (l_label r)) as [n|e] eqn:En; [|discriminate]. cbn [bind] in Eo.
      destruct (dict_get key n) as [h|e] eqn:Eh; [|discriminate]. cbn [bind] in Eo.
      destruct (mapM _ rows) as [o'|e] eqn:Er in Eo; [|discriminate]. injection Eo as <-.
      destruct (IH _ Er) as [I1 I2]. split.
      + intros l [<-|Hl]; auto. rewrite En. cbn [bind]. rewrite Eh. cbn. eauto.
      + cbn [map]. rewrite En. cbn [bind]. rewrite Eh. cbn [bind fst snd]. f_equal. exact I2. }
  destruct (G _ _ E) as [G1 G2]. split; [|exact G2].
  intros l Hl.
  assert (X : exists r, In r (all_spans c) /\ l_label r = l_label l).
  { apply in_rev in Hl. fold c in Hl. clearbody c. clear -Hl. unfold all_spans.
    exists (with_label l (l_label l)). split; auto. apply in_or_app. left.
    revert Hl. generalize zero_row. induction c as [|x c IH]; intros z Hl; [contradiction|].
    cbn [spans]. destruct Hl as [->|Hl]; [right; now left|]. right; right. now apply IH. }
  destruct X as (r & Hr & Er). destruct (G1 r Hr) as (x & Ex). rewrite Er in Ex. rewrite Ex. reflexivity.
Qed.

Lemma spans_length c : forall z, length (spans z c) = (2 * length c)%nat.
Proof. induction c as [|x c IH]; intros z; [reflexivity|]. cbn [spans length]. rewrite IH. lia. Qed.

Lemma spans_nth c : forall z i l, nth_error c i = Some l ->
  nth_error (spans z c) (2 * i) = Some (with_label (match i with O => z | S j => nth j c z end) (l_label l)) /\
  nth_error (spans z c) (2 * i + 1) = Some (with_label l (l_label l)).
Proof.
  induction c as [|x c IH]; intros z i l H; [destruct i; discriminate|].
  destruct i as [|i]; cbn in H.
  - injection H as ->. split; reflexivity.
  - replace (2 * S i)%nat with (S (S (2 * i))) by lia. cbn [spans nth_error].
    replace (S (S (2 * i)) + 1)%nat with (S (S (2 * i + 1))) by lia. cbn [nth_error].
    destruct (IH x i l H) as [A B]. rewrite A, B. split; auto. f_equal. f_equal.
    destruct i as [|i]; auto. cbn [nth]. apply nth_indep.
    assert (nth_error c (S i) <> None) by congruence. apply nth_error_Some in H0. lia.
Qed.

Lemma all_spans_length c : length (all_spans c) = (2 * length c + 1)%nat.
Proof. unfold all_spans. rewrite app_length, spans_length. reflexivity. Qed.

Lemma all_spans_nth c i l : nth_error c i = Some l ->
  nth_error (all_spans c) (2 * i) = Some (with_label (match i with O => zero_row | S j => nth j c zero_row end) (l_label l)) /\
  nth_error (all_spans c) (2 * i + 1) = Some (with_label l (l_label l)).
Proof.
  intros H. assert (L : (i < length c)%nat) by (apply nth_error_Some; congruence).
  unfold all_spans. rewrite !nth_error_app1 by (rewrite spans_length; lia). now apply spans_nth.
Qed.

Lemma col_nonempty (col : list layer) i l : nth_error (rev col) i = Some l -> col <> [].
Proof. intros H ->. destruct i; discriminate. Qed.

Lemma ranges_layers by_depth by_diam hash cdf col out i l :
  sorts_by l_depth by_depth -> stacked col -> get_strat_col_ranges by_depth by_diam hash cdf col = Ok out ->
  layer_from_top col i l ->
  length out = (2 * length col + 1)%nat /\
  exists a b, nth_error out (2 * i) = Some a /\ nth_error out (2 * i + 1) = Some b /\
    l_label (g_layer a) = l_label l /\ l_label (g_layer b) = l_label l /\
    begins_at col i (l_depth (g_layer a)) /\ l_depth (g_layer b) = l_depth l /\
    l_icepct (g_layer b) = l_icepct l /\ g_hatch a = g_hatch b /\ g_hatchlabel a = g_hatchlabel b /\
    hatch_label by_diam cdf (l_label l) = Ok (g_hatchlabel b).
Proof.
  intros SD K E L. unfold layer_from_top in L. pose proof (col_nonempty _ _ _ L) as N.
  destruct (ranges_map _ _ _ _ _ _ SD K N E) as (H & H1 & ->).
  split; [rewrite map_length, all_spans_length, rev_length; reflexivity|].
  destruct (all_spans_nth (rev col) i l L) as [A B].
  eexists _, _. split; [exact (map_nth_error _ _ _ A)|]. split; [exact (map_nth_error _ _ _ B)|].
  cbn [g_layer g_hatch g_hatchlabel with_label l_label l_depth l_icepct].
  repeat split; auto.
  - destruct i as [|j]; cbn [begins_at]; [reflexivity|].
    assert (Lj : (S j < length (rev col))%nat) by (apply nth_error_Some; congruence).
    exists (nth j (rev col) zero_row). split; auto. unfold layer_from_top. apply nth_error_nth'. lia.
  - assert (Il : In l col) by (apply in_rev; eapply nth_error_In; exact L).
    specialize (H1 _ Il). unfold hatch_fn in H1.
    destruct (hatch_label by_diam cdf (l_label l)) as [n|e]; [|discriminate]. cbn [bind] in H1.
    destruct (dict_get _ n); [|discriminate]. cbn [bind] in H1. injection H1 as <-. reflexivity.
Qed.

(** * Colours *)
Definition cov (y : R) (p : grow * grow) : bool :=
  Rltb (l_depth (g_layer (fst p))) y && Rltb y (l_depth (g_layer (snd p))).
Definition pairs (rows : list grow) := combine rows (skipn 1 rows).
Definition lastopt {A} (l : list A) : option A := hd_error (rev l).

Lemma lastopt_app {A} (a b : list A) : lastopt (a ++ b) = match lastopt b with Some x => Some x | None => lastopt a end.
Proof. unfold lastopt. rewrite rev_app_distr. now destruct (rev b). Qed.
Lemma lastopt_map {A B} (f : A -> B) l : lastopt (map f l) = option_map f (lastopt l).
Proof. unfold lastopt. rewrite <- map_rev. now destruct (rev l). Qed.

Lemma visible_lastopt fs y : visible_at fs y =
  option_map snd (lastopt (filter (fun '(a, b, _) => Rltb a y && Rltb y b) fs)).
Proof. unfold visible_at, lastopt. destruct (rev _) as [|[[a b] c] r]; reflexivity. Qed.

Lemma fills_cover rows y a b : filter (cov y) (pairs rows) = [(a, b)] -> g_hatch a = g_hatch b ->
  visible_at (fills rows) y =
  option_map (fun r => l_icepct (g_layer r)) (lastopt (filter (fun r => String.eqb (g_hatch a) (g_hatch r)) rows)).
Proof.
  intros H Hh. rewrite visible_lastopt.
  assert (E : filter (fun '(a, b, _) => Rltb a y && Rltb y b) (fills rows) =
              map (fun r => (l_depth (g_layer a), l_depth (g_layer b), l_icepct (g_layer r)))
                  (filter (fun r => String.eqb (g_hatch a) (g_hatch r)) rows)).
  { unfold fills. fold (pairs rows). set (ps := pairs rows) in *. clearbody ps.
    induction rows as [|r rows IH]; auto. cbn [flat_map filter]. rewrite filter_app, IH.
    assert (X : filter (fun '(a, b, _) => Rltb a y && Rltb y b)
       (flat_map (fun '(a, b) => if (String.eqb (g_hatch a) (g_hatch r) && String.eqb (g_hatch b) (g_hatch r))%bool
          then [(l_depth (g_layer a), l_depth (g_layer b), l_icepct (g_layer r))] else []) ps) =
       flat_map (fun '(a, b) => if (String.eqb (g_hatch a) (g_hatch r) && String.eqb (g_hatch b) (g_hatch r))%bool
          then [(l_depth (g_layer a), l_depth (g_layer b), l_icepct (g_layer r))] else []) (filter (cov y) ps)).
    { clear. induction ps as [|[u v] ps IH]; auto. cbn [flat_map filter]. rewrite filter_app, IH.
      unfold cov at 2. cbn [fst snd].
      destruct (Rltb (l_depth (g_layer u)) y && Rltb y (l_depth (g_layer v)))%bool eqn:C;
        destruct (String.eqb (g_hatch u) (g_hatch r) && String.eqb (g_hatch v) (g_hatch r))%bool eqn:D;
        cbn [flat_map filter]; rewrite ?C, ?D; reflexivity. }
    rewrite X, H. cbn [flat_map]. rewrite <- Hh, andb_diag, app_nil_r.
    destruct (String.eqb (g_hatch a) (g_hatch r)); reflexivity. }
  rewrite E, lastopt_map. now destruct (lastopt _).
Qed.

Section Cover.
  Variables (G : layer -> grow).
  Hypothesis G_layer : forall r, g_layer (G r) = r.

  Lemma cover_none y rows : Forall (fun r => y <= l_depth r) rows -> filter (cov y) (pairs (map G rows)) = [].
  Proof.
    intros F. apply filter_none. apply Forall_forall. intros [a b] Hp. apply in_combine_l in Hp.
    apply in_map_iff in Hp as (r & <- & Hr). rewrite Forall_forall in F. specialize (F _ Hr).
    unfold cov. cbn [fst]. rewrite G_layer. rewrite (proj2 (Rltb_false _ _)) by lra. reflexivity.
  Qed.

  Lemma cover_spans c z0 y : forall prev i l,
    StronglySorted (fun a b => l_depth a < l_depth b) c -> nth_error c i = Some l ->
    l_depth (match i with O => prev | S j => nth j c prev end) < y < l_depth l ->
    (forall x, In x c -> l_depth prev < l_depth x) ->
    filter (cov y) (pairs (map G (spans prev c ++ [with_label (last c prev) z0]))) =
    [(G (with_label (match i with O => prev | S j => nth j c prev end) (l_label l)), G (with_label l (l_label l)))].
  Proof.
    induction c as [|x c IH]; intros prev i l SD Hi Hy Hp; [destruct i; discriminate|].
    inversion SD as [|? ? S1 S2]; subst. rewrite Forall_forall in S2.
    assert (EL : last (x :: c) prev = last c x).
    { destruct c as [|y' c]; [reflexivity|]. change (last (y' :: c) prev = last (y' :: c) x). apply last_default. }
    rewrite EL. cbn [spans app map]. unfold pairs. cbn [skipn combine].
    set (tail := map G (spans x c ++ [with_label (last c x) z0])) in *.
    assert (Ht : exists t0 t, tail = t0 :: t /\ l_depth (g_layer t0) = l_depth x).
    { unfold tail. destruct c as [|x' c]; cbn [spans app map]; eexists _, _; split; try reflexivity; rewrite G_layer; reflexivity. }
    destruct Ht as (t0 & t & Et & Dt).
    assert (P2 : filter (cov y) (combine (G (with_label x (l_label x)) :: tail) tail) = filter (cov y) (pairs tail)).
    { rewrite Et. cbn [combine filter]. unfold cov at 1. cbn [fst snd]. rewrite G_layer, Dt.
      cbn [with_label l_depth].
      replace (Rltb (l_depth x) y && Rltb y (l_depth x))%bool with false.
      - reflexivity.
      - symmetry. apply andb_false_iff. destruct (Rle_dec y (l_depth x)).
        + left. apply Rltb_false. lra.
        + right. apply Rltb_false. lra. }
    cbn [filter]. unfold cov at 1. cbn [fst snd]. rewrite !G_layer. cbn [with_label l_depth].
    destruct i as [|i].
    - cbn in Hi. injection Hi as ->.
      rewrite (proj2 (Rltb_true _ _)), (proj2 (Rltb_true _ _)) by lra. cbn [andb]. f_equal.
      change (filter (cov y) (combine (G (with_label l (l_label l)) :: tail) tail) = []).
      rewrite P2. unfold tail. apply cover_none.
      assert (Q : forall c z, (forall x, In x c -> y <= l_depth x) -> y <= l_depth z ->
                Forall (fun r => y <= l_depth r) (spans z c) /\ y <= l_depth (last c z)).
      { clear. induction c as [|x c IH]; intros z H1 H2; [split; auto; constructor|].
        destruct (IH x) as [I1 I2]; auto.
        { intros; apply H1; now right. } { apply H1. now left. }
        split.
        - cbn [spans]. constructor; [exact H2|]. constructor; [cbn; apply H1; now left|exact I1].
        - destruct c as [|x' c]; [apply H1; now left|].
          change (y <= l_depth (last (x' :: c) z)). erewrite last_default. exact I2. }
      destruct (Q c l) as [Q1 Q2].
      { intros x Hx. specialize (S2 _ Hx). lra. } { lra. }
      apply Forall_app. split; auto.
    - cbn in Hi.
      assert (Hd : l_depth x <= l_depth (match i with O => x | S j => nth j c x end)).
      { destruct i as [|j]; [lra|]. apply Rlt_le, S2. apply nth_In.
        assert (S j < length c)%nat by (apply nth_error_Some; congruence). lia. }
      assert (Eq : match S i with O => prev | S j => nth j (x :: c) prev end = match i with O => x | S j => nth j c x end).
      { destruct i as [|j]; [reflexivity|]. cbn [nth]. apply nth_indep.
        assert (S j < length c)%nat by (apply nth_error_Some; congruence). lia. }
      rewrite Eq in *. rewrite (proj2 (Rltb_false y (l_depth x))) by lra. rewrite andb_false_r.
      change (filter (cov y) (combine (G (with_label x (l_label x)) :: tail) tail) =
        [(G (with_label match i with O => x | S j => nth j c x end (l_label l)), G (with_label l (l_label l)))]).
      rewrite P2. unfold tail. apply IH; auto.
  Qed.

  (** The last row of a hatch belongs to the deepest layer that has it. *)
  Lemma last_of_hatch (p : string -> bool) c : forall prev,
    match lastopt (filter (fun r => p (l_label r)) c) with
    | Some d => option_map l_icepct
        (lastopt (filter (fun r => p (l_label r)) (spans prev c ++ [with_label (last c prev) (l_label (last c prev))])))
        = Some (l_icepct d)
    | None => c <> [] ->
        lastopt (filter (fun r => p (l_label r)) (spans prev c ++ [with_label (last c prev) (l_label (last c prev))])) = None
    end.
  Proof.
    induction c as [|x c IH]; intros prev; [cbn; congruence|].
    assert (EL : last (x :: c) prev = last c x).
    { destruct c as [|y' c]; [reflexivity|]. change (last (y' :: c) prev = last (y' :: c) x). apply last_default. }
    rewrite EL. specialize (IH x).
    set (tail := spans x c ++ [with_label (last c x) (l_label (last c x))]) in *.
    change (spans prev (x :: c) ++ [with_label (last c x) (l_label (last c x))])
      with ([with_label prev (l_label x); with_label x (l_label x)] ++ tail).
    change (x :: c) with ([x] ++ c). rewrite !filter_app, !lastopt_app.
    destruct (lastopt (filter (fun r => p (l_label r)) c)) as [d|] eqn:Ed.
    - destruct (lastopt (filter _ tail)); [exact IH|discriminate].
    - cbn [filter with_label l_label]. destruct c as [|x' c].
      + unfold tail. cbn [spans last app filter with_label l_label]. destruct (p (l_label x)); cbn; auto.
      + rewrite IH by discriminate. destruct (p (l_label x)); cbn; auto.
  Qed.
End Cover.

Lemma lastopt_filter {A} (p : A -> bool) l x : lastopt (filter p l) = Some x ->
  exists k, nth_error l k = Some x /\ p x = true /\
    forall k' x', (k < k')%nat -> nth_error l k' = Some x' -> p x' = false.
Proof.
  induction l as [|a l IH]; [discriminate|]. change (a :: l) with ([a] ++ l). rewrite filter_app, lastopt_app.
  destruct (lastopt (filter p l)) as [y|] eqn:E.
  - injection 1 as ->. destruct (IH eq_refl) as (k & H1 & H2 & H3). exists (S k). split; [exact H1|]. split; auto.
    intros [|k'] x' L N; [lia|]. apply (H3 k' x'); [lia|exact N].
  - cbn [filter]. destruct (p a) eqn:Ea; [|discriminate]. cbn. injection 1 as ->. exists O. split; auto. split; auto.
    assert (F : filter p l = []).
    { unfold lastopt in E. destruct (rev (filter p l)) eqn:Er; [|discriminate].
      apply (f_equal (@rev A)) in Er. now rewrite rev_involutive in Er. }
    intros [|k'] x' L N; [lia|]. cbn in N. destruct (p x') eqn:Ex; auto. exfalso.
    assert (X : In x' (filter p l)) by (apply filter_In; split; auto; eapply nth_error_In; eauto).
    rewrite F in X. contradiction.
Qed.

Lemma nth_error_rev_sorted col : stacked col -> StronglySorted (fun a b => l_depth a < l_depth b) (rev col).
Proof. intros [S _]. exact (SS_rev _ _ S). Qed.

Lemma colour_spec by_depth by_diam hash cdf col out i l d y :
  sorts_by l_depth by_depth -> stacked col -> get_strat_col_ranges by_depth by_diam hash cdf col = Ok out ->
  layer_from_top col i l -> begins_at col i d -> d < y < l_depth l ->
  exists k l' a b, (i <= k)%nat /\ layer_from_top col k l' /\
    nth_error out (2 * i + 1) = Some a /\ nth_error out (2 * k + 1) = Some b /\ g_hatch b = g_hatch a /\
    (forall k' c, (k < k')%nat -> nth_error out (2 * k' + 1) = Some c -> g_hatch c <> g_hatch a) /\
    visible_at (fills out) y = Some (l_icepct l').
Proof.
  intros SD K E L B Y. unfold layer_from_top in L. pose proof (col_nonempty _ _ _ L) as N.
  destruct (ranges_map _ _ _ _ _ _ SD K N E) as (H & H1 & Eo).
  set (G := fun r => mk_grow r (fst (H (l_label r))) (snd (H (l_label r)))) in *.
  assert (GL : forall r, g_layer (G r) = r) by reflexivity.
  set (c := rev col) in *.
  assert (D : d = l_depth (match i with O => zero_row | S j => nth j c zero_row end)).
  { destruct i as [|j]; cbn [begins_at] in B; [exact B|]. destruct B as (x & Hx & ->).
    unfold layer_from_top in Hx. fold c in Hx. now rewrite (nth_error_nth c j zero_row Hx). }
  subst d.
  assert (Z : forall x, In x c -> l_depth zero_row < l_depth x).
  { intros x Hx. destruct K as [_ K]. rewrite Forall_forall in K. apply K. now apply in_rev. }
  pose proof (cover_spans G GL c (l_label (last c zero_row)) y zero_row i l (nth_error_rev_sorted col K) L Y Z) as C.
  fold (all_spans c) in C. rewrite <- Eo in C.
  rewrite (fills_cover out y _ _ C eq_refl). rewrite Eo.
  set (h := fst (H (l_label l))).
  change (g_hatch (G (with_label match i with O => zero_row | S j => nth j c zero_row end (l_label l)))) with h.
  set (p := fun s => String.eqb h (fst (H s))).
  assert (F : filter (fun r => String.eqb h (g_hatch r)) (map G (all_spans c)) =
              map G (filter (fun r => p (l_label r)) (all_spans c))).
  { generalize (all_spans c). intros rows. induction rows as [|r rows IH]; auto. cbn [map filter].
    change (String.eqb h (g_hatch (G r))) with (p (l_label r)). destruct (p (l_label r)); cbn [map]; now rewrite IH. }
  rewrite F, lastopt_map.
  pose proof (last_of_hatch p c zero_row) as Q. fold (all_spans c) in Q.
  destruct (lastopt (filter (fun r => p (l_label r)) c)) as [l'|] eqn:El.
  - destruct (lastopt_filter _ _ _ El) as (k & K1 & K2 & K3).
    assert (Ik : (i <= k)%nat).
    { destruct (le_lt_dec i k); auto. specialize (K3 i l l0 L). unfold p in K3. fold h in K3.
      rewrite String.eqb_refl in K3. discriminate. }
    destruct (all_spans_nth c i l L) as [_ A]. destruct (all_spans_nth c k l' K1) as [_ A'].
    exists k, l', (G (with_label l (l_label l))), (G (with_label l' (l_label l'))).
    split; auto. split; [exact K1|]. split; [exact (map_nth_error _ _ _ A)|]. split; [exact (map_nth_error _ _ _ A')|].
    split; [unfold p in K2; apply String.eqb_eq in K2; exact (eq_sym K2)|]. split.
    + intros k' r Lk Hr. assert (Lc : (k' < length c)%nat).
      { assert (2 * k' + 1 < length (map G (all_spans c)))%nat by (apply nth_error_Some; congruence).
        rewrite map_length, all_spans_length in H0. lia. }
      destruct (nth_error c k') as [x|] eqn:Ex; [|apply nth_error_None in Ex; lia].
      destruct (all_spans_nth c k' x Ex) as [_ A'']. rewrite (map_nth_error _ _ _ A'') in Hr. injection Hr as <-.
      specialize (K3 k' x Lk Ex). unfold p in K3. apply String.eqb_neq in K3. intros X. apply K3. exact (eq_sym X).
    + rewrite <- Q. destruct (lastopt (filter (fun r => p (l_label r)) (all_spans c))); reflexivity.
  - exfalso. assert (X : In l (filter (fun r => p (l_label r)) c)).
    { apply filter_In. split; [eapply nth_error_In; exact L|]. unfold p. fold h. apply String.eqb_refl. }
    unfold lastopt in El. destruct (rev (filter (fun r => p (l_label r)) c)) eqn:Er; [|discriminate].
    apply (f_equal (@rev layer)) in Er. rewrite rev_involutive in Er. cbn in Er. rewrite Er in X. contradiction.
Qed.

(** * Hatches *)
Lemma loc_names_ok cdf liths :
  match loc_names cdf liths with
  | Ok rows => (forall l, In l liths -> exists d, In (l, d) cdf) /\
               (forall n d, In (n, d) rows <-> In n liths /\ In (n, d) cdf)
  | Err e => e = KeyError /\ exists l, In l liths /\ forall d, ~ In (l, d) cdf
  end.
Proof.
  unfold loc_names. induction liths as [|l liths IH]; cbn [mapM].
  - cbn. split; [contradiction|]. tauto.
  - assert (Fl : forall n d, In (n, d) (filter (fun '(n, _) => String.eqb n l) cdf) <-> n = l /\ In (n, d) cdf).
    { intros n d. rewrite filter_In, String.eqb_eq. tauto. }
    destruct (filter (fun '(n, _) => String.eqb n l) cdf) as [|[n0 d0] rows] eqn:Ef; cbn [bind].
    + split; auto. exists l. split; [now left|]. intros d Hd. apply (Fl l d). auto.
    + assert (X : exists d, In (l, d) cdf).
      { destruct (proj1 (Fl n0 d0) (or_introl eq_refl)) as [-> X]. eauto. }
      destruct (mapM _ liths) as [o|e] eqn:Eo; cbn [bind] in *.
      * destruct IH as [I1 I2]. split.
        -- intros l' [<-|Hl]; auto.
        -- intros n d. change (concat (((n0, d0) :: rows) :: o)) with (((n0, d0) :: rows) ++ concat o).
           rewrite in_app_iff, Fl, I2. cbn [In]. split.
           ++ intros [[-> H]|[H1 H2]]; auto.
           ++ intros [[<-|H1] H2]; auto.
      * destruct IH as (I1 & l' & I2 & I3). split; auto. exists l'. split; [now right|auto].
Qed.

Lemma split_nonempty s : split s <> [].
Proof. destruct s as [|a s]; cbn; [discriminate|]. destruct (Ascii.eqb a comma); [discriminate|]. destruct (split s); discriminate. Qed.

Lemma hatch_label_ok by_diam cdf label : sorts_by snd by_diam ->
  match hatch_label by_diam cdf label with
  | Ok n => ((length (split label) = 1)%nat /\ n = label) \/
            ((1 < length (split label))%nat /\ In n (split label) /\
             exists d, In (n, d) cdf /\ forall n' d', In n' (split label) -> In (n', d') cdf -> d' <= d)
  | Err e => e = KeyError /\ (1 < length (split label))%nat /\
             exists l, In l (split label) /\ forall d, ~ In (l, d) cdf
  end.
Proof.
  intros SD. unfold hatch_label. destruct (Nat.ltb_spec 1 (length (split label))) as [L|L].
  - pose proof (loc_names_ok cdf (split label)) as H. destruct (loc_names cdf (split label)) as [rows|e]; cbn [bind].
    + destruct H as [H1 H2]. destruct (SD rows) as [P Q].
      destruct (rev (by_diam rows)) as [|[n d] r] eqn:Er.
      * exfalso. apply (f_equal (@rev _)) in Er. rewrite rev_involutive in Er. cbn in Er. rewrite Er in P.
        apply Permutation_sym, Permutation_nil in P. subst rows.
        destruct (split label) as [|l0 ls]; [cbn in L; lia|]. destruct (H1 l0 (or_introl eq_refl)) as [d Hd].
        apply (H2 l0 d). split; [now left|auto].
      * right. split; auto. apply (f_equal (@rev _)) in Er. rewrite rev_involutive in Er. cbn in Er.
        assert (X : In (n, d) rows).
        { eapply Permutation_in; [symmetry; exact P|]. rewrite Er. apply in_or_app. right. now left. }
        apply H2 in X as [X1 X2]. split; auto. exists d. split; auto.
        intros n' d' Hn Hd. assert (Y : In (n', d') (by_diam rows)).
        { eapply Permutation_in; [exact P|]. apply H2. auto. }
        rewrite Er in Y, Q. apply in_app_or in Y as [Y|[Y|[]]]; [|injection Y as <- <-; lra].
        apply StronglySorted_app_inv in Q. destruct Q as (_ & _ & Q).
        rewrite Forall_forall in Q. specialize (Q _ Y). now inversion Q.
    + destruct H as [-> H]. auto.
  - left. split; auto. pose proof (split_nonempty label). destruct (split label); [congruence|]. cbn in L. cbn. lia.
Qed.

Lemma dict_get_In {A} (d : list (string * A)) k v : In (k, v) d -> exists v', dict_get d k = Ok v'.
Proof.
  intros H. unfold dict_get. destruct (find _ (rev d)) as [[k' v']|] eqn:E; [eauto|].
  apply in_rev in H. pose proof (find_none _ _ E _ H) as X. cbn in X. rewrite String.eqb_refl in X. discriminate.
Qed.

Lemma key_has hash liths n : In n liths -> exists h, dict_get (get_lith_key hash liths) n = Ok h.
Proof.
  intros H. unfold get_lith_key. eapply dict_get_In. apply in_or_app. left. apply in_map_iff.
  exists n. split; [reflexivity|auto].
Qed.

Lemma split_self s : (length (split s) = 1)%nat -> split s = [s].
Proof.
  induction s as [|a s IH]; intros H; [reflexivity|]. cbn [split] in *.
  destruct (Ascii.eqb a comma).
  - cbn in H. pose proof (split_nonempty s). destruct (split s); [congruence|]. cbn in H. lia.
  - pose proof (split_nonempty s) as N. destruct (split s) as [|p ps]; [congruence|]. cbn in H.
    destruct ps; [|cbn in H; lia]. specialize (IH eq_refl). injection IH as ->. reflexivity.
Qed.

Lemma all_spans_labels c r : In r (all_spans c) -> c <> [] -> exists l, In l c /\ l_label r = l_label l.
Proof.
  intros H N. unfold all_spans in H. apply in_app_or in H as [H|[H|[]]].
  - revert H. clear N. generalize zero_row. induction c as [|x c IH]; intros z H; [contradiction|].
    cbn [spans] in H. destruct H as [<-|[<-|H]].
    + exists x. split; [now left|reflexivity].
    + exists x. split; [now left|reflexivity].
    + destruct (IH _ H) as (l & H1 & H2). exists l. split; [now right|auto].
  - exists (last c zero_row). split; [|subst r; reflexivity].
    destruct (exists_last N) as (i & x & ->). rewrite last_last. apply in_or_app. right. now left.
Qed.

Lemma mapM_total {A B} (f : A -> result B) l :
  match mapM f l with
  | Ok _ => forall a, In a l -> exists b, f a = Ok b
  | Err e => exists a, In a l /\ f a = Err e
  end.
Proof.
  induction l as [|a l IH]; cbn [mapM]; [contradiction|].
  destruct (f a) as [b|e] eqn:Ea; cbn [bind].
  - destruct (mapM f l); cbn [bind].
    + intros x [<-|Hx]; eauto.
    + destruct IH as (x & H1 & H2). exists x. split; [now right|auto].
  - exists a. split; [now left|auto].
Qed.

Lemma ranges_errors by_depth by_diam hash cdf col :
  sorts_by l_depth by_depth -> sorts_by snd by_diam -> stacked col ->
  let unknown l := (1 < length (split (l_label l)))%nat /\
                   exists s, In s (split (l_label l)) /\ forall d, ~ In (s, d) cdf in
  match get_strat_col_ranges by_depth by_diam hash cdf col with
  | Ok _ => forall l, In l col -> ~ unknown l
  | Err e => e = KeyError /\ exists l, In l col /\ unknown l
  end.
Proof.
  intros SD SD' K unknown. destruct col as [|l0 col0] eqn:Ec; [intros l []|]. rewrite <- Ec in *.
  assert (N : col <> []) by (rewrite Ec; discriminate).
  rewrite (ranges_rows _ _ _ _ _ SD K N). clear Ec l0 col0.
  set (f := fun r : layer => let* label := hatch_label by_diam cdf (l_label r) in _).
  pose proof (mapM_total f (all_spans (rev col))) as M.
  assert (Nr : rev col <> []).
  { intros X. apply (f_equal (@rev _)) in X. rewrite rev_involutive in X. now apply N. }
  assert (In' : forall l, In l col -> exists r, In r (all_spans (rev col)) /\ l_label r = l_label l).
  { intros l Hl. apply in_rev in Hl. destruct (In_nth_error _ _ Hl) as [i Hi].
    destruct (all_spans_nth _ _ _ Hi) as [_ A]. eexists. split; [eapply nth_error_In; exact A|reflexivity]. }
  destruct (mapM f (all_spans (rev col))) as [out|e].
  - intros l Hl [U1 (s & U2 & U3)]. destruct (In' l Hl) as (r & Hr & Er). destruct (M r Hr) as [b Hb].
    unfold f in Hb. rewrite Er in Hb. pose proof (hatch_label_ok by_diam cdf (l_label l) SD') as Q.
    destruct (hatch_label by_diam cdf (l_label l)) as [n|e] eqn:En; [|discriminate].
    destruct Q as [[Q _]|(_ & _ & _)]; [lia|].
    unfold hatch_label in En. destruct (Nat.ltb_spec 1 (length (split (l_label l)))); [|lia].
    pose proof (loc_names_ok cdf (split (l_label l))) as Z. destruct (loc_names cdf (split (l_label l))); [|discriminate].
    destruct Z as [Z _]. destruct (Z s U2) as [d Hd]. now apply (U3 d).
  - destruct M as (r & Hr & Er). destruct (all_spans_labels _ _ Hr Nr) as (l & Hl & El). apply in_rev in Hl.
    unfold f in Er. pose proof (hatch_label_ok by_diam cdf (l_label r) SD') as Q.
    destruct (hatch_label by_diam cdf (l_label r)) as [n|e'] eqn:En; cbn [bind] in Er.
    + exfalso. assert (X : In n (flat_map split (map l_label (all_spans (rev col))))).
      { apply in_flat_map. exists (l_label r). split; [now apply in_map|].
        destruct Q as [[Q1 ->]|(_ & Q & _)]; [rewrite (split_self _ Q1); now left|auto]. }
      destruct (key_has hash _ _ X) as [h Hh]. rewrite Hh in Er. discriminate.
    + injection Er as <-. destruct Q as (-> & Q1 & Q2). split; auto. exists l. split; auto.
      unfold unknown. rewrite <- El. auto.
Qed.

(** A sort. *)
Fixpoint insert_by {A} (key : A -> R) (x : A) (l : list A) : list A :=
  match l with
  | [] => [x]
  | y :: r => if Rleb (key x) (key y) then x :: l else y :: insert_by key x r
  end.
Definition isort {A} (key : A -> R) (l : list A) : list A := fold_right (insert_by key) [] l.

Lemma insert_by_In {A} (key : A -> R) x s z : In z (insert_by key x s) -> z = x \/ In z s.
Proof.
  induction s as [|y s IH]; cbn [insert_by].
  - intros [H|[]]; auto.
  - destruct (Rleb (key x) (key y)); cbn [In].
    + intros [H|H]; auto.
    + intros [H|H]; auto. destruct (IH H); auto.
Qed.

Lemma isort_ok {A} (key : A -> R) : sorts_by key (isort key).
Proof.
  intros l. induction l as [|x l [P Q]]; cbn [isort fold_right]; [split; constructor|].
  fold (isort key l). set (s := isort key l) in *. clearbody s. split.
  - etransitivity; [apply perm_skip; exact P|]. clear. induction s as [|y s IH]; cbn [insert_by]; auto.
    destruct (Rleb (key x) (key y)); auto. etransitivity; [apply perm_swap|]. now apply perm_skip.
  - clear P. induction Q as [|y s S IH F]; cbn [insert_by]; [repeat constructor|].
    destruct (Rleb (key x) (key y)) eqn:E; [apply Rleb_true in E|apply Rleb_false in E].
    + constructor; [constructor; auto|]. constructor; [exact E|]. eapply Forall_impl; [|exact F]. cbn. intros; lra.
    + constructor; [exact IH|]. apply Forall_forall. intros z Hz. apply insert_by_In in Hz as [->|Hz]; [lra|].
      rewrite Forall_forall in F. auto.
Qed.
