(** C72, continued: which hatch a layer is drawn with. *)
From Coq Require Import String Ascii List ZArith Reals Bool Lia.
From Verif Require Import Base Model_Strat Model_Plot Spec_Hatch Proofs_Base.
Import ListNotations.
Open Scope list_scope.

Lemma mapM_each {A B} (f : A -> result B) l : forall out b, mapM f l = Ok out -> In b out -> exists a, In a l /\ f a = Ok b.
Proof.
  induction l as [|a l IH]; intros out b H I; cbn in H; [injection H as <-; destruct I|].
  destruct (f a) as [y|] eqn:F; cbn in H; [|discriminate]. destruct (mapM f l) as [ys|] eqn:M; cbn in H; [|discriminate].
  injection H as <-. destruct I as [<-|I]; [exists a; split; [now left|auto]|].
  destruct (IH ys b eq_refl I) as (x & Hx & Fx). exists x. split; [now right|auto].
Qed.
Definition pick (hash : string -> Z) (label : string) : string :=
  nth (Z.to_nat (hash label mod 35)) HATCHES EmptyString.
Lemma key_get hash liths label h : dict_get (get_lith_key hash liths) label = Ok h ->
  (label = "Other"%string /\ h = ""%string) \/ (label = "Ice"%string /\ h = ".."%string) \/
  (~ no_source label /\ h = pick hash label).
Proof.
  unfold dict_get, get_lith_key. rewrite rev_app_distr. cbn [rev app find].
  destruct (String.eqb_spec label "Other") as [->|N1]; [intros [= <-]; auto|].
  destruct (String.eqb_spec label "Ice") as [->|N2]; [intros [= <-]; auto|].
  destruct (find _ _) as [[k v]|] eqn:F; [|discriminate]. intros [= <-]. right. right.
  apply find_some in F as [I E]. apply String.eqb_eq in E. subst k.
  apply in_rev, in_map_iff in I as (x & [= -> <-] & _). split; [intros [X|X]; contradiction|]. reflexivity.
Qed.
Lemma row_hatch by_depth by_diam hash cdf col out g :
  get_strat_col_ranges by_depth by_diam hash cdf col = Ok out -> In g out ->
  (g_hatchlabel g = "Other"%string /\ g_hatch g = ""%string) \/ (g_hatchlabel g = "Ice"%string /\ g_hatch g = ".."%string) \/
  (~ no_source (g_hatchlabel g) /\ g_hatch g = pick hash (g_hatchlabel g)).
Proof.
  intros E I. unfold get_strat_col_ranges in E. destruct col as [|l col]; [injection E as <-; destruct I|].
  destruct (mapM_each _ _ _ _ E I) as (r & _ & F). cbv beta in F.
  destruct (hatch_label by_diam cdf (l_label r)) as [label|]; cbn [bind] in F; [|discriminate].
  destruct (dict_get _ label) as [h|] eqn:D; cbn [bind] in F; [|discriminate]. injection F as <-. cbn [g_hatchlabel g_hatch].
  now apply key_get in D.
Qed.
Lemma HATCHES_eq : HATCHES = flat_map (fun c => map (fun n => times n c) [1; 2; 3; 4; 5]%nat) hatch_signs.
Proof. reflexivity. Qed.
Lemma HATCHES_NoDup : NoDup HATCHES.
Proof.
  assert (D : forall l : list string, (fix go l := match l with [] => true | x :: r => negb (existsb (String.eqb x) r) && go r end) l = true -> NoDup l).
  { induction l as [|x l IH]; intros H; constructor; apply andb_true_iff in H as [H1 H2]; auto.
    intros I. apply negb_true_iff in H1. assert (T : existsb (String.eqb x) l = true).
    { apply existsb_exists. exists x. split; auto. apply String.eqb_refl. } congruence. }
  apply D. reflexivity.
Qed.
Lemma pick_In hash label : In (pick hash label) HATCHES.
Proof.
  unfold pick. apply nth_In. change (length HATCHES) with 35%nat.
  pose proof (Z.mod_pos_bound (hash label) 35). lia.
Qed.
Lemma pick_inj hash label label' : pick hash label = pick hash label' -> (hash label mod 35 = hash label' mod 35)%Z.
Proof.
  intros H. pose proof (Z.mod_pos_bound (hash label) 35 ltac:(lia)). pose proof (Z.mod_pos_bound (hash label') 35 ltac:(lia)).
  apply Z2Nat.inj; try lia.
  apply (proj1 (NoDup_nth HATCHES EmptyString) HATCHES_NoDup); auto; change (length HATCHES) with 35%nat; lia.
Qed.

(** Ice is dotted, what has no single source is plain, and ejecta are hatched with one of
    seven signs, written one to five times. *)
Theorem C72_hatch : forall by_depth by_diam hash cdf col out g,
  get_strat_col_ranges by_depth by_diam hash cdf col = Ok out -> In g out ->
  (g_hatchlabel g = "Ice"%string /\ g_hatch g = times 2 ".") \/
  (g_hatchlabel g = "Other"%string /\ g_hatch g = times 0 ".") \/
  (~ no_source (g_hatchlabel g) /\
   exists c n, In c hatch_signs /\ (1 <= n <= 5)%nat /\ g_hatch g = times n c).
Proof.
  intros by_depth by_diam hash cdf col out g E I. destruct (row_hatch _ _ _ _ _ _ _ E I) as [H|[H|[N H]]]; auto.
  right. right. split; auto. rewrite H. pose proof (pick_In hash (g_hatchlabel g)) as P. rewrite HATCHES_eq in P.
  apply in_flat_map in P as (c & Hc & P). apply in_map_iff in P as (n & <- & Hn). exists c, n. split; auto. split; auto.
  cbn in Hn. lia.
Qed.

(** Two layers of ejecta, in one column or in two, have the same hatch exactly if the hashes
    of their labels agree modulo 35; so a label always has the same hatch in one process. *)
Theorem C72_same_hatch : forall by_depth by_diam by_depth' by_diam' hash cdf cdf' col col' out out' g g',
  get_strat_col_ranges by_depth by_diam hash cdf col = Ok out -> In g out ->
  get_strat_col_ranges by_depth' by_diam' hash cdf' col' = Ok out' -> In g' out' ->
  ~ no_source (g_hatchlabel g) -> ~ no_source (g_hatchlabel g') ->
  (g_hatch g = g_hatch g' <-> (hash (g_hatchlabel g) mod 35 = hash (g_hatchlabel g') mod 35)%Z).
Proof.
  intros by_depth by_diam by_depth' by_diam' hash cdf cdf' col col' out out' g g' E I E' I' N N'.
  assert (P : forall g, (g_hatchlabel g = "Other"%string /\ g_hatch g = ""%string) \/ (g_hatchlabel g = "Ice"%string /\ g_hatch g = ".."%string) \/
    (~ no_source (g_hatchlabel g) /\ g_hatch g = pick hash (g_hatchlabel g)) -> ~ no_source (g_hatchlabel g) -> g_hatch g = pick hash (g_hatchlabel g)).
  { intros x [[H _]|[[H _]|[_ H]]] X; auto; exfalso; apply X; red; auto. }
  rewrite (P _ (row_hatch _ _ _ _ _ _ _ E I) N), (P _ (row_hatch _ _ _ _ _ _ _ E' I') N'). split; [apply pick_inj|].
  intros H. unfold pick. now rewrite H.
Qed.

(** Ejecta are never drawn like ice or like a mixture. *)
Theorem C72_ice_apart : forall by_depth by_diam hash cdf col out g g',
  get_strat_col_ranges by_depth by_diam hash cdf col = Ok out -> In g out -> In g' out ->
  g_hatch g = g_hatch g' -> no_source (g_hatchlabel g) -> g_hatchlabel g' = g_hatchlabel g.
Proof.
  intros by_depth by_diam hash cdf col out g g' E I I' H N.
  assert (Q : ~ In ""%string HATCHES /\ ~ In ".."%string HATCHES).
  { split; intros X; cbn in X; repeat (destruct X as [X|X]; [discriminate|]); destruct X. }
  pose proof (pick_In hash (g_hatchlabel g')) as P.
  destruct (row_hatch _ _ _ _ _ _ _ E I) as [[L1 L2]|[[L1 L2]|[L _]]];
    destruct (row_hatch _ _ _ _ _ _ _ E I') as [[M1 M2]|[[M1 M2]|[M1 M2]]]; try congruence; try contradiction;
    exfalso; rewrite <- M2, <- H, L2 in P; tauto.
Qed.

(** With more than 35 sources, two of them share a hatch, whatever the hashes are. *)
Theorem C72_repeats : forall by_depth by_diam hash cdf col out labels,
  get_strat_col_ranges by_depth by_diam hash cdf col = Ok out ->
  NoDup labels -> (forall n, In n labels -> ~ no_source n /\ exists g, In g out /\ g_hatchlabel g = n) ->
  (35 < length labels)%nat ->
  exists g g', In g out /\ In g' out /\ g_hatchlabel g <> g_hatchlabel g' /\ g_hatch g = g_hatch g'.
Proof.
  intros by_depth by_diam hash cdf col out labels E ND H L.
  assert (D : exists a b, In a labels /\ In b labels /\ a <> b /\ pick hash a = pick hash b).
  { assert (DEC : forall l, NoDup l -> (exists a b, In a l /\ In b l /\ a <> b /\ pick hash a = pick hash b) \/ NoDup (map (pick hash) l)).
    { induction l as [|a l IH]; intros N; [right; constructor|]. inversion N as [|? ? NI N']; subst.
      destruct (IH N') as [(x & y & X & Y & Z)|U]; [left; exists x, y; split; [now right|split; [now right|auto]]|].
      destruct (in_dec string_dec (pick hash a) (map (pick hash) l)) as [J|J]; [|right; constructor; auto].
      apply in_map_iff in J as (b & Eb & Ib). left. exists a, b. split; [now left|]. split; [now right|]. split; [intros ->; contradiction|auto]. }
    destruct (DEC labels ND) as [X|U]; auto. exfalso.
    assert (LE : (length (map (pick hash) labels) <= length HATCHES)%nat).
    { apply NoDup_incl_length; auto. intros x X. apply in_map_iff in X as (y & <- & _). apply pick_In. }
    rewrite map_length in LE. change (length HATCHES) with 35%nat in LE. lia. }
  destruct D as (a & b & Ia & Ib & N & P). destruct (H _ Ia) as (Na & g & Ig & <-), (H _ Ib) as (Nb & g' & Ig' & <-).
  exists g, g'. split; auto. split; auto. split; auto.
  destruct (row_hatch _ _ _ _ _ _ _ E Ig) as [[X _]|[[X _]|[_ Hg]]]; try solve [exfalso; apply Na; red; auto].
  destruct (row_hatch _ _ _ _ _ _ _ E Ig') as [[X _]|[[X _]|[_ Hg']]]; try solve [exfalso; apply Nb; red; auto].
  congruence.
Qed.

(** The comment in the code says that there are 28 different hatches; there are 35. *)
Theorem C72_28_refuted : length HATCHES = 35%nat /\ NoDup HATCHES.
Proof. split; [reflexivity|exact HATCHES_NoDup]. Qed.

(** Three layers: ice and two sources whose hashes are 0 and 36. *)
Example C72_hatch_case :
  let hash s := if String.eqb s "B" then 36%Z else 0%Z in
  exists out, get_strat_col_ranges (fun l => l) (fun l => l) hash []
    [mk_layer 1 0 "Ice" 3 1 (Some 100); mk_layer 0 1 "A" 2 2 (Some 0); mk_layer 0 1 "B" 1 3 (Some 0)]%R%string = Ok out /\
  map (fun g => (g_hatchlabel g, g_hatch g)) out =
    [("Ice", ".."); ("A", "/"); ("B", "//"); ("Ice", ".."); ("A", "/"); ("B", "//"); ("B", "//")]%string.
Proof. eexists. split; reflexivity. Qed.

Print Assumptions C72_hatch.
Print Assumptions C72_same_hatch.
Print Assumptions C72_ice_apart.
Print Assumptions C72_repeats.
Print Assumptions C72_28_refuted.
