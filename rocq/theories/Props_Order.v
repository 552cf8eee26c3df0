(** C99: which craters the figures show, and in which order. *)
From Coq Require Import ZArith QArith Qreals Bool String List Reals Lra Lia Permutation.
From Verif Require Import Base Data_Shipped Model_Cfg Spec_Cfg Props_Cfg Model_Main Model_Run Model_Columns
  Spec_Run Proofs_Cfg Proofs_Run Proofs_Shipped Props_Run.
Import ListNotations.
Open Scope R_scope.

(** They show the default cold traps of the south pole, each once. *)
Theorem C99_craters : forall E kw c, Cfg E kw = Ok c -> lookup "pole" kw = None -> lookup "coldtrap_names" kw = None ->
  exists names, getv c "coldtrap_names" = VTuple (map VStr names) /\ Permutation names CORDER /\ NoDup CORDER.
Proof.
  intros E kw c H P N. exists with_hop. split.
  - assert (X : stored E "coldtrap_names" (VTuple (map VStr with_hop)) (getv c "coldtrap_names")); [|exact X].
    apply (C39_pole_fills E kw c "coldtrap_names" "s" _ H).
    + unfold start. rewrite P. reflexivity.
    + vm_compute. reflexivity.
    + unfold start. rewrite N. reflexivity.
  - assert (D : NoDup CORDER) by (apply nodupb_ok; reflexivity). split; [|exact D].
    apply NoDup_Permutation; [apply nodupb_ok; reflexivity|exact D|]. intros x. split; [|].
    + revert x. apply inclb_ok. reflexivity.
    + revert x. apply inclb_ok. reflexivity.
Qed.

Definition age_in (n : string) : Q := match find (fun l => String.eqb (ln_name l) n) clines with Some l => ln_age l | None => 0%Q end.
Lemma age_of : forall w, In w (map raw0 clines) -> w_age w = Q2R (age_in (w_name w)).
Proof.
  intros w I. apply in_map_iff in I as (l & <- & I). cbn [raw0 w_age w_name]. f_equal.
  assert (N : forallb (fun l => Qeq_bool (ln_age l) (age_in (ln_name l)) && Pos.eqb (Qden (ln_age l)) (Qden (age_in (ln_name l))) && Z.eqb (Qnum (ln_age l)) (Qnum (age_in (ln_name l)))) clines = true)
    by (vm_compute; reflexivity).
  rewrite forallb_forall in N. specialize (N l I). apply andb_prop in N as (N & A). apply andb_prop in N as (_ & B).
  apply Z.eqb_eq in A. apply Pos.eqb_eq in B. destruct (ln_age l), (age_in (ln_name l)). cbn in *. now subst.
Qed.
Fixpoint pairs_ok (f : string -> string -> bool) (l : list string) : bool :=
  match l with [] => true | a :: r => forallb (f a) r && pairs_ok f r end.
Lemma pairs_at : forall f l, pairs_ok f l = true -> forall i j a b, (i < j)%nat -> nth_error l i = Some a -> nth_error l j = Some b -> f a b = true.
Proof.
  induction l as [|x l IH]; intros H i j a b L A B; [destruct i; discriminate|]. cbn in H. apply andb_prop in H as (H1 & H2).
  destruct j as [|j]; [lia|]. cbn in B. destruct i as [|i].
  - cbn in A. injection A as ->. rewrite forallb_forall in H1. apply H1. eapply nth_error_In; eauto.
  - cbn in A. apply (IH H2 i j); auto. lia.
Qed.

(** Older craters come first, up to 0.1 billion years. *)
Theorem C99_order : forall E kw c fs names ws, Cfg E kw = Ok c -> only_switches kw -> installed fs c -> incl names shadowed ->
  read_crater_list fs c names = Ok ws ->
  (forall n, In n CORDER -> exists w, In w ws /\ w_name w = n) /\
  forall i j a b, (i < j)%nat -> In a ws -> In b ws -> nth_error CORDER i = Some (w_name a) -> nth_error CORDER j = Some (w_name b) ->
    w_age b < w_age a + 1 / 10.
Proof.
  intros E kw c fs names ws H U F I R. destruct (read_craters E kw c fs names H U F I) as (R' & _).
  assert (W : ws = map raw0 clines) by congruence. subst ws. split.
  - intros n N. assert (X : incl CORDER (map ln_name clines)) by (apply inclb_ok; vm_compute; reflexivity).
    apply X in N. apply in_map_iff in N as (l & <- & L). exists (raw0 l). split; [now apply in_map|reflexivity].
  - intros i j a b L A B Ni Nj. rewrite (age_of a A), (age_of b B).
    assert (P : pairs_ok (fun x y => negb (Qle_bool (age_in x + (1 # 10)) (age_in y))) CORDER = true) by (vm_compute; reflexivity).
    pose proof (pairs_at _ _ P i j _ _ L Ni Nj) as Q. cbv beta in Q. apply qlt in Q. rewrite Q2R_plus in Q.
    assert (T : Q2R (1 # 10) = 1 / 10) by (unfold Q2R; cbn [Qnum Qden]; lra). rewrite T in Q. exact Q.
Qed.

(** Older craters come first without exception: false, Faustini is before Haworth. *)
Theorem C99_order_refuted : exists E c fs ws i j a b, Cfg E [] = Ok c /\ installed fs c /\
  read_crater_list fs c with_hop = Ok ws /\ (i < j)%nat /\ In a ws /\ In b ws /\
  nth_error CORDER i = Some (w_name a) /\ nth_error CORDER j = Some (w_name b) /\
  w_name a = "Faustini"%string /\ w_name b = "Haworth"%string /\ w_age a < w_age b.
Proof.
  assert (H : Cfg day [] = Ok (built_from day [])) by (vm_compute; reflexivity).
  assert (F : installed disk0 (built_from day [])) by (apply disk0_installed; cbn [In]; tauto).
  assert (I : incl with_hop shadowed) by (apply inclb_ok; reflexivity).
  destruct (read_craters day [] _ disk0 with_hop H (fun _ _ => eq_refl) F I) as (R & _).
  exists day, (built_from day []), disk0, (map raw0 clines), 0%nat, 1%nat.
  assert (X : forall n, existsb (String.eqb n) (map ln_name clines) = true -> exists w, In w (map raw0 clines) /\ w_name w = n).
  { intros n N. apply existsb_eqb in N. apply in_map_iff in N as (l & <- & L). exists (raw0 l). split; [now apply in_map|reflexivity]. }
  destruct (X "Faustini"%string ltac:(vm_compute; reflexivity)) as (a & A & An).
  destruct (X "Haworth"%string ltac:(vm_compute; reflexivity)) as (b & B & Bn).
  exists a, b. rewrite An, Bn. split; [exact H|]. split; [exact F|]. split; [exact R|]. split; [lia|]. split; [exact A|]. split; [exact B|].
  do 4 (split; [reflexivity|]). rewrite (age_of a A), (age_of b B), An, Bn. apply qlt. vm_compute. reflexivity.
Qed.

Example C99_order_case : exists c ws, Cfg day [] = Ok c /\ only_switches [] /\ installed disk0 c /\ incl with_hop shadowed /\
  read_crater_list disk0 c with_hop = Ok ws.
Proof.
  assert (H : Cfg day [] = Ok (built_from day [])) by (vm_compute; reflexivity).
  assert (F : installed disk0 (built_from day [])) by (apply disk0_installed; cbn [In]; tauto).
  assert (I : incl with_hop shadowed) by (apply inclb_ok; reflexivity).
  destruct (read_craters day [] _ disk0 with_hop H (fun _ _ => eq_refl) F I) as (R & _).
  eexists _, _. split; [exact H|]. split; [intros k _; reflexivity|]. split; [exact F|]. split; [exact I|exact R].
Qed.

Print Assumptions C99_craters.
Print Assumptions C99_order.
Print Assumptions C99_order_refuted.
