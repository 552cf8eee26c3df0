From Coq Require Import List ZArith Reals Lia Lra Bool Permutation.
From Verif Require Import Base Proofs_Base Model_Thermal Spec_Thermal Proofs_Thermal.
Import ListNotations.

(** ** Chunks *)

Lemma chunksize_pos n ncpus : (0 < n)%nat -> (0 < ncpus)%nat -> (1 <= chunksize n ncpus)%nat.
Proof.
  intros Hn Hc. unfold chunksize. destruct (Nat.eqb_spec (n mod (ncpus * 4)) 0) as [E|E]; [|lia].
  pose proof (Nat.div_mod n (ncpus * 4) ltac:(lia)) as D. rewrite E in D.
  destruct (n / (ncpus * 4))%nat; lia.
Qed.
Lemma concat_chunks {A} size : (1 <= size)%nat -> forall fuel (l : list A), (length l <= fuel)%nat ->
  concat (chunks fuel size l) = l.
Proof.
  intros Hs. induction fuel as [|fuel IH]; intros l H; [destruct l; [reflexivity|cbn in H; lia]|].
  destruct l as [|x l]; [reflexivity|]. cbn [chunks concat]. rewrite IH.
  - apply firstn_skipn.
  - rewrite skipn_length. cbn [length] in *. lia.
Qed.

(** ** mapM *)
Section M.
Context {A B : Type} (f : A -> result B).

Lemma mapM_app l l' : mapM f (l ++ l') = let* a := mapM f l in let* b := mapM f l' in Ok (a ++ b).
Proof.
  induction l as [|x l IH]; cbn [app mapM].
  - cbn [bind app]. now destruct (mapM f l').
  - destruct (f x); [|reflexivity]. cbn [bind]. rewrite IH. destruct (mapM f l); [|reflexivity]. cbn [bind].
    now destruct (mapM f l').
Qed.
Lemma mapM_concat cs : mapM f (concat cs) = let* bss := mapM (mapM f) cs in Ok (concat bss).
Proof.
  induction cs as [|c cs IH]; [reflexivity|]. cbn [concat mapM]. rewrite mapM_app, IH.
  destruct (mapM f c); [|reflexivity]. cbn [bind]. now destruct (mapM (mapM f) cs).
Qed.
Lemma mapM_Err l e : mapM f l = Err e -> exists a, In a l /\ f a = Err e.
Proof.
  induction l as [|x l IH]; [discriminate|]. cbn [mapM]. destruct (f x) eqn:E.
  - cbn [bind]. destruct (mapM f l); [discriminate|]. cbn [bind]. intros [= ->].
    destruct (IH eq_refl) as (y & I & F). exists y. split; [now right|exact F].
  - cbn [bind]. intros [= ->]. exists x. split; [now left|exact E].
Qed.
Lemma mapM_Ok_nth l bs : mapM f l = Ok bs -> length bs = length l /\
  forall i a, nth_error l i = Some a -> exists b, nth_error bs i = Some b /\ f a = Ok b.
Proof.
  revert bs. induction l as [|x l IH]; intros bs H; cbn [mapM] in H.
  - injection H as <-. split; [reflexivity|]. intros [|i] a E; discriminate.
  - destruct (f x) as [b|] eqn:E; [|discriminate]. cbn [bind] in H. destruct (mapM f l) as [bs'|]; [|discriminate].
    cbn [bind] in H. injection H as <-. destruct (IH bs' eq_refl) as [L N]. split; [cbn; congruence|].
    intros [|i] a Ea.
    + injection Ea as <-. exists b. auto.
    + apply N. exact Ea.
Qed.

End M.

(** ** Collecting the reports *)

Lemma collect_ok {A B} (f : A -> result B) cs bss : mapM (mapM f) cs = Ok bss ->
  forall order slots, length slots = length cs -> (forall k, In k order -> (k < length cs)%nat) ->
  exists slots', collect f cs order slots None = (slots', None) /\ length slots' = length cs /\
    forall k, (In k order -> nth_error slots' k = option_map Some (nth_error bss k)) /\
              (~ In k order -> nth_error slots' k = nth_error slots k).
Proof.
  intros H. destruct (mapM_Ok_nth (mapM f) cs bss H) as [L N].
  induction order as [|j order IH]; intros slots Ls R.
  - exists slots. split; [reflexivity|]. split; [exact Ls|]. intros k. split; [intros []|reflexivity].
  - cbn [collect]. pose proof (R j (or_introl eq_refl)) as Rj.
    destruct (nth_error cs j) as [c|] eqn:Ec; [|apply nth_error_None in Ec; lia].
    destruct (N j c Ec) as (bs & Eb & Ef). rewrite Ef.
    destruct (IH (upd slots j (Some bs))) as (sl & S1 & S2 & S3); [now rewrite upd_length| |].
    { intros k I. apply R. now right. }
    exists sl. split; [exact S1|]. split; [exact S2|]. intros k. destruct (S3 k) as [S4 S5].
    destruct (in_dec Nat.eq_dec k order) as [I|I].
    + split; [auto|]. intros Q. exfalso. apply Q. now right.
    + split.
      * intros [<-|I']; [|contradiction]. rewrite S5 by exact I. rewrite upd_nth_same by lia. now rewrite Eb.
      * intros Q. rewrite S5 by exact I. apply upd_nth_other. intros ->. apply Q. now left.
Qed.

(** A failure that is there stays, and comes from one of the chunks. *)
Lemma collect_failed {A B} (f : A -> result B) cs order : forall slots e,
  exists sl, collect f cs order slots (Some e) = (sl, Some e).
Proof.
  induction order as [|j order IH]; intros slots e; [now exists slots|]. cbn [collect].
  destruct (nth_error cs j) as [c|]; [|apply IH]. destruct (mapM f c); apply IH.
Qed.
Lemma collect_err {A B} (f : A -> result B) cs order : forall slots sl e,
  collect f cs order slots None = (sl, Some e) -> exists c, In c cs /\ mapM f c = Err e.
Proof.
  induction order as [|j order IH]; intros slots sl e; [discriminate|]. cbn [collect].
  destruct (nth_error cs j) as [c|] eqn:Ec; [|apply IH].
  destruct (mapM f c) as [bs|e'] eqn:Em; [apply IH|].
  destruct (collect_failed f cs order slots e') as (sl' & ->). intros [= _ ->].
  exists c. split; [eapply nth_error_In, Ec|exact Em].
Qed.
Lemma collect_sees {A B} (f : A -> result B) cs order : forall slots k c e, In k order ->
  nth_error cs k = Some c -> mapM f c = Err e -> exists sl e', collect f cs order slots None = (sl, Some e').
Proof.
  induction order as [|j order IH]; intros slots k c e I Ec Em; [destruct I|]. cbn [collect].
  destruct I as [->|I].
  - rewrite Ec, Em. destruct (collect_failed f cs order slots e) as (sl & E). eauto.
  - destruct (nth_error cs j) as [c'|] eqn:Ec'; [|eapply IH; eauto].
    destruct (mapM f c') as [bs|e'] eqn:Em'; [eapply IH; eauto|].
    destruct (collect_failed f cs order slots e') as (sl & E). eauto.
Qed.

Lemma concat_slots {B} (bss : list (list B)) :
  concat (map (fun s => match s with Some bs => bs | None => [] end) (map Some bss)) = concat bss.
Proof. rewrite map_map. now rewrite map_id. Qed.

Lemma starmap_spec {A B} (f : A -> result B) ncpus order l : (0 < ncpus)%nat ->
  Permutation order (seq 0 (length (chunks (length l) (chunksize (length l) ncpus) l))) ->
  match mapM f l with
  | Ok bs => starmap order ncpus f l = Ok bs
  | Err _ => exists e a, starmap order ncpus f l = Err e /\ In a l /\ f a = Err e
  end.
Proof.
  intros Hc P. unfold starmap. set (cs := chunks _ _ l) in *.
  assert (CC : concat cs = l).
  { destruct l as [|x l]; [reflexivity|]. apply concat_chunks; [|lia]. apply chunksize_pos; [cbn; lia|exact Hc]. }
  clearbody cs. subst l.
  assert (RO : forall k, In k order -> (k < length cs)%nat).
  { intros k I. apply (Permutation_in k P), in_seq in I. lia. }
  destruct (mapM f (concat cs)) as [bs|e0] eqn:E.
  - rewrite mapM_concat in E. destruct (mapM (mapM f) cs) as [bss|] eqn:Em; [|discriminate].
    cbn [bind] in E. injection E as <-.
    destruct (collect_ok f cs bss Em order (map (fun _ => None) cs)) as (sl & S1 & S2 & S3); [apply map_length|exact RO|].
    rewrite S1. f_equal. rewrite <- (concat_slots bss). f_equal. f_equal.
    change (sl = map Some bss). apply list_eq_nth. intros i.
    rewrite nth_error_map. destruct (Nat.lt_ge_cases i (length cs)) as [H|H].
    + apply S3. apply (Permutation_in i (Permutation_sym P)), in_seq. lia.
    + destruct (mapM_Ok_nth (mapM f) cs bss Em) as [L _].
      rewrite (proj2 (nth_error_None _ _)) by lia. rewrite (proj2 (nth_error_None bss i)) by lia. reflexivity.
  - rewrite mapM_concat in E. destruct (mapM (mapM f) cs) as [bss|e1] eqn:Em; [discriminate|].
    apply mapM_Err in Em as (c & I & Ec). destruct (In_nth_error _ _ I) as (k & Ek).
    assert (Ik : In k order).
    { apply (Permutation_in k (Permutation_sym P)), in_seq. split; [lia|]. apply nth_error_Some. congruence. }
    destruct (collect_sees f cs order (map (fun _ => None) cs) k c e1 Ik Ek Ec) as (sl & e & Q). rewrite Q.
    apply collect_err in Q as (c' & I' & Ec'). apply mapM_Err in Ec' as (a & Ia & Ea).
    exists e, a. split; [reflexivity|]. split; [|exact Ea]. apply in_concat. eauto.
Qed.

(** ** Means and deviations of fractions *)
Open Scope R_scope.

Lemma Rsum_bounds l : Forall (fun x => 0 <= x <= 1) l -> 0 <= Rsum l <= INR (length l).
Proof.
  induction 1 as [|x l H F IH]; [cbn; lra|]. cbn [Rsum fold_right length] in *. rewrite S_INR.
  unfold Rsum in IH. lra.
Qed.
Lemma Rsum_sq l m : Rsum (map (fun x => (x - m) ^ 2) l) =
  Rsum (map (fun x => x ^ 2) l) - 2 * m * Rsum l + INR (length l) * m ^ 2.
Proof.
  unfold Rsum. induction l as [|x l IH]; [cbn; ring|]. cbn [map fold_right length]. rewrite S_INR, IH. ring.
Qed.
Lemma Rsum_sq_le l : Forall (fun x => 0 <= x <= 1) l -> Rsum (map (fun x => x ^ 2) l) <= Rsum l.
Proof.
  unfold Rsum. induction 1 as [|x l H F IH]; [cbn; lra|]. cbn [map fold_right].
  assert (x ^ 2 <= x) by nra. lra.
Qed.
Lemma Rsum_sq_nonneg l m : 0 <= Rsum (map (fun x => (x - m) ^ 2) l).
Proof. unfold Rsum. induction l as [|x l IH]; [cbn; lra|]. cbn [map fold_right].
  pose proof (pow2_ge_0 (x - m)). lra. Qed.

Lemma mean_bounds l : l <> [] -> Forall (fun x => 0 <= x <= 1) l -> exists m, mean l = Some m /\ 0 <= m <= 1.
Proof.
  intros N F. destruct l as [|x l]; [contradiction|]. eexists. split; [reflexivity|].
  pose proof (Rsum_bounds _ F) as B. assert (P : 0 < INR (length (x :: l))) by (apply lt_0_INR; cbn; lia).
  split.
  - apply Rmult_le_reg_r with (INR (length (x :: l))); [exact P|]. unfold Rdiv. rewrite Rmult_assoc, Rinv_l by lra. lra.
  - apply Rmult_le_reg_r with (INR (length (x :: l))); [exact P|]. unfold Rdiv. rewrite Rmult_assoc, Rinv_l by lra. lra.
Qed.
Lemma std_bounds l : l <> [] -> Forall (fun x => 0 <= x <= 1) l -> exists s, std l = Some s /\ 0 <= s <= 1 / 2.
Proof.
  intros N F. destruct (mean_bounds l N F) as (m & Em & Hm). unfold std. rewrite Em. eexists. split; [reflexivity|].
  split; [apply sqrt_pos|].
  assert (P : 0 < INR (length l)) by (apply lt_0_INR; destruct l; [contradiction|cbn; lia]).
  assert (M : Rsum l = m * INR (length l)).
  { destruct l as [|x l]; [contradiction|]. cbn [mean] in Em.
    assert (Q : m = Rsum (x :: l) / INR (length (x :: l))) by congruence. rewrite Q.
    generalize dependent (INR (length (x :: l))). intros k _ P _. field. lra. }
  replace (1 / 2) with (sqrt ((1 / 2) ^ 2)) by (rewrite sqrt_pow2; lra). apply sqrt_le_1_alt.
  apply Rmult_le_reg_r with (INR (length l)); [exact P|]. unfold Rdiv at 1. rewrite Rmult_assoc, Rinv_l, Rmult_1_r by lra.
  rewrite Rsum_sq, M. pose proof (Rsum_sq_le l F) as Q. rewrite M in Q.
  set (k := INR (length l)) in *. clearbody k.
  assert (0 <= k * (m - 1 / 2) ^ 2) by (apply Rmult_le_pos; [lra|apply pow2_ge_0]). nra.
Qed.
Lemma mean_const l m : l <> [] -> Forall (fun x => x = m) l -> mean l = Some m /\ std l = Some 0.
Proof.
  intros N F. assert (S : forall l, Forall (fun x => x = m) l -> Rsum l = m * INR (length l)).
  { clear. induction 1 as [|x l -> F IH]; [cbn; ring|]. cbn [Rsum fold_right length]. unfold Rsum in IH. rewrite IH, S_INR. ring. }
  assert (P : 0 < INR (length l)) by (apply lt_0_INR; destruct l; [contradiction|cbn; lia]).
  assert (M : mean l = Some m).
  { destruct l as [|x l]; [contradiction|]. cbn [mean]. rewrite (S _ F). f_equal. field. lra. }
  split; [exact M|]. unfold std. rewrite M. f_equal.
  replace (Rsum (map (fun x => (x - m) ^ 2) l)) with 0; [unfold Rdiv; rewrite Rmult_0_l; apply sqrt_0|].
  clear M P N S. induction F as [|x l -> F IH]; [reflexivity|]. cbn [map Rsum fold_right]. unfold Rsum in IH. rewrite <- IH. ring.
Qed.
