(** Proofs about ejecta source labels. *)
From Coq Require Import String Ascii List ZArith Reals Bool Lra Lia.
From Verif Require Import Base Model_Time Model_Geo Model_Crater Model_Strat Spec_Time Spec_Strat
  Proofs_Base Proofs_Time Proofs_Crater Proofs_Strat.
Import ListNotations.
Open Scope R_scope.

(** * Text *)
Lemma app_empty_r (s : string) : (s ++ "")%string = s.
Proof. induction s; cbn; congruence. Qed.
Lemma app_assoc_s (a b c : string) : ((a ++ b) ++ c = a ++ (b ++ c))%string.
Proof. induction a; cbn; congruence. Qed.

Lemma rstrip_app a b : rstrip b <> ""%string -> rstrip (a ++ b) = (a ++ rstrip b)%string.
Proof.
  intros H. induction a as [|x a IH]; cbn [String.append rstrip]; auto. rewrite IH.
  destruct (a ++ rstrip b)%string eqn:E; auto. exfalso. destruct a; cbn in E; [congruence|discriminate].
Qed.
Lemma rstrip_comma s : no_comma s -> rstrip (s ++ ",") = s.
Proof.
  induction s as [|a s IH]; cbn [no_comma String.append]; [reflexivity|]. intros [Ha Hs].
  cbn [rstrip]. rewrite (IH Hs). destruct s; auto. destruct (Ascii.eqb_spec a comma); auto. contradiction.
Qed.
Lemma rstrip_id s : no_comma s -> rstrip s = s.
Proof.
  induction s as [|a s IH]; cbn [no_comma]; [reflexivity|]. intros [Ha Hs].
  cbn [rstrip]. rewrite (IH Hs). destruct s; auto. destruct (Ascii.eqb_spec a comma); auto. contradiction.
Qed.

Lemma join_cons x y l : join (x :: y :: l) = (x ++ "," ++ join (y :: l))%string.
Proof. reflexivity. Qed.
Lemma join_nonempty x l : x <> ""%string -> join (x :: l) <> ""%string.
Proof. intros H. destruct l; [exact H|]. rewrite join_cons. destruct x; [congruence|discriminate]. Qed.

Definition cat (ns : list string) : string := fold_right (fun n acc => n ++ "," ++ acc)%string ""%string ns.
Lemma rstrip_cat ns : Forall (fun n => n <> ""%string /\ no_comma n) ns -> rstrip (cat ns) = join ns.
Proof.
  induction 1 as [|n ns [Hn Hc] Hns IH]; [reflexivity|]. cbn [cat fold_right]. fold (cat ns).
  destruct ns as [|m ns].
  - cbn [cat fold_right]. now apply rstrip_comma.
  - rewrite join_cons.
    assert (Hne : rstrip (cat (m :: ns)) <> ""%string)
      by (rewrite IH; apply join_nonempty; inversion Hns; tauto).
    rewrite <- IH. rewrite !rstrip_app; auto. rewrite rstrip_app by auto. discriminate.
Qed.

Lemma fold_append l : forall a, fold_left String.append l a = (a ++ fold_right String.append "" l)%string.
Proof.
  induction l as [|x l IH]; intros a; cbn [fold_left fold_right]; [now rewrite app_empty_r|].
  now rewrite IH, app_assoc_s.
Qed.

Lemma texts_cat thick_min (cs : list (string * R)) :
  fold_right String.append ""%string (map (fun x => src_text thick_min (fst x) (snd x)) cs)
  = cat (map fst (filter (fun x => Rltb thick_min (snd x)) cs)).
Proof.
  induction cs as [|[n x] cs IH]; auto. cbn [map fold_right filter fst snd]. rewrite IH. unfold src_text.
  destruct (Rltb thick_min x); [|reflexivity]. cbn [map cat fold_right fst]. now rewrite app_assoc_s.
Qed.

Lemma split_nonempty s : split s <> [].
Proof. destruct s; cbn; [discriminate|]. destruct (Ascii.eqb a comma); [discriminate|]. destruct (split s); discriminate. Qed.
Lemma split_app a b : split (a ++ "," ++ b) = (split a ++ split b)%list.
Proof.
  induction a as [|x a IH]; cbn [String.append split]; [reflexivity|].
  cbn [String.append] in IH. rewrite IH.
  destruct (Ascii.eqb x comma); [reflexivity|].
  destruct (split a) as [|p ps] eqn:E; [now apply split_nonempty in E|]. reflexivity.
Qed.
Lemma split_no_comma s : no_comma s -> split s = [s].
Proof.
  induction s as [|a s IH]; [reflexivity|]. intros [Ha Hs]. cbn [split]. rewrite (IH Hs).
  destruct (Ascii.eqb_spec a comma); [contradiction|reflexivity].
Qed.
Lemma split_parts s : Forall no_comma (split s).
Proof.
  induction s as [|a s IH]; cbn [split]; [repeat constructor|].
  destruct (Ascii.eqb_spec a comma); [constructor; [exact I|auto]|].
  destruct (split s); constructor; [split; auto; exact I|auto|inversion IH; subst; split; auto|now inversion IH].
Qed.
Lemma split_join ns : ns <> [] -> Forall no_comma ns -> split (join ns) = ns.
Proof.
  intros Hne H. induction H as [|n ns Hn Hns IH]; [congruence|]. destruct ns as [|m ns].
  - now apply split_no_comma.
  - rewrite join_cons, split_app, split_no_comma by auto. rewrite IH by discriminate. reflexivity.
Qed.
Lemma split_join_In row x : row <> [] ->
  In x (split (join row)) <-> exists lbl, In lbl row /\ In x (split lbl).
Proof.
  induction row as [|r row IH]; [congruence|]. intros _. destruct row as [|r2 row].
  - cbn. split; [eauto|intros (l & [<-|[]] & H); auto].
  - rewrite join_cons, split_app, in_app_iff, IH by discriminate. split.
    + intros [H|(l & Hl & H)]; [exists r; split; auto; now left|exists l; split; auto; now right].
    + intros (l & [<-|Hl] & H); [now left|right; eauto].
Qed.

(** * Columns of rows *)
Lemma zipw_length {A B C} (f : A -> B -> C) a b : length (zipw f a b) = Nat.min (length a) (length b).
Proof. unfold zipw. now rewrite map_length, combine_length. Qed.
Lemma zipw_nth {A B C} (f : A -> B -> C) a b j x y :
  nth_error a j = Some x -> nth_error b j = Some y -> nth_error (zipw f a b) j = Some (f x y).
Proof. intros Ha Hb. unfold zipw. now rewrite nth_error_map, nth_error_combine, Ha, Hb. Qed.

Lemma fold_zipw_nth {A} (f : A -> A -> A) rows d j n : (j < n)%nat ->
  Forall (fun r => length r = n) rows -> forall acc v, length acc = n -> nth_error acc j = Some v ->
  length (fold_left (zipw f) rows acc) = n /\
  nth_error (fold_left (zipw f) rows acc) j = Some (fold_left f (map (fun r => nth j r d) rows) v).
Proof.
  intros Hj. induction 1 as [|r rows Hr _ IH]; intros acc v Ha Hv; cbn [fold_left map]; auto.
  apply IH.
  - rewrite zipw_length. lia.
  - apply zipw_nth; auto. apply nth_error_nth'. lia.
Qed.

Lemma filter_map_comm {A B} (p : B -> bool) (g : A -> B) l :
  filter p (map g l) = map g (filter (fun x => p (g x)) l).
Proof. induction l as [|x l IH]; auto. cbn [map filter]. destruct (p (g x)); cbn [map]; congruence. Qed.
Lemma combine_map_l {A B C} (g : A -> C) (l : list A) (l' : list B) :
  combine (map g l) l' = map (fun '(a, b) => (g a, b)) (combine l l').
Proof. revert l'. induction l; intros [|b l']; cbn; auto. now rewrite IHl. Qed.
Lemma combine_map_r {A B C} (g : A * B -> C) (l : list A) (l' : list B) :
  combine l (map g (combine l l')) = map (fun '(a, b) => (a, g (a, b))) (combine l l').
Proof. revert l'. induction l; intros [|b l']; cbn; auto. now rewrite IHl. Qed.

(** * Sources over time *)
Lemma fold_Rplus l : forall a, fold_left Rplus l a = a + Rsum l.
Proof. induction l as [|x l IH]; intros a; cbn [fold_left]; [unfold Rsum; cbn; lra|]. rewrite IH, Rsum_cons. lra. Qed.

Lemma ejecta_sources c thick_min tol ncol time df dists lo hi :
  is_min time lo -> is_max time hi ->
  length dists = length df -> Forall (fun r => length r = ncol) dists ->
  exists (at_ : R -> nat) ej src,
    (forall age, first_nearest time age (at_ age)) /\
    get_ejecta_thickness_time c thick_min tol ncol time df dists = Ok (ej, src) /\
    length ej = length time /\ length src = length time /\
    forall k j, (k < length time)%nat -> (j < ncol)%nat ->
      exists ej_k src_k,
        nth_error ej k = Some ej_k /\ nth_error src k = Some src_k /\
        length ej_k = ncol /\ length src_k = ncol /\
        let here := filter (fun sd => Rleb (lo - Rabs lo * tol) (s_age (fst sd))
                                      && Rleb (s_age (fst sd)) (hi + Rabs hi * tol)
                                      && Nat.eqb (at_ (s_age (fst sd))) k) (combine df dists) in
        let thick sd := get_ejecta_thickness c (nth j (snd sd) None) (s_rad (fst sd)) in
        nth_error ej_k j = Some (Rsum (map thick here)) /\
        (Forall (fun s => s_name s <> ""%string /\ no_comma (s_name s)) df ->
         nth_error src_k j = Some (join (map (fun sd => s_name (fst sd))
                                             (filter (fun sd => Rltb thick_min (thick sd)) here)))).
Proof.
  intros Hlo Hhi Hlen Hrows.
  assert (Hne : time <> []) by (intros ->; destruct Hlo as [[] _]).
  exists (nearest_idx time). unfold get_ejecta_thickness_time. cbv zeta.
  set (tm := get_ejecta_thickness_matrix c (map s_rad df) dists).
  assert (Htm : tm = map (fun '(s, dr) => map (fun d => get_ejecta_thickness c d (s_rad s)) dr) (combine df dists)).
  { unfold tm, get_ejecta_thickness_matrix. rewrite combine_map_l, map_map. apply map_ext. intros [s dr]. reflexivity. }
  destruct (ages2time_spec (zipw Rplus) (repeat 0 ncol) tol time (combine (map s_age df) tm) lo hi Hlo Hhi)
    as (ej & He1 & He2 & He3).
  rewrite He1. cbn [bind].
  set (ss := map (fun '(s, row) => map (src_text thick_min (s_name s)) row) (combine df tm)).
  destruct (ages2time_spec (zipw String.append) (repeat ""%string ncol) tol time (combine (map s_age df) ss) lo hi Hlo Hhi)
    as (sr & Hs1 & Hs2 & Hs3).
  rewrite Hs1. cbn [bind]. exists ej, (map (map rstrip) sr).
  split; [intros; now apply nearest_idx_spec|]. split; [reflexivity|]. split; [auto|].
  split; [now rewrite map_length|]. intros k j Hk Hj.
  specialize (He3 k Hk). specialize (Hs3 k Hk).
  rewrite filter_filter, combine_map_l, filter_map_comm, map_map in He3.
  rewrite filter_filter, combine_map_l, filter_map_comm, map_map in Hs3.
  set (p := fun sd : site * list (option R) => Rleb (lo - Rabs lo * tol) (s_age (fst sd))
                                      && Rleb (s_age (fst sd)) (hi + Rabs hi * tol)
                                      && Nat.eqb (nearest_idx time (s_age (fst sd))) k).
  assert (Hct : combine df tm = map (fun '(s, dr) => (s, map (fun d => get_ejecta_thickness c d (s_rad s)) dr)) (combine df dists)).
  { rewrite Htm. apply combine_map_r. }
  assert (Hcs : combine df ss = map (fun '(s, dr) => (s, map (fun d => src_text thick_min (s_name s) (get_ejecta_thickness c d (s_rad s))) dr)) (combine df dists)).
  { unfold ss. rewrite combine_map_r, Hct, map_map. apply map_ext. intros [s dr]. now rewrite map_map. }
  rewrite Hct, filter_map_comm, map_map in He3. rewrite Hcs, filter_map_comm, map_map in Hs3.
  match type of He3 with context [filter ?q (combine df dists)] =>
    rewrite (filter_ext q p) in He3 by (intros [s dr]; reflexivity) end.
  match type of Hs3 with context [filter ?q (combine df dists)] =>
    rewrite (filter_ext q p) in Hs3 by (intros [s dr]; reflexivity) end.
  rewrite nth_error_map, He3, Hs3. cbn [option_map].
  do 2 eexists. split; [reflexivity|]. split; [reflexivity|]. fold p. cbv zeta.
  set (here := filter p (combine df dists)).
  assert (Hh : Forall (fun sd : site * list (option R) => length (snd sd) = ncol) here).
  { apply Forall_forall. intros [s dr] H. apply filter_In in H as [H _]. apply in_combine_r in H.
    rewrite Forall_forall in Hrows. cbn. auto. }
  set (er := map _ here). set (sr' := map (fun x => snd _) here).
  assert (Her : er = map (fun sd => map (fun d => get_ejecta_thickness c d (s_rad (fst sd))) (snd sd)) here)
    by (apply map_ext; intros [s dr]; reflexivity).
  assert (Hsr : sr' = map (fun sd => map (fun d => src_text thick_min (s_name (fst sd)) (get_ejecta_thickness c d (s_rad (fst sd)))) (snd sd)) here)
    by (apply map_ext; intros [s dr]; reflexivity).
  assert (L1 : Forall (fun r => length r = ncol) er).
  { rewrite Her. apply Forall_map. eapply Forall_impl; [|exact Hh]. intros a Ha. now rewrite map_length. }
  assert (L2 : Forall (fun r => length r = ncol) sr').
  { rewrite Hsr. apply Forall_map. eapply Forall_impl; [|exact Hh]. intros a Ha. now rewrite map_length. }
  destruct (fold_zipw_nth Rplus er 0 j ncol Hj L1 (repeat 0 ncol) 0 (repeat_length _ _)
             (nth_error_repeat _ _ _ Hj)) as [E1' E2'].
  destruct (fold_zipw_nth String.append sr' ""%string j ncol Hj L2 (repeat ""%string ncol) ""%string (repeat_length _ _)
             (nth_error_repeat _ _ _ Hj)) as [F1 F2].
  split; [exact E1'|]. split; [now rewrite map_length|]. rewrite E2', nth_error_map, F2. cbn [option_map]. split.
  - f_equal. rewrite fold_Rplus, Rplus_0_l. f_equal. rewrite Her, map_map. apply map_ext_in.
    intros [s dr] Hin. cbn [fst snd]. rewrite Forall_forall in Hh. specialize (Hh _ Hin). cbn in Hh.
    rewrite (nth_indep _ 0 (get_ejecta_thickness c None (s_rad s))) by (rewrite map_length; lia).
    now rewrite (map_nth (fun d => get_ejecta_thickness c d (s_rad s))).
  - intros Hnames. f_equal. rewrite fold_append. cbn [String.append]. rewrite Hsr, map_map.
    rewrite (map_ext_in _ (fun sd => src_text thick_min
       (fst (s_name (fst sd), get_ejecta_thickness c (nth j (snd sd) None) (s_rad (fst sd))))
       (snd (s_name (fst sd), get_ejecta_thickness c (nth j (snd sd) None) (s_rad (fst sd)))))).
    2:{ intros [s dr] Hin. cbn [fst snd]. rewrite Forall_forall in Hh. specialize (Hh _ Hin). cbn in Hh.
        rewrite (nth_indep _ ""%string (src_text thick_min (s_name s) (get_ejecta_thickness c None (s_rad s))))
          by (rewrite map_length; lia).
        now rewrite (map_nth (fun d => src_text thick_min (s_name s) (get_ejecta_thickness c d (s_rad s)))). }
    rewrite <- (map_map (fun sd : site * list (option R) => (s_name (fst sd), get_ejecta_thickness c (nth j (snd sd) None) (s_rad (fst sd))))
                        (fun x => src_text thick_min (fst x) (snd x))).
    rewrite texts_cat, filter_map_comm, map_map. cbn [fst snd]. apply rstrip_cat.
    apply Forall_map, Forall_forall. intros [s dr] Hin. apply filter_In in Hin as [Hin _].
    apply filter_In in Hin as [Hin _]. apply in_combine_l in Hin. rewrite Forall_forall in Hnames. cbn. auto.
Qed.

(** A row is labelled 'Minor source(s)' exactly when... *)
Lemma minor_label thick_min i e names :
  (forall n, In n names -> n <> ""%string /\ no_comma n /\ n <> "Minor source(s)"%string) ->
  row_label thick_min i e (join names) = Some "Minor source(s)"%string <->
  thick_min < e /\ names = [].
Proof.
  intros Hn. unfold row_label.
  assert (Hj : join names = "Minor source(s)"%string -> False).
  { intros H. destruct names as [|n [|m names]]; [discriminate| |].
    - cbn in H. destruct (Hn n (or_introl eq_refl)) as (_ & _ & H3). congruence.
    - assert (H' : split (join (n :: m :: names)) = [ "Minor source(s)"%string]) by (now rewrite H).
      rewrite split_join in H'; [discriminate|discriminate|]. apply Forall_forall. intros x Hx. now apply Hn. }
  rcase thick_min e He.
  - destruct (join names) eqn:E.
    + split; [intros _; split; auto|reflexivity]. destruct names as [|n names]; auto.
      exfalso. apply (join_nonempty n names); auto. exact (proj1 (Hn n (or_introl eq_refl))).
    + split; [intros H; exfalso; apply Hj; congruence|].
      intros [_ ->]. discriminate.
  - split; [|intros [H _]; lra]. rcase thick_min i Hi; discriminate.
Qed.

(** * All labels *)
Lemma split_rstrip s : exists n, split s = split (rstrip s) ++ repeat ""%string n.
Proof.
  induction s as [|a s [n IH]]; [now exists O|]. cbn [rstrip].
  destruct (rstrip s) as [|b r] eqn:E.
  - cbn [split app] in IH. destruct (Ascii.eqb a comma) eqn:Ea.
    + exists (S n). cbn [split]. rewrite Ea, IH. reflexivity.
    + exists n. cbn [split]. rewrite Ea, IH. reflexivity.
  - exists n. cbn [split] in *. destruct (Ascii.eqb a comma) eqn:Ea; [now rewrite IH|].
    destruct (Ascii.eqb b comma).
    + rewrite IH. reflexivity.
    + rewrite IH. destruct (split r) as [|p ps]; reflexivity.
Qed.
Lemma split_lstrip s : exists n, split s = repeat ""%string n ++ split (lstrip s).
Proof.
  induction s as [|a s [n IH]]; [now exists O|]. cbn [lstrip split].
  destruct (Ascii.eqb a comma) eqn:Ea.
  - exists (S n). cbn. now rewrite IH.
  - exists O. cbn [repeat app split]. now rewrite Ea.
Qed.
Lemma split_strip s : exists m n, split s = repeat ""%string m ++ split (strip s) ++ repeat ""%string n.
Proof.
  destruct (split_rstrip s) as [n Hn]. destruct (split_lstrip (rstrip s)) as [m Hm].
  exists m, n. rewrite Hn, Hm. unfold strip. now rewrite <- app_assoc.
Qed.

Lemma NoDup_app_mid {A} (a b c : list A) : NoDup (a ++ b ++ c) -> NoDup b.
Proof.
  intros H. induction a as [|x a IH]; cbn [app] in H; [|inversion H; auto].
  induction b as [|x b IHb]; [constructor|]. cbn [app] in H. inversion H; subst. constructor; auto.
  intros Hi. apply H2. apply in_or_app. auto.
Qed.

Lemma all_labels iter rows : set_order iter ->
  Forall2 (fun row out =>
    NoDup (split out) /\
    forall x, x <> ""%string ->
      (In x (split out) <-> exists lbl, In lbl row /\ In x (split lbl)))
  rows (get_all_labels iter rows).
Proof.
  intros Hi. unfold get_all_labels. induction rows as [|row rows IH]; cbn [map]; constructor; auto.
  destruct (Hi (split (join row))) as [Hnd Hin]. set (U := iter (split (join row))) in *.
  assert (HU : U <> []).
  { intros E. destruct (split (join row)) as [|p ps] eqn:Es; [now apply split_nonempty in Es|].
    assert (In p U) by (apply Hin; now left). rewrite E in H. destruct H. }
  assert (Hsj : split (join U) = U).
  { apply split_join; auto. apply Forall_forall. intros x Hx. apply Hin in Hx.
    pose proof (split_parts (join row)) as P. rewrite Forall_forall in P. auto. }
  destruct (split_strip (join U)) as (m & n & E). rewrite Hsj in E.
  set (V := split (strip (join U))) in *. clearbody V. split.
  - rewrite E in Hnd. now apply NoDup_app_mid in Hnd.
  - intros x Hx. transitivity (In x U).
    + rewrite E, !in_app_iff. split; [auto|]. intros [H|[H|H]]; auto; apply repeat_spec in H; congruence.
    + rewrite Hin. destruct row as [|r row].
      * split; [intros [H|[]]; congruence|intros (l & Hl & _); destruct Hl].
      * apply split_join_In. discriminate.
Qed.

Lemma nodup_order : set_order (nodup string_dec).
Proof. intros l. split; [apply NoDup_nodup|intros; apply nodup_In]. Qed.
Lemma rev_order : set_order (fun l => rev (nodup string_dec l)).
Proof.
  intros l. split; [apply NoDup_rev, NoDup_nodup|]. intros x. rewrite <- in_rev. apply nodup_In.
Qed.

(** * The threshold *)
Lemma ages2time_err {V W} (f : V -> V -> V) a (g : W -> W -> W) b tol time ev ev' :
  match ages2time f a tol time ev, ages2time g b tol time ev' with
  | Ok _, Ok _ => True | Err e, Err e' => e = e' | _, _ => False end.
Proof. unfold ages2time. destruct (minmax_rtol time tol) as [[lo hi]|e]; cbn; auto. Qed.

Lemma threshold_ignored c thick_min thick_min' tol ncol time df dists :
  match get_ejecta_thickness_time c thick_min tol ncol time df dists,
        get_ejecta_thickness_time c thick_min' tol ncol time df dists with
  | Ok (ej, _), Ok (ej', _) => ej = ej'
  | Err e, Err e' => e = e'
  | _, _ => False
  end.
Proof.
  unfold get_ejecta_thickness_time. cbv zeta. set (ev := combine (map s_age df) _).
  destruct (ages2time (zipw Rplus) (repeat 0 ncol) tol time ev) as [ej|e]; cbn [bind]; auto.
  set (s1 := map (fun '(s, row) => map (src_text thick_min (s_name s)) row) _).
  set (s2 := map (fun '(s, row) => map (src_text thick_min' (s_name s)) row) _).
  pose proof (ages2time_err (zipw String.append) (repeat ""%string ncol) (zipw String.append)
    (repeat ""%string ncol) tol time (combine (map s_age df) s1) (combine (map s_age df) s2)) as H.
  destruct (ages2time _ _ _ _ (combine _ s1)), (ages2time _ _ _ _ (combine _ s2)); cbn; auto.
Qed.

Lemma thin_ejecta_kept :
  exists time df dists ej src e,
    get_ejecta_thickness_time CFG0 (1 / 1000) (1 / 1000000) 1 time df dists = Ok (ej, src) /\
    ej = [[e]] /\ 0 < e < 1 / 1000.
Proof.
  exists [1], [mk_site "A" 0 (-85) 0 (-85) 1000 1 false], [[Some 100000]].
  assert (Hlo : is_min [1] 1) by (split; [now left|intros t [<-|[]]; lra]).
  assert (Hhi : is_max [1] 1) by (split; [now left|intros t [<-|[]]; lra]).
  destruct (ejecta_sources CFG0 (1 / 1000) (1 / 1000000) 1 [1] [mk_site "A" 0 (-85) 0 (-85) 1000 1 false]
     [[Some 100000]] 1 1 Hlo Hhi eq_refl) as (at_ & ej & src & Hat & He & L1 & L2 & H); [repeat constructor|].
  exists ej, src. destruct (H 0%nat 0%nat) as (ej_k & src_k & H1 & H2 & H3 & H4 & H5); [cbn; lia|lia|].
  cbv zeta in H5. destruct H5 as [H5 _].
  destruct ej as [|ej0 [|? ?]]; cbn in L1; try discriminate. cbn in H1. injection H1 as ->.
  destruct ej_k as [|e [|? ?]]; cbn in H3; try discriminate. cbn [nth_error] in H5. injection H5 as H5.
  exists e. split; auto. split; auto.
  assert (Hz : at_ 1 = 0%nat).
  { destruct (Hat 1) as (t & Ht & _). destruct (at_ 1) as [|n]; auto. destruct n; discriminate. }
  rewrite H5. cbn [combine filter fst s_age]. rewrite Rabs_right by lra.
  rewrite (proj2 (Rleb_true _ _)), (proj2 (Rleb_true _ _)) by lra. rewrite Hz. cbn [andb Nat.eqb map snd nth fst s_rad].
  rewrite thick_simple_eq; [|unfold CFG0; cbn [simple2complex complex2peakring]; lra..]. unfold CFG0. cbn [ej_exp].
  replace (100000 / 1000) with (INR 100) by (rewrite INR_IZR_INZ; cbn; lra).
  replace (IZR (-3)) with (- INR 3) by (cbn; lra).
  rewrite Rpower_Ropp, Rpower_pow by (rewrite INR_IZR_INZ; cbn; lra).
  rewrite INR_IZR_INZ. cbn [Z.of_nat]. unfold Rsum. cbn. lra.
Qed.
