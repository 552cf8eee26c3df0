(** Building a configuration again from the dictionary of one already built. *)
From Coq Require Import ZArith QArith Lia Bool Ascii String List.
From Verif Require Import Base Proofs_Base Model_Path Proofs_Path Model_Cfg Spec_Cfg Proofs_Cfg.
Import ListNotations.
Open Scope string_scope.

Lemma in_split_path : forall k, In k field_names -> path_key k = true ->
  (k = "data_path" \/ k = "out_path" \/ k = "figs_path") \/
  (endswith "_path" k = false /\ k <> "data_path" /\ k <> "out_path" /\ k <> "figs_path").
Proof.
  intros k I P. destruct (endswith "_path" k) eqn:E; [left; now apply path_names|right].
  repeat split; intros ->; discriminate.
Qed.
Lemma default_paths : forall k, In k field_names -> path_key k = true ->
  exists t, default_of k = VStr t /\ (endswith "_path" k = true \/ names_file t).
Proof.
  intros k I P.
  pose proof (forall_names (fun k => negb (path_key k) ||
     match default_of k with
     | VStr t => endswith "_path" k || negb ((basename t =? "") || (basename t =? ".") || (basename t =? ".."))
     | _ => false end) ltac:(vm_compute; reflexivity) k I) as X.
  cbv beta in X. rewrite P in X. cbn [negb orb] in X. destruct (default_of k); try discriminate.
  exists s. split; [reflexivity|]. apply orb_prop in X as [X|X]; [auto|right].
  apply negb_true_iff in X. apply orb_false_iff in X as [X X3]. apply orb_false_iff in X as [X1 X2].
  apply String.eqb_neq in X1, X2, X3. repeat split; auto.
Qed.
Lemma start_paths : forall kw k, text_paths kw -> In k field_names -> path_key k = true ->
  exists t, start kw k = VStr t /\ (endswith "_path" k = true \/ names_file t).
Proof.
  intros kw k T I P. unfold start. destruct (lookup k kw) eqn:L; [eauto|now apply default_paths].
Qed.
Lemma names_plain : forall t, names_file t -> plainc (basename t).
Proof. intros t (A & B & C). repeat split; auto. apply basename_noslash. Qed.
Lemma data_nonnil : forall E v, exists d, get_data_path E (VStr v) = VStr d /\ d <> "".
Proof.
  intros E v. destruct v; cbn; eexists; split; try reflexivity; [|discriminate].
  destruct (package_data E); discriminate.
Qed.
Lemma figs_nonnil : forall E v op, exists d, get_figs_path E (VStr v) op = VStr d /\ d <> "".
Proof.
  intros E v op. destruct v; cbn [get_figs_path]; eexists; split; try reflexivity; [|discriminate].
  destruct (abspath _ _); discriminate.
Qed.
Lemma settle_nonnil : forall E v t, starts_slash (cwd E) = true -> v <> "" -> settle E v t <> "".
Proof.
  intros E v t C V. unfold settle. destruct (exists_ E v); [exact V|].
  intros X. pose proof (resolve_starts (cwd E) (home E) t C) as Y. rewrite X in Y. discriminate.
Qed.
Lemma get_out_nonnil : forall E v z d n op, get_out_path E v z d n = Ok op -> op <> "".
Proof.
  intros E v z d n op H. unfold get_out_path in H.
  destruct (as_str v) as [p|]; [|discriminate]. cbn [bind] in H.
  assert (K : forall x, x ++ "/" <> "") by (intros [|]; discriminate).
  destruct (p =? ""); [destruct (as_str n); [|discriminate]; cbn [bind] in H|destruct (negb _)]; injection H as <-; apply K.
Qed.
Lemma get_out_again : forall E v z d n, v <> "" -> contains (format_05d z) v = true ->
  get_out_path E (VStr v) z d n = Ok (v ++ "/").
Proof.
  intros E v z d n V C. unfold get_out_path. cbn [as_str bind]. apply String.eqb_neq in V. rewrite V, C. reflexivity.
Qed.
Lemma seed_again : forall E z, z <> 0%Z -> get_random_seed E (VInt z) = Ok z.
Proof. intros E z H. unfold get_random_seed. cbn [to_int bind]. apply Z.eqb_neq in H. now rewrite H. Qed.

(** What a rebuilt configuration holds. *)
Definition rebuilt (E' : env) (d : cfg) (P : string) (k : string) : val :=
  if k =? "run_date" then VStr (date_now E')
  else if k =? "run_time" then VStr (time_now E')
  else if k =? "out_path" then VStr (if exists_ E' (P ++ "/") then P ++ "/" else P)
  else getv d k.

Lemma lookup_field : forall (d : cfg) k, keys d = field_names -> In k field_names -> start d k = getv d k.
Proof.
  intros d k K I. unfold start, getv. rewrite <- K in I. apply lookup_in in I as (v & ->). reflexivity.
Qed.
Lemma fields_ok : forall d : cfg, keys d = field_names -> forallb (fun kv => is_field (fst kv)) d = true.
Proof.
  intros d K. apply forallb_forall. intros [k v] I. cbn [fst]. unfold is_field.
  apply (in_map fst) in I. cbn [fst] in I. change (In k (keys d)) in I. rewrite K in I.
  unfold field_names in I. apply in_map_iff in I as (f & <- & F).
  apply existsb_exists. exists f. split; [auto|apply String.eqb_refl].
Qed.
Definition of_fun (f : string -> val) : cfg := map (fun k => (k, f k)) field_names.
Lemma keys_of_fun : forall f, keys (of_fun f) = field_names.
Proof. intros. unfold keys, of_fun. rewrite map_map. apply map_id. Qed.
Lemma getv_of_fun : forall f k, In k field_names -> getv (of_fun f) k = f k.
Proof.
  intros f k. unfold of_fun, getv. induction field_names as [|a l IH]; [easy|]. intros I. cbn [map]. rewrite lookup_cons.
  destruct (String.eqb_spec a k); [now subst|]. apply IH. now destruct I.
Qed.
Lemma typed_not_none : forall v t, isinstance v t = true -> v <> VNone.
Proof. intros v t H ->. now destruct t. Qed.
Lemma filled_typed : forall r k v, v <> VNone -> filled r k v = v.
Proof. intros r k v H. unfold filled. destruct (lookup k r); [|reflexivity]. now destruct v. Qed.

Section Rebuild.
Variables (E E' : env) (kw c d : cfg) (s : Z) (m p : list (string * val)) (op P : string).
Hypothesis B : built E kw c s m p op.
Hypothesis T : text_paths kw.
Hypothesis L : later E E'.
Hypothesis S0 : s <> 0%Z.
Hypothesis HP : getv c "out_path" = VStr P.
Hypothesis HC : contains (format_05d s) P = true.
Hypothesis Dk : keys d = field_names.
Hypothesis Dt : forall k, In k field_names -> isinstance (getv d k) (type_of k) = true.
Hypothesis Ds : forall k, In k field_names -> path_key k = true \/ In k ["seed"; "mode"; "pole"] -> getv d k = getv c k.

Lemma r_P : P = settle E op op.
Proof. pose proof (out_value _ _ _ _ _ _ _ B) as X. rewrite HP in X. injection X as ->. reflexivity. Qed.
Lemma r_digit : has_digit P = true.
Proof. exact (contains_digit _ _ HC). Qed.
Lemma r_resolve_P : resolve (cwd E) (home E) P = resolve (cwd E) (home E) op.
Proof.
  rewrite r_P. unfold settle. destruct (exists_ E op); [reflexivity|]. apply resolve_idem, (l_abs _ _ L).
Qed.
Lemma r_op_slash : exists o, op = o ++ "/".
Proof.
  pose proof (b_out _ _ _ _ _ _ _ B) as X. unfold get_out_path in X.
  destruct (as_str _) as [q|]; [|discriminate]. cbn [bind] in X.
  destruct (q =? ""); [destruct (as_str _); [|discriminate]; cbn [bind] in X|destruct (negb _)]; injection X as <-; eauto.
Qed.

Lemma r_mode : getv c "mode" = start kw "mode".
Proof.
  pose proof (nonpath_value _ _ _ _ _ _ _ B "mode" ltac:(inn) eq_refl) as X.
  destruct (b_mode _ _ _ _ _ _ _ B) as (r & M1 & M2). destruct (b_pole _ _ _ _ _ _ _ B) as (r' & P1 & P2).
  destruct (mode_row _ _ M2) as (_ & _ & M3). destruct (pole_row _ _ P2) as (_ & _ & P3).
  rewrite Forall_forall in M3, P3.
  rewrite raw_row_free in X by (try reflexivity; try discriminate; first [apply M3|apply P3]; cbn; tauto).
  rewrite M1 in *. exact X.
Qed.
Lemma r_pole : getv c "pole" = start kw "pole".
Proof.
  pose proof (nonpath_value _ _ _ _ _ _ _ B "pole" ltac:(inn) eq_refl) as X.
  destruct (b_mode _ _ _ _ _ _ _ B) as (r & M1 & M2). destruct (b_pole _ _ _ _ _ _ _ B) as (r' & P1 & P2).
  destruct (mode_row _ _ M2) as (_ & _ & M3). destruct (pole_row _ _ P2) as (_ & _ & P3).
  rewrite Forall_forall in M3, P3.
  rewrite raw_row_free in X by (try reflexivity; try discriminate; first [apply M3|apply P3]; cbn; tauto).
  rewrite P1 in *. exact X.
Qed.

(** The values of the path options of [c]. *)
Lemma r_data : exists dp, dp <> "" /\ get_data_path E (start kw "data_path") = VStr dp /\ getv c "data_path" = VStr (settle E dp dp).
Proof.
  destruct (start_paths kw "data_path" T ltac:(inn) eq_refl) as (t & ST & _).
  destruct (data_nonnil E t) as (dp & D1 & D2). exists dp. rewrite ST. split; [exact D2|split; [exact D1|]].
  destruct (path_value _ _ _ _ _ _ _ B t "data_path" dp ST ltac:(inn) eq_refl) as (d' & Q1 & Q2).
  - unfold raw. cbn -[get_data_path start]. rewrite ST. exact D1.
  - exact Q2.
Qed.
Lemma r_figs : exists f, f <> "" /\ getv c "figs_path" = VStr (settle E f f).
Proof.
  destruct (start_paths kw "data_path" T ltac:(inn) eq_refl) as (t & ST & _).
  destruct (start_paths kw "figs_path" T ltac:(inn) eq_refl) as (u & SU & _).
  destruct (figs_nonnil E u op) as (f & F1 & F2). exists f. split; [exact F2|].
  destruct (path_value _ _ _ _ _ _ _ B t "figs_path" f ST ltac:(inn) eq_refl) as (d' & Q1 & Q2).
  - unfold raw. cbn -[get_figs_path start]. rewrite SU. exact F1.
  - exact Q2.
Qed.
Lemma r_file : forall k, In k field_names -> path_key k = true -> endswith "_path" k = false ->
  exists dp v, get_data_path E (start kw "data_path") = VStr dp /\ names_file v /\ getv c k = VStr (settle E v (target dp op k v)).
Proof.
  intros k I Pk NP.
  destruct (start_paths kw "data_path" T ltac:(inn) eq_refl) as (t & ST & _).
  destruct (start_paths kw k T I Pk) as (v & SV & N). destruct N as [N|N]; [congruence|].
  destruct (b_mode _ _ _ _ _ _ _ B) as (r & M1 & M2). destruct (b_pole _ _ _ _ _ _ _ B) as (r' & P1 & P2).
  destruct (path_not_timed k Pk) as (X1 & X2 & X3).
  destruct (path_value _ _ _ _ _ _ _ B t k v ST I Pk) as (dp & Q1 & Q2).
  - rewrite raw_row_free; [exact SV| | |auto|auto|auto| | |]; try (intros ->; discriminate).
    + apply (path_no_row k r); auto.
    + apply (path_no_row k r'); auto.
  - exists dp, v. rewrite ST. auto.
Qed.

Lemma settle_again : forall v, settle E' (settle E v v) (settle E v v) = settle E v v.
Proof.
  intros v. pose proof (l_abs _ _ L) as A. unfold settle. rewrite (l_cwd _ _ L), (l_home _ _ L).
  destruct (exists_ E v) eqn:X; [now rewrite (l_exists _ _ L v X)|].
  rewrite resolve_idem by exact A. now destruct (exists_ E' _).
Qed.
Lemma resolve_settle : forall v, resolve (cwd E) (home E) (settle E v v) = resolve (cwd E) (home E) v.
Proof.
  intros v. unfold settle. destruct (exists_ E v); [reflexivity|]. apply resolve_idem, (l_abs _ _ L).
Qed.

Lemma rebuild : Cfg E' d = Ok (of_fun (rebuilt E' d P)).
Proof.
  pose proof (l_abs _ _ L) as Abs. pose proof (l_cwd _ _ L) as Ecwd. pose proof (l_home _ _ L) as Ehome.
  destruct (b_mode _ _ _ _ _ _ _ B) as (rm & M1 & M2). destruct (b_pole _ _ _ _ _ _ _ B) as (rp & P1 & P2).
  apply built_Cfg with (s := s) (m := m) (p := p) (op := P ++ "/").
  assert (Pn : P <> "") by (intros X; pose proof r_digit as Y; rewrite X in Y; discriminate).
  assert (St : forall k, In k field_names -> start d k = getv d k) by (intros; now apply lookup_field).
  destruct r_data as (dp & Dn & D1 & D2). destruct r_figs as (f & Fn & F2).
  assert (GD : getv d "data_path" = VStr (settle E dp dp)) by (rewrite Ds; [exact D2|inn|now left]).
  assert (GF : getv d "figs_path" = VStr (settle E f f)) by (rewrite Ds; [exact F2|inn|now left]).
  assert (GO : getv d "out_path" = VStr P) by (rewrite Ds; [exact HP|inn|now left]).
  assert (Sd : get_data_path E' (start d "data_path") = VStr (settle E dp dp)).
  { rewrite St by inn. rewrite GD. pose proof (settle_nonnil E dp dp Abs Dn). now destruct (settle E dp dp). }
  constructor.
  - now apply fields_ok.
  - rewrite St by inn. rewrite Ds; [|inn|right; cbn; tauto].
    rewrite (seed_value _ _ _ _ _ _ _ B). now apply seed_again.
  - exists rm. split; [|exact M2]. rewrite St by inn. rewrite Ds; [|inn|right; cbn; tauto]. now rewrite r_mode.
  - exists rp. split; [|exact P2]. rewrite St by inn. rewrite Ds; [|inn|right; cbn; tauto]. now rewrite r_pole.
  - rewrite St by inn. rewrite GO. now apply get_out_again.
  - apply keys_of_fun.
  - intros k I. rewrite getv_of_fun by exact I. rewrite Sd.
    destruct (path_key k) eqn:Pk.
    + destruct (path_not_timed k Pk) as (X1 & X2 & X3).
      assert (Rb : (k =? "out_path") = false -> rebuilt E' d P k = getv c k).
      { intros O. unfold rebuilt. rewrite X1, X2, O. apply Ds; auto. }
      destruct (in_split_path k I Pk) as [[-> |[-> | ->]]|(NP & N1 & N2 & N3)].
      * exists (VStr (settle E dp dp)). rewrite Rb, D2 by reflexivity.
        change (raw E' d s m p (P ++ "/") "data_path") with (get_data_path E' (start d "data_path")).
        rewrite Sd, make_path by reflexivity. cbn -[settle enforce_field].
        change (target (settle E dp dp) (P ++ "/") "data_path" (settle E dp dp)) with (settle E dp dp).
        rewrite settle_again. split; reflexivity.
      * exists (rebuilt E' d P "out_path").
        change (raw E' d s m p (P ++ "/") "out_path") with (VStr (P ++ "/")).
        rewrite make_path by reflexivity. split; [|reflexivity]. f_equal. f_equal.
        change (target (settle E dp dp) (P ++ "/") "out_path" (P ++ "/")) with (P ++ "/").
        unfold rebuilt, settle. cbn -[exists_ append resolve].
        destruct (exists_ E' (P ++ "/")) eqn:X; [reflexivity|]. f_equal.
        rewrite Ecwd, Ehome. rewrite resolve_slash_end by (auto; apply r_digit). rewrite r_resolve_P.
        rewrite r_P in *. unfold settle in *. destruct (exists_ E op) eqn:XE; [|reflexivity].
        exfalso. destruct r_op_slash as (o & Eo).
        assert (Y : exists_ E' (op ++ "/") = true).
        { apply (l_slash _ _ L); [now apply (l_exists _ _ L)|]. rewrite Eo. now rewrite ends_app. }
        congruence.
      * exists (VStr (settle E f f)). rewrite Rb, F2 by reflexivity.
        assert (R : raw E' d s m p (P ++ "/") "figs_path" = VStr (settle E f f)).
        { change (raw E' d s m p (P ++ "/") "figs_path") with (get_figs_path E' (start d "figs_path") (P ++ "/")).
          rewrite St by inn. rewrite GF. pose proof (settle_nonnil E f f Abs Fn). now destruct (settle E f f). }
        rewrite R, make_path by reflexivity.
        change (target (settle E dp dp) (P ++ "/") "figs_path" (settle E f f)) with (settle E f f).
        rewrite settle_again. split; reflexivity.
      * rewrite Rb by now apply String.eqb_neq.
        destruct (r_file k I Pk NP) as (dp' & v & Q1 & Nv & Q3). rewrite D1 in Q1. injection Q1 as <-.
        exists (getv c k). split.
        2: { apply enforce_stored. unfold stored. rewrite (path_type k I Pk), Q3. reflexivity. }
        rewrite raw_row_free; [| | |auto|auto|auto|auto|auto|auto];
          [|apply (path_no_row k rm); auto|apply (path_no_row k rp); auto].
        rewrite St by exact I. rewrite Ds by auto. rewrite Q3, make_path by exact Pk. f_equal. f_equal. f_equal.
        pose proof (names_plain v Nv) as Pl.
        unfold settle at 1. destruct (exists_ E' _) eqn:X; [reflexivity|].
        assert (XE : exists_ E v = false).
        { destruct (exists_ E v) eqn:Y; [|reflexivity]. exfalso.
          unfold settle in X. rewrite Y in X. rewrite (l_exists _ _ L v Y) in X. discriminate. }
        unfold settle at 3. rewrite XE. unfold settle at 2. rewrite XE. rewrite Ecwd, Ehome.
        unfold target. unfold path_key in Pk. rewrite NP, orb_false_r in Pk.
        destruct (endswith "_in" k) eqn:EI.
        -- rewrite (resolve_join _ _ dp) by auto. rewrite basename_addc by apply Pl.
           rewrite resolve_join by (auto using settle_nonnil). now rewrite resolve_settle.
        -- cbn [orb] in Pk. rewrite Pk.
           assert (On : op <> "") by (destruct r_op_slash as (o & ->); destruct o; discriminate).
           rewrite (resolve_join _ _ op) by auto. rewrite basename_addc by apply Pl.
           rewrite resolve_join by (auto using app_not_nil).
           now rewrite resolve_slash_end, r_resolve_P by (auto using r_digit).
    + assert (V : raw E' d s m p (P ++ "/") k = rebuilt E' d P k).
      { unfold raw, rebuilt.
        destruct (String.eqb_spec k "figs_path"); [subst; discriminate|].
        destruct (String.eqb_spec k "out_path"); [subst; discriminate|].
        destruct (String.eqb_spec k "data_path"); [subst; discriminate|].
        destruct (String.eqb_spec k "run_time"); [subst; reflexivity|].
        destruct (String.eqb_spec k "run_date"); [reflexivity|].
        destruct (String.eqb_spec k "seed") as [->|].
        - rewrite Ds; [|inn|right; cbn; tauto]. symmetry. apply (seed_value _ _ _ _ _ _ _ B).
        - rewrite St by exact I. pose proof (typed_not_none _ _ (Dt k I)).
          rewrite (filled_typed m) by auto. now apply filled_typed. }
      rewrite V. exists (rebuilt E' d P k). split; [now apply make_nonpath|].
      apply enforce_stored. unfold stored. rewrite <- isinstance_type.
      assert (Ty : isinstance (rebuilt E' d P k) (type_of k) = true); [|now rewrite Ty].
      unfold rebuilt.
      destruct (String.eqb_spec k "run_date"); [subst; reflexivity|].
      destruct (String.eqb_spec k "run_time"); [subst; reflexivity|].
      destruct (String.eqb_spec k "out_path"); [subst; discriminate|]. now apply Dt.
Qed.
End Rebuild.

(** *** Seeds *)
Lemma random_seed : forall E v z, get_random_seed E v = Ok z ->
  z = match seed_number E v with Some n => if (n =? 0)%Z then draw E else n | None => draw E end.
Proof.
  intros E v z H. unfold get_random_seed in H.
  destruct v as [|b|n|[q| |]|t|l|l|l]; cbn [to_int seed_number bind] in *; try (injection H as <-; reflexivity); try discriminate.
  destruct (parse_int E t); injection H as <-; reflexivity.
Qed.
Lemma seed_nonzero : forall E v z, fair_draw E -> get_random_seed E v = Ok z -> z <> 0%Z.
Proof.
  intros E v z D H. apply random_seed in H. unfold fair_draw in D.
  destruct (seed_number E v) as [n|]; [destruct (Z.eqb_spec n 0)|]; lia.
Qed.

(** *** Output directory *)
Lemma ends_seed : forall E a z, starts_slash (cwd E) = true -> a <> "" ->
  last_part (settle E (path_join a (format_05d z) ++ "/") (path_join a (format_05d z) ++ "/")) = format_05d z.
Proof.
  intros E a z C A. pose proof (seed_plain z) as Pl. pose proof Pl as (N0 & _ & _ & N).
  assert (K : forall r, last_part (addc r (format_05d z)) = format_05d z).
  { intros r. unfold last_part. destruct (addc_form r (format_05d z)) as (t & ->).
    rewrite rstrip_id; [now apply basename_app|]. rewrite ends_app by discriminate. cbn [ends_slash].
    pose proof (noslash_ends _ N). now destruct (format_05d z). }
  unfold settle. destruct (exists_ E _).
  - unfold last_part. rewrite rstrip_slash_app. fold (last_part (path_join a (format_05d z))).
    rewrite path_join_not; [|now apply noslash_starts|exact A].
    exact (K a).
  - rewrite resolve_slash_end; [|exact C|].
    + rewrite resolve_join by auto. apply K.
    + rewrite path_join_not; [|now apply noslash_starts|exact A]. apply has_digit_app_r, seed_digit.
Qed.
Lemma dirname_nonnil_or : forall E z q, starts_slash (cwd E) = true ->
  last_part (settle E (path_join q (format_05d z) ++ "/") (path_join q (format_05d z) ++ "/")) = format_05d z.
Proof.
  intros E z q C. destruct q as [|a q]; [|now apply ends_seed].
  pose proof (seed_plain z) as Pl. pose proof Pl as (N0 & _ & _ & N).
  unfold path_join. rewrite (noslash_starts _ N). set (t := format_05d z) in *.
  unfold settle. destruct (exists_ E _).
  - unfold last_part. rewrite rstrip_slash_app, rstrip_id by now apply noslash_ends.
    unfold basename. now rewrite split_noslash_id.
  - rewrite resolve_slash_end by (auto; apply seed_digit).
    unfold resolve. rewrite abspath_absol.
    assert (X : expanduser (home E) t = t).
    { unfold expanduser. destruct t as [|a r] eqn:T; [reflexivity|].
      destruct (Ascii.eqb_spec a "~"); [|reflexivity]. subst a. exfalso.
      unfold t in T. unfold format_05d in T. destruct (z <? 0)%Z; [discriminate|].
      pose proof (proj1 (digits_shape 5 (Z.to_N z))) as D. rewrite T in D. discriminate. }
    rewrite X. unfold absol. rewrite (noslash_starts _ N).
    rewrite normpath_join by auto. unfold last_part.
    destruct (addc_form (normpath (cwd E)) t) as (r & ->).
    rewrite rstrip_id; [now apply basename_app|]. rewrite ends_app by discriminate. cbn [ends_slash].
    pose proof (noslash_ends _ N). now destruct t.
Qed.
Lemma out_shape : forall E v z d n op, get_out_path E (VStr v) z d n = Ok op ->
  (v = "" \/ contains (format_05d z) v = false) -> exists q, op = path_join q (format_05d z) ++ "/".
Proof.
  intros E v z d n op H C. unfold get_out_path in H. cbn [as_str bind] in H.
  destruct (v =? "") eqn:V.
  - destruct (as_str n); [|discriminate]. cbn [bind] in H. injection H as <-. eauto.
  - apply String.eqb_neq in V. destruct C as [C|C]; [easy|]. rewrite C in H. cbn [negb] in H. injection H as <-. eauto.
Qed.
Lemma join_split : forall s, join_path (split_path s) = s.
Proof.
  induction s as [|x s IH]; [reflexivity|]. cbn [split_path]. pose proof (split_nonnil s) as N.
  destruct (Ascii.eqb_spec x slash).
  - subst. destruct (split_path s) eqn:Q; [easy|].
    change (String slash (join_path (s0 :: l)) = String slash s). now rewrite IH.
  - destruct (split_path s) as [|p [|q r]]; [easy| |].
    + cbn in *. congruence.
    + change (String x (join_path (p :: q :: r)) = String x s). now rewrite IH.
Qed.
Lemma last_part_contains : forall t P, last_part P = t -> t <> "" -> contains t P = true.
Proof.
  intros t P H N. unfold last_part in H.
  assert (K : forall s, contains (basename s) s = true).
  { intros s. apply contains_spec. unfold basename.
    assert (J : forall s, exists a, s = a ++ last (split_path s) "").
    { clear. induction s as [|x s (a & IH)]; [now exists ""|]. cbn [split_path].
      pose proof (split_nonnil s). destruct (Ascii.eqb_spec x slash).
      - subst. exists (String slash a). cbn [append]. f_equal. now destruct (split_path s).
      - pose proof (join_split s) as JS. destruct (split_path s) as [|p [|q r]]; [easy| |].
        + cbn [last] in *. exists "". cbn in JS. cbn [append]. congruence.
        + exists (String x a). cbn [append]. f_equal. exact IH. }
    destruct (J s) as (a & Ea). exists a, "". rewrite app_nil_s. exact Ea. }
  assert (R : forall s, exists b, s = rstrip_slash s ++ b).
  { clear. induction s as [|x s (b & IH)]; [now exists ""|]. cbn [rstrip_slash].
    destruct (rstrip_slash s) as [|y r].
    - destruct (Ascii.eqb x slash); [now exists (String x s)|]. exists s. reflexivity.
    - exists b. cbn [append] in *. f_equal. exact IH. }
  destruct (R P) as (b & Eb). pose proof (K (rstrip_slash P)) as C. rewrite H in C.
  apply contains_spec in C as (x & y & C). apply contains_spec. exists x, (y ++ b).
  rewrite Eb at 1. rewrite C. now rewrite !app_assoc_s.
Qed.
Lemma path_join_digit : forall q z, has_digit (path_join q (format_05d z)) = true.
Proof.
  intros q z. unfold path_join. rewrite (noslash_starts _ (seed_noslash z)).
  destruct q; [apply seed_digit|]. destruct (ends_slash _); repeat apply has_digit_app_r; apply seed_digit.
Qed.
