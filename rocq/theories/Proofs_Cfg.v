(** Facts about the configuration object. *)
From Coq Require Import ZArith QArith Lia Bool Ascii String List.
From Verif Require Import Base Proofs_Base Model_Path Proofs_Path Model_Cfg Spec_Cfg.
Import ListNotations.
Open Scope string_scope.

Definition keys {A} (c : list (string * A)) : list string := map fst c.
Definition field_names : list string := map (fun f => fst (fst f)) FIELDS.

Lemma nodup_names : NoDup field_names.
Proof.
  assert (K : forall l, (fix chk l := match l with [] => true | x :: r => negb (existsb (String.eqb x) r) && chk r end) l = true -> NoDup l).
  { induction l as [|x r IH]; intros H; [constructor|]. apply andb_prop in H as [H1 H2].
    constructor; [|auto]. intros I. apply negb_true_iff in H1.
    assert (X : existsb (String.eqb x) r = true) by (apply existsb_exists; exists x; split; [auto|apply String.eqb_refl]).
    congruence. }
  apply K. vm_compute. reflexivity.
Qed.

Lemma lookup_cons : forall A k k' (v : A) l, lookup k ((k', v) :: l) = if k' =? k then Some v else lookup k l.
Proof. intros. unfold lookup. cbn [find fst]. now destruct (k' =? k). Qed.
Lemma lookup_in : forall A k (l : list (string * A)), In k (keys l) <-> exists v, lookup k l = Some v.
Proof.
  intros A k l. induction l as [|[k' v] l IH]; cbn [keys map].
  - split; [easy|]. intros (v & H). discriminate.
  - rewrite lookup_cons. cbn [fst In]. fold (keys l). rewrite IH.
    destruct (String.eqb_spec k' k); [split; eauto|]. split; [intros [?|?]; [easy|auto]|auto].
Qed.
Lemma lookup_none : forall A k (l : list (string * A)), ~ In k (keys l) <-> lookup k l = None.
Proof.
  intros A k l. rewrite lookup_in. destruct (lookup k l); split; intros H; try easy.
  - exfalso; eauto.
  - intros (v & E). discriminate.
Qed.
Lemma lookup_nodup : forall A k v (l : list (string * A)), NoDup (keys l) -> In (k, v) l -> lookup k l = Some v.
Proof.
  intros A k v l. induction l as [|[k' v'] l IH]; [easy|]. cbn [keys map]. intros N I. inversion N; subst.
  rewrite lookup_cons. destruct I as [I|I].
  - injection I as -> ->. now rewrite String.eqb_refl.
  - destruct (String.eqb_spec k' k); [|auto]. subst. exfalso. apply H1. apply (in_map fst) in I. exact I.
Qed.
Lemma lookup_some_in : forall A k v (l : list (string * A)), lookup k l = Some v -> In (k, v) l.
Proof.
  intros A k v l. induction l as [|[k' v'] l IH]; [easy|]. rewrite lookup_cons.
  destruct (String.eqb_spec k' k); [intros [= ->]; subst; now left|right; auto].
Qed.

Lemma keys_setv : forall c k v, keys (setv c k v) = keys c.
Proof.
  intros c k v. unfold keys, setv. rewrite map_map. apply map_ext. intros [k' v']. cbn.
  destruct (String.eqb_spec k' k); cbn; congruence.
Qed.
Lemma getv_setv : forall c k v k', In k (keys c) -> getv (setv c k v) k' = if k' =? k then v else getv c k'.
Proof.
  intros c k v k' H. unfold getv.
  assert (K : lookup k' (setv c k v) = if k' =? k then (match lookup k c with Some _ => Some v | None => None end) else lookup k' c).
  { clear H. induction c as [|[a w] c IH]; [cbn; now destruct (k' =? k)|].
    cbn [setv map fst]. fold (setv c k v).
    destruct (String.eqb_spec a k) as [->|Nak]; rewrite !lookup_cons; rewrite IH.
    - rewrite String.eqb_refl, (String.eqb_sym k k'). destruct (k' =? k); reflexivity.
    - apply String.eqb_neq in Nak. rewrite Nak.
      destruct (String.eqb_spec a k') as [->|]; [now rewrite Nak|reflexivity]. }
  rewrite K. destruct (k' =? k); [|reflexivity]. apply lookup_in in H as (w & ->). reflexivity.
Qed.

Lemma keys_fill : forall row c, keys (fill_none c row) = keys c.
Proof.
  induction row as [|[k v] row IH]; intros c; [reflexivity|]. unfold fill_none in *. cbn [fold_left fst snd].
  rewrite IH. destruct (getv c k); auto using keys_setv.
Qed.
Lemma getv_fill : forall row c k, NoDup (keys row) -> incl (keys row) (keys c) ->
  getv (fill_none c row) k =
  match lookup k row with
  | Some v => match getv c k with VNone => v | w => w end
  | None => getv c k
  end.
Proof.
  induction row as [|[a v] row IH]; intros c k N I; [reflexivity|].
  cbn [keys map fst] in N. inversion N as [|? ? NI ND]; subst.
  assert (Ia : In a (keys c)) by (apply I; left; reflexivity).
  assert (Ir : incl (keys row) (keys c)) by (intros x X; apply I; right; exact X).
  change (fill_none c ((a, v) :: row)) with
    (fill_none (match getv c a with VNone => setv c a v | _ => c end) row).
  rewrite lookup_cons.
  destruct (getv c a) eqn:G; try (rewrite IH by auto;
    destruct (String.eqb_spec a k); [subst; apply lookup_none in NI; rewrite NI, G; reflexivity|reflexivity]).
  rewrite IH; [|auto|rewrite keys_setv; auto]. rewrite getv_setv by auto.
  rewrite String.eqb_sym. destruct (String.eqb_spec a k); [|reflexivity].
  subst. apply lookup_none in NI. rewrite NI, G. reflexivity.
Qed.

(** Stages that work field by field. *)
Lemma mapM_fields : forall (f : string * val -> result (string * val)) c c',
  (forall e e', f e = Ok e' -> fst e' = fst e) ->
  mapM f c = Ok c' -> keys c' = keys c /\
  forall k, In k (keys c) -> f (k, getv c k) = Ok (k, getv c' k).
Proof.
  intros f c c' F. revert c'. induction c as [|[a v] c IH]; intros c' H.
  - injection H as <-. split; [reflexivity|easy].
  - cbn [mapM] in H. destruct (f (a, v)) as [[b w]|] eqn:A; [|discriminate]. cbn [bind] in H.
    destruct (mapM f c) as [d|] eqn:D; [|discriminate]. cbn [bind] in H. injection H as <-.
    pose proof (F _ _ A) as B. cbn [fst] in B. subst b.
    destruct (IH d eq_refl) as (K & L). split; [cbn; f_equal; exact K|].
    intros k I. unfold getv. rewrite !lookup_cons.
    destruct (String.eqb_spec a k); [subst; exact A|]. apply L. now destruct I.
Qed.
Lemma mapM_fields_ok : forall (f : string * val -> result (string * val)) c,
  (forall k, In k (keys c) -> exists v, f (k, getv c k) = Ok (k, v)) -> NoDup (keys c) -> exists c', mapM f c = Ok c'.
Proof.
  intros f c. induction c as [|[a v] c IH]; intros H N; [eexists; reflexivity|].
  cbn [keys map fst] in N. inversion N; subst.
  destruct (H a) as (w & W); [now left|]. unfold getv in W. rewrite lookup_cons, String.eqb_refl in W.
  destruct IH as (d & D); [|auto|].
  - intros k I. destruct (H k) as (x & X); [now right|]. exists x.
    unfold getv in X. rewrite lookup_cons in X. destruct (String.eqb_spec a k); [|exact X].
    subst. easy.
  - cbn [mapM]. rewrite W. cbn [bind]. rewrite D. cbn [bind]. eexists; reflexivity.
Qed.
Lemma cfg_ext : forall c d : cfg, keys c = keys d -> NoDup (keys c) -> (forall k, In k (keys c) -> getv c k = getv d k) -> c = d.
Proof.
  induction c as [|[a v] c IH]; intros d K N G; destruct d as [|[b w] d]; try discriminate; [reflexivity|].
  cbn [keys map fst] in K, N. injection K as -> K. inversion N; subst.
  assert (V : v = w).
  { specialize (G b (or_introl eq_refl)). unfold getv in G. now rewrite !lookup_cons, String.eqb_refl in G. }
  subst. f_equal. apply IH; auto. intros k I. specialize (G k (or_intror I)).
  unfold getv in G. rewrite !lookup_cons in G. destruct (String.eqb_spec b k); [subst; easy|exact G].
Qed.

Lemma keys_init : forall kw, keys (init kw) = field_names.
Proof. intros. unfold keys, init, field_names. rewrite map_map. reflexivity. Qed.

Lemma getv_init : forall kw k, In k field_names -> getv (init kw) k = start kw k.
Proof.
  intros kw k. unfold init, field_names, start, default_of, getv.
  induction FIELDS as [|[[a t] d] l IH]; [easy|]. cbn [map fst snd]. intros I.
  rewrite !lookup_cons. destruct (String.eqb_spec a k).
  - subst. now destruct (lookup k kw).
  - apply IH. now destruct I.
Qed.

Lemma make_field_key : forall E d o e e', make_field_absolute E d o e = Ok e' -> fst e' = fst e.
Proof.
  intros E d o [k v] e'. unfold make_field_absolute. cbn [fst snd]. destruct v; try (intros [= <-]; reflexivity).
  destruct (new_path d o k s); [|discriminate]. cbn [bind]. intros [= <-]. reflexivity.
Qed.
Lemma enforce_key : forall E e e', enforce_field E e = Ok e' -> fst e' = fst e.
Proof.
  intros E [k v] e'. unfold enforce_field. cbn [fst snd]. destruct (isinstance v _); [intros [= <-]; reflexivity|].
  destruct (convert E _ v); [|discriminate]. intros [= <-]. reflexivity.
Qed.
Lemma convert_isinstance : forall E t v w, convert E t v = Ok w -> isinstance w t = true.
Proof.
  intros E t v w. destruct t; cbn [convert].
  - intros [= <-]; reflexivity.
  - destruct (to_int E v); [|discriminate]. intros [= <-]; reflexivity.
  - destruct (to_float E v); [|discriminate]. intros [= <-]; reflexivity.
  - intros [= <-]; reflexivity.
  - destruct (to_list v); [|discriminate]. intros [= <-]; reflexivity.
  - destruct (to_dict v); [|discriminate]. intros [= <-]; reflexivity.
Qed.

Definition row_of (table : list (string * list (string * val))) (v : val) : option (list (string * val)) :=
  match v with VStr r => lookup r table | _ => None end.
Definition filled (row : list (string * val)) (k : string) (v : val) : val :=
  match lookup k row with Some w => match v with VNone => w | _ => v end | None => v end.

Lemma mode_row : forall r row, lookup r MODE_DEFAULTS = Some row -> NoDup (keys row) /\ incl (keys row) field_names
  /\ Forall (fun k => lookup k row = None) ["seed"; "run_date"; "run_time"; "mode"; "pole"; "data_path"; "out_path"; "figs_path"; "run_name"].
Proof.
  intros r row H. apply lookup_some_in in H. cbn [MODE_DEFAULTS In] in H.
  assert (P : forall n (l : list string), (fix chk l := match l with [] => true | x :: q => negb (existsb (String.eqb x) q) && chk q end) l = true ->
              forallb (fun x => existsb (String.eqb x) n) l = true -> NoDup l /\ incl l n).
  { intros n l. induction l as [|x q IH]; intros A B; [split; [constructor|easy]|].
    apply andb_prop in A as [A1 A2]. cbn in B. apply andb_prop in B as [B1 B2]. destruct (IH A2 B2) as (N & I).
    apply negb_true_iff in A1. split.
    - constructor; [|auto]. intros X. assert (existsb (String.eqb x) q = true); [|congruence].
      apply existsb_exists. exists x. now rewrite String.eqb_refl.
    - intros y [->|Y]; [|auto]. apply existsb_exists in B1 as (z & Z & Q). apply String.eqb_eq in Q. now subst. }
  destruct H as [[= <- <-]|[[= <- <-]|[]]];
    (split; [|split]; [apply P with (n := field_names); vm_compute; reflexivity
                      |apply P; vm_compute; reflexivity|repeat constructor]).
Qed.
Lemma pole_row : forall r row, lookup r POLE_DEFAULTS = Some row -> NoDup (keys row) /\ incl (keys row) field_names
  /\ Forall (fun k => lookup k row = None) ["seed"; "run_date"; "run_time"; "mode"; "pole"; "data_path"; "out_path"; "figs_path"; "run_name"].
Proof.
  intros r row H. apply lookup_some_in in H. cbn [POLE_DEFAULTS In] in H.
  assert (P : forall n (l : list string), (fix chk l := match l with [] => true | x :: q => negb (existsb (String.eqb x) q) && chk q end) l = true ->
              forallb (fun x => existsb (String.eqb x) n) l = true -> NoDup l /\ incl l n).
  { intros n l. induction l as [|x q IH]; intros A B; [split; [constructor|easy]|].
    apply andb_prop in A as [A1 A2]. cbn in B. apply andb_prop in B as [B1 B2]. destruct (IH A2 B2) as (N & I).
    apply negb_true_iff in A1. split.
    - constructor; [|auto]. intros X. assert (existsb (String.eqb x) q = true); [|congruence].
      apply existsb_exists. exists x. now rewrite String.eqb_refl.
    - intros y [->|Y]; [|auto]. apply existsb_exists in B1 as (z & Z & Q). apply String.eqb_eq in Q. now subst. }
  destruct H as [[= <- <-]|[[= <- <-]|[]]];
    (split; [|split]; [apply P with (n := field_names); vm_compute; reflexivity
                      |apply P; vm_compute; reflexivity|repeat constructor]).
Qed.

(** *** What construction computes, field by field *)
Definition raw (E : env) (kw : cfg) (seed : Z) (mrow prow : list (string * val)) (op k : string) : val :=
  if k =? "figs_path" then get_figs_path E (start kw k) op
  else if k =? "out_path" then VStr op
  else if k =? "data_path" then get_data_path E (start kw k)
  else if k =? "run_time" then VStr (time_now E)
  else if k =? "run_date" then VStr (date_now E)
  else if k =? "seed" then VInt seed
  else filled prow k (filled mrow k (start kw k)).

Lemma in_names : forall k, existsb (String.eqb k) field_names = true -> In k field_names.
Proof. intros k H. apply existsb_exists in H as (x & X & Q). apply String.eqb_eq in Q. now subst. Qed.
Ltac inn := apply in_names; vm_compute; reflexivity.

Definition mid (E : env) (kw : cfg) (seed : Z) (mrow prow : list (string * val)) : cfg :=
  fill_none (fill_none (setv (setv (setv (init kw) "seed" (VInt seed)) "run_date" (VStr (date_now E)))
           "run_time" (VStr (time_now E))) mrow) prow.
Lemma keys_mid : forall E kw s m p, keys (mid E kw s m p) = field_names.
Proof. intros. unfold mid. now rewrite !keys_fill, !keys_setv, keys_init. Qed.
Lemma getv_mid : forall E kw s m p rm rp k,
  lookup rm MODE_DEFAULTS = Some m -> lookup rp POLE_DEFAULTS = Some p -> In k field_names ->
  getv (mid E kw s m p) k =
  if k =? "run_time" then VStr (time_now E)
  else if k =? "run_date" then VStr (date_now E)
  else if k =? "seed" then VInt s
  else filled p k (filled m k (start kw k)).
Proof.
  intros E kw s m p rm rp k M P I.
  destruct (mode_row _ _ M) as (M1 & M2 & M3). destruct (pole_row _ _ P) as (P1 & P2 & P3).
  unfold mid. rewrite getv_fill; [|auto|rewrite keys_fill, !keys_setv, keys_init; auto].
  rewrite getv_fill; [|auto|rewrite !keys_setv, keys_init; auto].
  rewrite !getv_setv by (rewrite ?keys_setv, keys_init; inn).
  rewrite getv_init by auto.
  rewrite Forall_forall in M3, P3.
  destruct (String.eqb_spec k "run_time"); [subst; rewrite M3, P3 by (cbn; tauto); reflexivity|].
  destruct (String.eqb_spec k "run_date"); [subst; rewrite M3, P3 by (cbn; tauto); reflexivity|].
  destruct (String.eqb_spec k "seed"); [subst; rewrite M3, P3 by (cbn; tauto); reflexivity|].
  unfold filled. destruct (lookup k p), (lookup k m) as [w|]; destruct (start kw k); try destruct w; reflexivity.
Qed.
Lemma filled_none : forall r k v, lookup k r = None -> filled r k v = v.
Proof. intros r k v H. unfold filled. now rewrite H. Qed.

Lemma set_defaults_ok : forall t v c c', set_defaults t v c = Ok c' ->
  exists r row, v = VStr r /\ lookup r t = Some row /\ c' = fill_none c row.
Proof.
  intros t v c c' H. unfold set_defaults in H.
  destruct v; try (destruct (hashable _); discriminate).
  destruct (lookup s t) eqn:E; [|discriminate]. injection H as <-. eauto.
Qed.

Lemma set_defaults_str : forall t r row c, lookup r t = Some row -> set_defaults t (VStr r) c = Ok (fill_none c row).
Proof. intros t r row c H. cbn [set_defaults]. now rewrite H. Qed.

Definition after_paths (E : env) (c : cfg) (op : string) : cfg :=
  let c := setv c "data_path" (get_data_path E (getv c "data_path")) in
  let c := setv c "out_path" (VStr op) in
  setv c "figs_path" (get_figs_path E (getv c "figs_path") op).
Lemma getv_after : forall E c op k, keys c = field_names ->
  getv (after_paths E c op) k =
  if k =? "figs_path" then get_figs_path E (getv c k) op
  else if k =? "out_path" then VStr op
  else if k =? "data_path" then get_data_path E (getv c k)
  else getv c k.
Proof.
  intros E c op k K. unfold after_paths. rewrite !getv_setv by (rewrite ?keys_setv, K; inn).
  destruct (String.eqb_spec k "figs_path"); [subst; reflexivity|].
  destruct (String.eqb_spec k "out_path"); [subst; reflexivity|].
  destruct (String.eqb_spec k "data_path"); [subst; reflexivity|]. reflexivity.
Qed.
Lemma getv_raw : forall E kw s m p rm rp op k,
  lookup rm MODE_DEFAULTS = Some m -> lookup rp POLE_DEFAULTS = Some p -> In k field_names ->
  getv (after_paths E (mid E kw s m p) op) k = raw E kw s m p op k.
Proof.
  intros E kw s m p rm rp op k M P I. rewrite getv_after by apply keys_mid.
  pose proof (getv_mid E kw s m p rm rp k M P I) as G. unfold raw.
  destruct (mode_row _ _ M) as (_ & _ & M3). destruct (pole_row _ _ P) as (_ & _ & P3).
  rewrite Forall_forall in M3, P3.
  destruct (String.eqb_spec k "figs_path"); [subst; rewrite G; cbn -[filled get_figs_path]; rewrite !filled_none by (first [apply M3|apply P3]; cbn; tauto); reflexivity|].
  destruct (String.eqb_spec k "out_path"); [reflexivity|].
  destruct (String.eqb_spec k "data_path"); [subst; rewrite G; cbn -[filled get_data_path]; rewrite !filled_none by (first [apply M3|apply P3]; cbn; tauto); reflexivity|].
  exact G.
Qed.
Lemma keys_after : forall E c op, keys (after_paths E c op) = keys c.
Proof. intros. unfold after_paths. now rewrite !keys_setv. Qed.

(** The conditions under which construction succeeds, and what it then gives. *)
Record built (E : env) (kw c : cfg) (seed : Z) (mrow prow : list (string * val)) (op : string) : Prop := {
  b_fields : forallb (fun kv => is_field (fst kv)) kw = true;
  b_seed : get_random_seed E (start kw "seed") = Ok seed;
  b_mode : exists r, start kw "mode" = VStr r /\ lookup r MODE_DEFAULTS = Some mrow;
  b_pole : exists r, start kw "pole" = VStr r /\ lookup r POLE_DEFAULTS = Some prow;
  b_out : get_out_path E (start kw "out_path") seed (date_now E) (start kw "run_name") = Ok op;
  b_keys : keys c = field_names;
  b_vals : forall k, In k field_names -> exists v,
    make_field_absolute E (get_data_path E (start kw "data_path")) (VStr op) (k, raw E kw seed mrow prow op k) = Ok (k, v) /\
    enforce_field E (k, v) = Ok (k, getv c k)
}.

Lemma Cfg_unfold : forall E kw s m p rm rp,
  forallb (fun kv => is_field (fst kv)) kw = true ->
  get_random_seed E (start kw "seed") = Ok s ->
  start kw "mode" = VStr rm -> lookup rm MODE_DEFAULTS = Some m ->
  start kw "pole" = VStr rp -> lookup rp POLE_DEFAULTS = Some p ->
  Cfg E kw =
  (let* op := get_out_path E (start kw "out_path") s (date_now E) (start kw "run_name") in
   let* c := make_paths_absolute E (after_paths E (mid E kw s m p) op) in enforce_types E c).
Proof.
  intros E kw s m p rm rp F S M1 M2 P1 P2. unfold Cfg. rewrite F. cbn [negb].
  unfold set_seed_time. rewrite getv_init by inn. rewrite S. cbn [bind].
  set (c0 := setv (setv (setv (init kw) _ _) _ _) _ _).
  assert (G0 : getv c0 "mode" = VStr rm).
  { unfold c0. rewrite !getv_setv by (rewrite ?keys_setv, keys_init; inn). cbn -[getv init].
    rewrite getv_init by inn. exact M1. }
  rewrite G0. rewrite (set_defaults_str _ _ m) by exact M2. cbn [bind].
  destruct (mode_row _ _ M2) as (N1 & N2 & N3). rewrite Forall_forall in N3.
  assert (G1 : getv (fill_none c0 m) "pole" = VStr rp).
  { rewrite getv_fill; [|auto|unfold c0; rewrite !keys_setv, keys_init; auto].
    rewrite (N3 "pole") by (cbn; tauto).
    unfold c0. rewrite !getv_setv by (rewrite ?keys_setv, keys_init; inn). cbn -[getv init].
    rewrite getv_init by inn. exact P1. }
  rewrite G1. rewrite (set_defaults_str _ _ p) by exact P2. cbn [bind].
  change (fill_none (fill_none c0 m) p) with (mid E kw s m p).
  assert (G : forall k, In k field_names -> getv (mid E kw s m p) k = _) by (intros k I; exact (getv_mid E kw s m p rm rp k M2 P2 I)).
  destruct (pole_row _ _ P2) as (_ & _ & Q3). rewrite Forall_forall in Q3.
  assert (St : forall k, In k ["mode"; "pole"; "out_path"; "run_name"] -> getv (mid E kw s m p) k = start kw k).
  { intros k I. rewrite G by (destruct I as [<-|[<-|[<-|[<-|[]]]]]; inn).
    destruct I as [<-|[<-|[<-|[<-|[]]]]]; cbn -[filled start];
      rewrite !filled_none by (first [apply N3|apply Q3]; cbn; tauto); reflexivity. }
  unfold set_path_defaults.
  assert (Gs : forall k, k <> "data_path" -> getv (setv (mid E kw s m p) "data_path" (get_data_path E (getv (mid E kw s m p) "data_path"))) k = getv (mid E kw s m p) k).
  { intros k K. rewrite getv_setv by (rewrite keys_mid; inn). apply String.eqb_neq in K. now rewrite K. }
  cbv zeta. rewrite (Gs "seed"), (Gs "run_date"), (Gs "out_path"), (Gs "run_name") by discriminate.
  rewrite (G "seed"), (G "run_date") by inn. rewrite !St by (cbn; tauto).
  cbn -[get_out_path start after_paths make_paths_absolute enforce_types mid setv getv get_data_path get_figs_path bind].
  cbn [bind as_str].
  destruct (get_out_path _ _ _ _ _) as [op|]; [|reflexivity]. cbn [bind]. reflexivity.
Qed.

Lemma Cfg_built : forall E kw c, Cfg E kw = Ok c -> exists s m p op, built E kw c s m p op.
Proof.
  intros E kw c H.
  assert (F : forallb (fun kv => is_field (fst kv)) kw = true).
  { unfold Cfg in H. destruct (forallb _ kw); [reflexivity|discriminate]. }
  assert (S : exists s, get_random_seed E (start kw "seed") = Ok s).
  { unfold Cfg in H. rewrite F in H. cbn [negb] in H. unfold set_seed_time in H. rewrite getv_init in H by inn.
    destruct (get_random_seed _ _); [eauto|discriminate]. }
  destruct S as (s & S).
  assert (M : exists rm m, start kw "mode" = VStr rm /\ lookup rm MODE_DEFAULTS = Some m).
  { unfold Cfg in H. rewrite F in H. cbn [negb] in H. unfold set_seed_time in H. rewrite getv_init in H by inn.
    rewrite S in H. cbn [bind] in H.
    rewrite !getv_setv in H by (rewrite ?keys_setv, keys_init; inn).
    cbn -[set_defaults init start getv bind setv] in H. rewrite getv_init in H by inn.
    destruct (set_defaults MODE_DEFAULTS (start kw "mode") _) eqn:D; [|discriminate].
    apply set_defaults_ok in D as (r & row & A & B & _). eauto. }
  destruct M as (rm & m & M1 & M2).
  assert (P : exists rp p, start kw "pole" = VStr rp /\ lookup rp POLE_DEFAULTS = Some p).
  { unfold Cfg in H. rewrite F in H. cbn [negb] in H. unfold set_seed_time in H. rewrite getv_init in H by inn.
    rewrite S in H. cbn [bind] in H.
    rewrite !getv_setv in H by (rewrite ?keys_setv, keys_init; inn).
    cbn -[set_defaults init start getv bind setv] in H. rewrite getv_init in H by inn.
    rewrite M1 in H. rewrite (set_defaults_str _ _ m) in H by exact M2. cbn [bind] in H.
    destruct (mode_row _ _ M2) as (N1 & N2 & N3). rewrite Forall_forall in N3.
    rewrite getv_fill in H; [|auto|rewrite !keys_setv, keys_init; auto].
    rewrite (N3 "pole") in H by (cbn; tauto).
    rewrite !getv_setv in H by (rewrite ?keys_setv, keys_init; inn).
    cbn -[set_defaults init start getv bind setv fill_none] in H. rewrite getv_init in H by inn.
    destruct (set_defaults POLE_DEFAULTS (start kw "pole") _) eqn:D; [|discriminate].
    apply set_defaults_ok in D as (r & row & A & B & _). eauto. }
  destruct P as (rp & p & P1 & P2).
  rewrite (Cfg_unfold E kw s m p rm rp) in H by auto.
  destruct (get_out_path _ _ _ _ _) as [op|] eqn:O; [|discriminate]. cbn [bind] in H.
  destruct (make_paths_absolute E _) as [c1|] eqn:A; [|discriminate]. cbn [bind] in H.
  exists s, m, p, op.
  unfold make_paths_absolute in A. apply mapM_fields in A as (A1 & A2); [|apply make_field_key].
  unfold enforce_types in H. apply mapM_fields in H as (H1 & H2); [|apply enforce_key].
  rewrite keys_after, keys_mid in A1, A2. rewrite A1 in H1, H2.
  rewrite !(getv_raw E kw s m p rm rp op) in A2 by (auto; inn).
  constructor; eauto.
  intros k I. exists (getv c1 k). split; [|auto].
  specialize (A2 k I). rewrite (getv_raw E kw s m p rm rp op) in A2 by auto. exact A2.
Qed.

Lemma built_Cfg : forall E kw c s m p op, built E kw c s m p op -> Cfg E kw = Ok c.
Proof.
  intros E kw c s m p op [F S (rm & M1 & M2) (rp & P1 & P2) O K V].
  rewrite (Cfg_unfold E kw s m p rm rp) by auto. rewrite O. cbn [bind].
  set (c0 := after_paths E (mid E kw s m p) op).
  assert (K0 : keys c0 = field_names) by (unfold c0; now rewrite keys_after, keys_mid).
  assert (R : forall k, In k field_names -> getv c0 k = raw E kw s m p op k) by (intros; now apply (getv_raw E kw s m p rm rp)).
  unfold make_paths_absolute. rewrite (R "data_path"), (R "out_path") by inn.
  change (raw E kw s m p op "data_path") with (get_data_path E (start kw "data_path")).
  change (raw E kw s m p op "out_path") with (VStr op).
  destruct (mapM_fields_ok (make_field_absolute E (get_data_path E (start kw "data_path")) (VStr op)) c0) as (c1 & C1).
  { intros k I. rewrite K0 in I. rewrite R by auto. destruct (V k I) as (v & A & _). eauto. }
  { rewrite K0. apply nodup_names. }
  rewrite C1. cbn [bind]. apply mapM_fields in C1 as (A1 & A2); [|apply make_field_key].
  assert (V1 : forall k, In k field_names -> enforce_field E (k, getv c1 k) = Ok (k, getv c k)).
  { intros k I. destruct (V k I) as (v & A & B). specialize (A2 k). rewrite K0 in A2. specialize (A2 I).
    rewrite R in A2 by auto. rewrite A in A2. injection A2 as ->. exact B. }
  unfold enforce_types. destruct (mapM_fields_ok (enforce_field E) c1) as (c2 & C2).
  { intros k I. rewrite A1, K0 in I. eauto. }
  { rewrite A1, K0. apply nodup_names. }
  rewrite C2. f_equal. apply mapM_fields in C2 as (B1 & B2); [|apply enforce_key].
  apply cfg_ext; [congruence|rewrite B1, A1, K0; apply nodup_names|].
  intros k I. rewrite B1 in I. specialize (B2 k I). rewrite A1, K0 in I. rewrite V1 in B2 by auto.
  injection B2 as ->. reflexivity.
Qed.

(** *** Values of single fields *)
Lemma forall_names : forall P : string -> bool, forallb P field_names = true -> forall k, In k field_names -> P k = true.
Proof. intros P H k I. rewrite forallb_forall in H. auto. Qed.
Ltac allnames := apply forall_names; vm_compute; reflexivity.

Lemma path_names : forall k, In k field_names -> endswith "_path" k = true -> k = "data_path" \/ k = "out_path" \/ k = "figs_path".
Proof.
  intros k I H.
  pose proof (forall_names (fun k => negb (endswith "_path" k) || ((k =? "data_path") || (k =? "out_path") || (k =? "figs_path")))
    ltac:(vm_compute; reflexivity) k I) as X. cbv beta in X. rewrite H in X. cbn [negb orb] in X.
  apply orb_prop in X as [X|X]; [apply orb_prop in X as [X|X]|]; apply String.eqb_eq in X; auto.
Qed.
Definition is_none (v : val) : bool := match v with VNone => true | _ => false end.
Definition opt_none {A} (o : option A) : bool := match o with None => true | _ => false end.
Lemma path_type : forall k, In k field_names -> path_key k = true -> type_of k = TStr.
Proof.
  intros k I H.
  pose proof (forall_names (fun k => negb (path_key k) || match type_of k with TStr => true | _ => false end)
    ltac:(vm_compute; reflexivity) k I) as X. cbv beta in X. rewrite H in X. now destruct (type_of k).
Qed.
Lemma path_no_row : forall k r row, In k field_names -> path_key k = true ->
  (lookup r MODE_DEFAULTS = Some row \/ lookup r POLE_DEFAULTS = Some row) -> lookup k row = None.
Proof.
  intros k r row I H R.
  assert (X : forall k, In k field_names -> path_key k = true -> forall t, In t (map snd MODE_DEFAULTS ++ map snd POLE_DEFAULTS)%list -> lookup k t = None).
  { intros q J Q t T.
    pose proof (forall_names (fun k => negb (path_key k) || forallb (fun t => opt_none (lookup k t)) (map snd MODE_DEFAULTS ++ map snd POLE_DEFAULTS))
      ltac:(vm_compute; reflexivity) q J) as X. cbv beta in X. rewrite Q in X. cbn [negb orb] in X.
    rewrite forallb_forall in X. specialize (X t T). now destruct (lookup q t). }
  apply X; auto. apply in_or_app.
  destruct R as [R|R]; apply lookup_some_in, (in_map snd) in R; auto.
Qed.
Lemma path_not_timed : forall k, path_key k = true -> (k =? "run_time") = false /\ (k =? "run_date") = false /\ (k =? "seed") = false.
Proof. intros k H. repeat split; apply String.eqb_neq; intros ->; discriminate. Qed.

Definition target (dp op k v : string) : string :=
  if endswith "_in" k then path_join dp (basename v)
  else if endswith "_out" k then path_join op (basename v) else v.
Definition settle (E : env) (v t : string) : string :=
  if exists_ E v then v else resolve (cwd E) (home E) t.

Lemma make_path : forall E dp op k v, path_key k = true ->
  make_field_absolute E (VStr dp) (VStr op) (k, VStr v) = Ok (k, VStr (settle E v (target dp op k v))).
Proof.
  intros E dp op k v H. unfold make_field_absolute, new_path, target, settle, path_key in *. cbn [fst snd].
  destruct (endswith "_in" k); cbn [as_str bind orb] in *; [now destruct (exists_ E v)|].
  destruct (endswith "_out" k); cbn [as_str bind orb] in *; [now destruct (exists_ E v)|].
  rewrite H. cbn [bind]. now destruct (exists_ E v).
Qed.
Lemma make_nonpath : forall E dp op k v, path_key k = false -> make_field_absolute E dp op (k, v) = Ok (k, v).
Proof.
  intros E dp op k v H. unfold make_field_absolute, new_path, path_key in *. cbn [fst snd]. destruct v; try reflexivity.
  destruct (endswith "_in" k); [discriminate|]. destruct (endswith "_out" k); [discriminate|].
  destruct (endswith "_path" k); [discriminate|]. reflexivity.
Qed.
Lemma isinstance_type : forall v t, isinstance v t = has_type v t.
Proof. intros [] []; reflexivity. Qed.
Lemma enforce_stored : forall E k w v, enforce_field E (k, w) = Ok (k, v) <-> stored E k w v.
Proof.
  intros E k w v. unfold enforce_field, stored. rewrite <- isinstance_type. cbn [fst snd]. destruct (isinstance w (type_of k)).
  - split; [intros [= ->]; reflexivity|intros ->; reflexivity].
  - destruct (convert E (type_of k) w); cbn [bind]; [|easy]. split; [intros [= ->]; reflexivity|intros [= ->]; reflexivity].
Qed.
Lemma enforce_path : forall E k s w, In k field_names -> path_key k = true -> enforce_field E (k, VStr s) = Ok (k, w) -> w = VStr s.
Proof.
  intros E k s w I P H. apply enforce_stored in H. unfold stored in H. rewrite (path_type k I P) in H. exact H.
Qed.

Section Built.
Variables (E : env) (kw c : cfg) (s : Z) (m p : list (string * val)) (op : string).
Hypothesis B : built E kw c s m p op.

Lemma nonpath_value : forall k, In k field_names -> path_key k = false -> stored E k (raw E kw s m p op k) (getv c k).
Proof.
  intros k I P. destruct (b_vals _ _ _ _ _ _ _ B k I) as (v & A & X).
  rewrite make_nonpath in A by exact P. injection A as <-. now apply enforce_stored.
Qed.
Lemma out_value : getv c "out_path" = VStr (settle E op op).
Proof.
  destruct (b_vals _ _ _ _ _ _ _ B "out_path" ltac:(inn)) as (v & A & X).
  change (raw E kw s m p op "out_path") with (VStr op) in A.
  unfold make_field_absolute, new_path in A. cbn -[exists_ abspath expanduser] in A.
  assert (V : v = VStr (settle E op op)).
  { unfold settle, resolve. destruct (exists_ E op); injection A as <-; reflexivity. }
  subst. now apply enforce_path in X; [|inn|].
Qed.
Lemma seed_value : getv c "seed" = VInt s.
Proof.
  pose proof (nonpath_value "seed" ltac:(inn) eq_refl) as H. exact H.
Qed.
Lemma keys_value : keys c = field_names.
Proof. apply (b_keys _ _ _ _ _ _ _ B). Qed.
Lemma typed_value : forall k, In k field_names -> isinstance (getv c k) (type_of k) = true.
Proof.
  intros k I. destruct (b_vals _ _ _ _ _ _ _ B k I) as (v & _ & X). apply enforce_stored in X. unfold stored in X. rewrite <- isinstance_type in X.
  destruct (isinstance v (type_of k)) eqn:T; [congruence|]. now apply convert_isinstance in X.
Qed.
Lemma path_value : forall dp k v, start kw "data_path" = VStr dp -> In k field_names -> path_key k = true -> raw E kw s m p op k = VStr v ->
  exists d, get_data_path E (VStr dp) = VStr d /\ getv c k = VStr (settle E v (target d op k v)).
Proof.
  intros dp k v D I P R. destruct (b_vals _ _ _ _ _ _ _ B k I) as (w & A & X).
  rewrite R, D in A.
  assert (Q : exists d, get_data_path E (VStr dp) = VStr d) by (destruct dp; cbn; eauto).
  destruct Q as (d & Q). exists d. split; [exact Q|]. rewrite Q, make_path in A by exact P.
  injection A as <-. now apply enforce_path in X.
Qed.
Lemma raw_row_free : forall k, lookup k m = None -> lookup k p = None ->
  (k =? "run_time") = false -> (k =? "run_date") = false -> (k =? "seed") = false ->
  k <> "data_path" -> k <> "out_path" -> k <> "figs_path" -> raw E kw s m p op k = start kw k.
Proof.
  intros k A1 A2 A3 A4 A5 A6 A7 A8. unfold raw. apply String.eqb_neq in A6, A7, A8.
  rewrite A3, A4, A5, A6, A7, A8. rewrite !filled_none by auto. reflexivity.
Qed.
End Built.
