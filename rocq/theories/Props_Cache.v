(** Memoisation (C43). *)
From Coq Require Import String ZArith Bool Arith Lia List.
From Verif Require Import Base Model_Cfg Spec_Cfg Proofs_Cfg Model_Cache Spec_Cache Proofs_Cache.
Import ListNotations.

(** For every history of calls, clears and changed files in which the cache is cleared
    after a change before the next call, the cached function gives the results of the
    function itself.  [key] is what Python compares; the function must not tell apart
    arguments that compare equal. *)
Theorem C43_transparent : forall (A C V W : Type) (ceqb : C -> C -> bool) (key : A -> C),
  (forall x y, ceqb x y = true <-> x = y) ->
  forall cap (f : W -> A -> result V), (forall w a a', key a = key a' -> f w a = f w a') ->
  forall w h, clears_after_edits false h -> fst (run ceqb key cap f w [] h) = direct f w h.
Proof.
  intros A C V W ceqb key E cap f R w h H.
  apply (run_direct ceqb key E cap f R h w [] false); [intros _ a v []|exact H].
Qed.
(** It never holds more than its capacity, nor two entries for a key. *)
Theorem C43_bounded : forall (A C V W : Type) (ceqb : C -> C -> bool) (key : A -> C),
  (forall x y, ceqb x y = true <-> x = y) ->
  forall cap (f : W -> A -> result V) w h,
  let c := snd (run ceqb key cap f w [] h) in (length c <= cap)%nat /\ NoDup (map fst c).
Proof.
  intros A C V W ceqb key E cap f w h. apply (run_tidy ceqb key E cap f h w []). split; [cbn; lia|constructor].
Qed.
(** It holds the keys used last since the last clear, the last one first: what it drops is
    the key used longest ago. *)
Theorem C43_least_recent_dropped : forall (A C V W : Type) (ceqb : C -> C -> bool) (key : A -> C),
  (forall x y, ceqb x y = true <-> x = y) ->
  forall cap (f : W -> A -> result V), (forall w a, exists v, f w a = Ok v) ->
  forall w h, map fst (snd (run ceqb key cap f w [] h)) = firstn cap (latest ceqb (calls key h)).
Proof.
  intros A C V W ceqb key E cap f T w h.
  apply (run_keys ceqb key E cap f T h w [] []). now destruct cap.
Qed.
(** A call that raises changes nothing: it is not stored and pushes nothing out. *)
Theorem C43_failures_not_stored : forall (A C V W : Type) (ceqb : C -> C -> bool) (key : A -> C),
  (forall x y, ceqb x y = true <-> x = y) ->
  forall cap (f : W -> A -> result V), (forall w a a', key a = key a' -> f w a = f w a') ->
  forall w h, clears_after_edits false h ->
  map fst (snd (run ceqb key cap f w [] h)) = firstn cap (latest ceqb (successes key f w h [])).
Proof.
  intros A C V W ceqb key E cap f R w h H.
  apply (run_successes ceqb key E cap f R h w [] [] false); [intros _ a v []|exact H|now destruct cap].
Qed.
Example C43_failures_case :
  let f (w n : nat) := if Nat.eqb n 3 then Err ValueError else Ok (w * n)%nat in
  let h := [Call 1; Call 2; Call 3; Call 1; Call 4]%nat in
  clears_after_edits false h /\ successes (fun a : nat => a) f 2%nat h [] = [4; 1; 2; 1]%nat /\
  run Nat.eqb (fun a : nat => a) 2 f 2%nat [] h = ([Ok 2; Ok 4; Err ValueError; Ok 2; Ok 8], [(4, 8); (1, 2)])%nat.
Proof. repeat split; reflexivity. Qed.
Definition double (w : nat) (n : nat) : result nat := Ok (w * n)%nat.
Example C43_case :
  let h := [Call 1; Call 2; Call 3; Call 2; Edit 10; Clear; Call 2; Call 5; Call 2; Call 7]%nat in
  clears_after_edits false h /\
  run Nat.eqb (fun a : nat => a) 2 double 2%nat [] h =
    ([Ok 2; Ok 4; Ok 6; Ok 4; Ok 20; Ok 50; Ok 20; Ok 70], [(7, 70); (2, 20)])%nat /\
  firstn 2 (latest Nat.eqb (calls (fun a : nat => a) h)) = [7; 2]%nat.
Proof. repeat split; reflexivity. Qed.
(** Without the clear a changed file is not seen: this is why main clears the caches. *)
Theorem C43_changed_file_refuted : exists w h,
  fst (run Nat.eqb (fun a : nat => a) 2 double w [] h) <> direct double w h.
Proof. exists 2%nat, [Call 1; Edit 3; Call 1]%nat. discriminate. Qed.

(** Configurations as keys: equality looks at all options but run_date, run_time and
    impact_regimes, so a function that reads none of these may be cached. *)
Theorem C43_config_keys : forall V ks (f : cfg -> V), reads ks f ->
  (forall k, In k ks -> ~ In k ["run_date"; "run_time"; "impact_regimes"]%string) ->
  forall c c', cfg_key c = cfg_key c' -> f c = f c'.
Proof.
  intros V ks f R N c c' K. apply R. intros k I. specialize (N k I).
  assert (L : forall c : cfg, lookup k (cfg_key c) = lookup k c).
  { intros d. unfold cfg_key. induction d as [|[a v] d IH]; [reflexivity|]. cbn [filter fst].
    destruct (existsb (String.eqb a) uncompared) eqn:X; cbn [negb]; rewrite !lookup_cons, ?IH.
    - destruct (String.eqb_spec a k); [|reflexivity]. subst. exfalso. apply N.
      apply existsb_exists in X as (x & X1 & X2). apply String.eqb_eq in X2. now subst.
    - reflexivity. }
  rewrite <- (L c), <- (L c'). now rewrite K.
Qed.
(** What the cached functions read of the configuration (moonpies.py:459-461, 2033-2035,
    2043-2050, 2068-2071); get_crater_sfd and diam2len_prieur take no configuration. *)
Definition cached_reads : list string :=
  ["bsed_frac_mean_in"; "bsed_frac_std_in"; "escape_vel"; "impact_speed_mean"; "impact_speed_sd";
   "comet_speed_min"; "comet_speed_max"; "jfc_speed_sd"; "jfc_speed_mean"; "lpc_speed_sd"; "lpc_speed_mean";
   "jfc_frac"; "lpc_frac"; "neukum_pf_new"; "neukum_pf_a_2001"; "neukum_pf_a_1983"]%string.
Theorem C43_reads_compared : forall k, In k cached_reads -> In k options /\ ~ In k ["run_date"; "run_time"; "impact_regimes"]%string.
Proof.
  assert (F : forallb (fun k => existsb (String.eqb k) options && negb (existsb (String.eqb k) uncompared)) cached_reads = true)
    by (vm_compute; reflexivity).
  intros k I. rewrite forallb_forall in F. specialize (F k I). apply andb_prop in F as [F1 F2]. split.
  - apply existsb_exists in F1 as (x & X1 & X2). apply String.eqb_eq in X2. now subst.
  - intros J. apply negb_true_iff in F2.
    assert (X : existsb (String.eqb k) uncompared = true) by (apply existsb_exists; exists k; split; [exact J|apply String.eqb_refl]).
    congruence.
Qed.
(** A function that reads impact_regimes could not be: two configurations that differ there
    are one key. *)
Theorem C43_regimes_refuted : exists c c' : cfg,
  cfg_key c = cfg_key c' /\ getv c "impact_regimes" <> getv c' "impact_regimes".
Proof.
  exists [("pole", VStr "s"); ("impact_regimes", VDict [])]%string,
         [("pole", VStr "s"); ("impact_regimes", VDict [(VStr "a", VNone)])]%string.
  split; [reflexivity|discriminate].
Qed.

Print Assumptions C43_transparent.
Print Assumptions C43_bounded.
Print Assumptions C43_least_recent_dropped.
Print Assumptions C43_failures_not_stored.
Print Assumptions C43_changed_file_refuted.
Print Assumptions C43_config_keys.
Print Assumptions C43_reads_compared.
Print Assumptions C43_regimes_refuted.
