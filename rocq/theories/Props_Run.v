(** Properties of a run from a configuration object and the files it names. *)
From Coq Require Import ZArith QArith Bool String List Reals Lra.
From Verif Require Import Base Data_Shipped Model_Cfg Spec_Cfg Props_Cfg Model_Time Model_Ice Model_Rng Model_Strat Model_Main Model_Run
  Spec_Time Spec_Ice Spec_Main Spec_Run Proofs_Cfg Proofs_Time Proofs_Rng Props_Main Proofs_Run Proofs_Shipped.
Import ListNotations.
Open Scope R_scope.

(** ** C81: the model as shipped *)

(** With the shipped files and numbers every run finishes: for every machine, every seed,
    mode and pole, every setting of every switch and all random numbers. *)
Theorem C81_finishes : forall E kw c fs rnd ppf sort names u k,
  Cfg E kw = Ok c -> only_switches kw -> installed fs c -> known_traps c names ->
  keeps_order rnd -> rnd 10000000 = 10000000 -> ppf_support ppf -> sorts_by_age sort -> draws u ->
  exists out k', run fs rnd ppf sort c u k = Ok (out, k') /\
    length (o_time out) = 425%nat /\
    (forall i, (i < 425)%nat -> nth_error (o_time out) i = Some (rnd (4250000000 - INR i * 10000000))) /\
    map fst (o_strat out) = names /\ map fst (o_ice out) = names /\ map fst (o_ej out) = names /\
    Forall (fun t => Forall (fun l => 0 <= l_ice l) (snd t)) (o_strat out) /\
    Forall (fun t => Forall (fun x => 0 <= x) (snd t)) (o_ice out).
Proof. exact run_shipped. Qed.

(** In particular with the twelve default cold traps of the south pole. *)
Theorem C81_default_traps : forall E kw c fs rnd ppf sort u k,
  Cfg E kw = Ok c -> only_switches kw -> lookup "pole" kw = None -> lookup "coldtrap_names" kw = None -> installed fs c ->
  keeps_order rnd -> rnd 10000000 = 10000000 -> ppf_support ppf -> sorts_by_age sort -> draws u ->
  exists out k', run fs rnd ppf sort c u k = Ok (out, k') /\ map fst (o_strat out) = with_hop.
Proof.
  intros E kw c fs rnd ppf sort u k H U P N F O R Pp S D.
  assert (X : stored E "coldtrap_names" (VTuple (map VStr with_hop)) (getv c "coldtrap_names")).
  { apply (C39_pole_fills E kw c "coldtrap_names" "s" _ H).
    - unfold start. rewrite P. reflexivity.
    - vm_compute. reflexivity.
    - unfold start. rewrite N. reflexivity. }
  assert (K : known_traps c with_hop).
  { split; [exact X|]. split; [apply nodupb_ok; reflexivity|]. split; [apply inclb_ok; reflexivity|]. intros _ n I. exact I. }
  destruct (C81_finishes E kw c fs rnd ppf sort with_hop u k H U F K O R Pp S D) as (out & k' & A & _ & _ & B & _).
  exists out, k'. auto.
Qed.

(** A run that finishes only has cold traps that the files list. *)
Theorem C81_traps_listed : forall E kw c fs rnd ppf sort names u k out k',
  Cfg E kw = Ok c -> only_switches kw -> installed fs c -> sorts_by_age sort ->
  getv c "coldtrap_names" = VTuple (map VStr names) ->
  run fs rnd ppf sort c u k = Ok (out, k') -> incl names listed.
Proof.
  intros E kw c fs rnd ppf sort names u k out k' H U F S K R n N.
  pose proof (run_traps_listed E kw c fs rnd ppf sort u k out k' names H U F K S R n N) as X.
  revert n N X. assert (Y : incl (map ln_name (clines ++ blines)) listed) by (apply inclb_ok; vm_compute; reflexivity). auto.
Qed.

(** The other documented pole never works with the shipped files: its default cold traps
    are in neither list. *)
Theorem C81_north_refuted : forall E kw c fs rnd ppf sort u k r,
  Cfg E kw = Ok c -> only_switches kw -> lookup "pole" kw = Some (VStr "n") -> lookup "coldtrap_names" kw = None ->
  installed fs c -> sorts_by_age sort ->
  run fs rnd ppf sort c u k <> Ok r.
Proof.
  intros E kw c fs rnd ppf sort u k [out k'] H U P N F S R.
  assert (X : exists names, stored E "coldtrap_names" (VTuple (map VStr ("Fibiger"%string :: names))) (getv c "coldtrap_names")).
  { eexists. apply (C39_pole_fills E kw c "coldtrap_names" "n" _ H).
    - unfold start. rewrite P. reflexivity.
    - instantiate (1 := ["Hermite"; "Hermite A"; "Hevesy"; "Lovelace"; "Nansen A"; "Nansen F"; "Rozhdestvenskiy U"; "Rozhdestvenskiy W"; "Sylvester"]%string).
      vm_compute. reflexivity.
    - unfold start. rewrite N. reflexivity. }
  destruct X as (names & X).
  pose proof (run_traps_listed E kw c fs rnd ppf sort u k out k' _ H U F X S R "Fibiger"%string (or_introl eq_refl)) as I.
  apply existsb_eqb in I. vm_compute in I. discriminate.
Qed.

(** The other documented volcanic mode never works, with any files, options and numbers. *)
Theorem C81_nk_refuted : forall fs rnd ppf sort c u k r,
  getv c "volc_mode" = VStr "NK" -> run fs rnd ppf sort c u k <> Ok r.
Proof.
  intros fs rnd ppf sort c u k [out k'] V R. apply run_head in R. rewrite V in R. discriminate.
Qed.

(** ** Concrete cases *)
Definition day : env := machine [] "240101".
Definition disk0 (p : string) : option string :=
  if String.eqb p "/lib/moonpies/data/crater_list.csv" then Some crater_list_csv
  else if String.eqb p "/lib/moonpies/data/basin_list.csv" then Some basin_list_csv
  else if String.eqb p "/lib/moonpies/data/bahcall_etal_2001_t2.csv" then Some bahcall_csv
  else if String.eqb p "/lib/moonpies/data/ballistic_hop_coldtraps.csv" then Some ballistic_hop_csv
  else if String.eqb p "/lib/moonpies/data/ballistic_sed_frac_melted_mean.csv" then Some melt_mean_csv
  else None.
Lemma disk0_installed kw : In kw [[]; [("pole", VStr "n")]; [("mode", VStr "cannon"); ("seed", VInt 3); ("neukum_pf_new", VBool false)];
    [("coldtrap_names", VTuple [VStr "Scott"; VStr "Nobile"]); ("ballistic_hop_moores", VBool false)]]%string ->
  installed disk0 (built_from day kw).
Proof.
  intros [<-|[<-|[<-|[<-|[]]]]];
    (repeat (apply Forall_cons; [eexists; split; [vm_compute; reflexivity|reflexivity]|]); apply Forall_nil).
Qed.
Lemma unset kw : forallb (fun k => negb (existsb (String.eqb k) (physics ++ polar))) (keys kw) = true -> only_switches kw.
Proof.
  intros H k I. apply lookup_none. intros J. rewrite forallb_forall in H. specialize (H k J). apply negb_true_iff in H.
  apply in_app_iff, existsb_eqb in I. congruence.
Qed.
(** A run in the other mode, with a seed and the older chronology. *)
Example C81_case : let kw := [("mode", VStr "cannon"); ("seed", VInt 3); ("neukum_pf_new", VBool false)]%string in
  exists c out k', Cfg day kw = Ok c /\ run disk0 (fun x => x) lin_ppf isort_age c (fun _ => 1 / 2) 0%nat = Ok (out, k') /\
    map fst (o_strat out) = with_hop.
Proof.
  cbv zeta. exists (built_from day [("mode", VStr "cannon"); ("seed", VInt 3); ("neukum_pf_new", VBool false)]%string).
  assert (H : Cfg day [("mode", VStr "cannon"); ("seed", VInt 3); ("neukum_pf_new", VBool false)]%string =
    Ok (built_from day [("mode", VStr "cannon"); ("seed", VInt 3); ("neukum_pf_new", VBool false)]%string)) by (vm_compute; reflexivity).
  destruct (C81_default_traps _ _ _ disk0 (fun x => x) lin_ppf isort_age (fun _ => 1 / 2) 0%nat H) as (out & k' & A & B).
  - apply unset. reflexivity.
  - reflexivity.
  - reflexivity.
  - apply disk0_installed. cbn [In]. tauto.
  - split; auto.
  - reflexivity.
  - apply lin_support.
  - apply isort_age_ok.
  - intros i. lra.
  - exists out, k'. auto.
Qed.
(** Two cold traps without hop efficiencies of their own. *)
Example C81_traps_case : let kw := [("coldtrap_names", VTuple [VStr "Scott"; VStr "Nobile"]); ("ballistic_hop_moores", VBool false)]%string in
  exists c out k', Cfg day kw = Ok c /\ run disk0 (fun x => x) lin_ppf isort_age c (fun _ => 1 / 2) 0%nat = Ok (out, k') /\
    map fst (o_strat out) = ["Scott"; "Nobile"]%string.
Proof.
  cbv zeta. exists (built_from day [("coldtrap_names", VTuple [VStr "Scott"; VStr "Nobile"]); ("ballistic_hop_moores", VBool false)]%string).
  assert (H : Cfg day [("coldtrap_names", VTuple [VStr "Scott"; VStr "Nobile"]); ("ballistic_hop_moores", VBool false)]%string =
    Ok (built_from day [("coldtrap_names", VTuple [VStr "Scott"; VStr "Nobile"]); ("ballistic_hop_moores", VBool false)]%string)) by (vm_compute; reflexivity).
  destruct (C81_finishes _ _ _ disk0 (fun x => x) lin_ppf isort_age ["Scott"; "Nobile"]%string (fun _ => 1 / 2) 0%nat H) as (out & k' & A & _ & _ & B & _).
  - apply unset. reflexivity.
  - apply disk0_installed. cbn [In]. tauto.
  - split; [vm_compute; reflexivity|]. split; [apply nodupb_ok; reflexivity|]. split; [apply inclb_ok; reflexivity|].
    intros X. vm_compute in X. discriminate.
  - split; auto.
  - reflexivity.
  - apply lin_support.
  - apply isort_age_ok.
  - intros i. lra.
  - exists out, k'. auto.
Qed.
Example C81_north_case : exists c, Cfg day [("pole", VStr "n")]%string = Ok c /\ installed disk0 c /\
  only_switches [("pole", VStr "n")]%string.
Proof.
  exists (built_from day [("pole", VStr "n")]%string). split; [vm_compute; reflexivity|].
  split; [apply disk0_installed; cbn [In]; tauto|apply unset; reflexivity].
Qed.
Example C81_nk_case : exists c, Cfg day [("volc_mode", VStr "NK")]%string = Ok c /\ getv c "volc_mode" = VStr "NK".
Proof. eexists. split; [vm_compute; reflexivity|reflexivity]. Qed.

Print Assumptions C81_finishes.
Print Assumptions C81_default_traps.
Print Assumptions C81_traps_listed.
Print Assumptions C81_north_refuted.
Print Assumptions C81_nk_refuted.
