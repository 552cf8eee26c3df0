(** Properties C44-C47 and C65: stratigraphy tables and source labels. *)
From Coq Require Import String Ascii List ZArith Reals Bool Lra Lia Sorted.
From Verif Require Import Base Model_Time Model_Geo Model_Crater Model_Strat Spec_Time Spec_Strat
  Proofs_Base Proofs_Time Proofs_Crater Proofs_Strat Proofs_Labels.
Import ListNotations.
Open Scope R_scope.

(** ** C44 *)
Theorem C44_totals : forall rnd thick_min tol after_age age steps out,
  make_strat_col rnd thick_min tol after_age age steps = Ok out ->
  let kept := filter (fun s => in_span rnd tol after_age age s && visible thick_min s) steps in
  Rsum (map l_ice out) = Rsum (map (fun '(_, i, _, _) => rnd i) kept) /\
  Rsum (map l_ej out) = Rsum (map (fun '(_, _, e, _) => rnd e) kept).
Proof. exact strat_totals. Qed.

(** The rows cut into groups, one layer per group; neighbouring layers differ in label,
    so the groups are the maximal runs of rows with one label. *)
Theorem C44_layers : forall rnd thick_min tol after_age age steps out,
  make_strat_col rnd thick_min tol after_age age steps = Ok out ->
  let kept := filter (in_span rnd tol after_age age) steps in
  let rows := formation rnd after_age kept ++
              map (labelled rnd thick_min) (filter (visible thick_min) kept) in
  exists groups, concat groups = rows /\ Forall2 is_layer groups out /\
    Sorted (fun a b => l_label a <> l_label b) out.
Proof. exact strat_groups. Qed.

(** On a time axis that runs from old to young, a layer has the time of its youngest row. *)
Theorem C44_youngest : forall rnd thick_min tol after_age age steps out,
  make_strat_col rnd thick_min tol after_age age steps = Ok out ->
  StronglySorted (fun a b : R * R * R * string => rnd (fst (fst (fst b))) <= rnd (fst (fst (fst a)))) steps ->
  let kept := filter (in_span rnd tol after_age age) steps in
  let rows := formation rnd after_age kept ++
              map (labelled rnd thick_min) (filter (visible thick_min) kept) in
  exists groups, concat groups = rows /\
    Forall2 (fun g l => is_layer g l /\ In (l_time l) (map snd g) /\
                        Forall (fun r => l_time l <= snd r) g) groups out.
Proof. exact strat_youngest. Qed.

Theorem C44_formation_row : forall rnd thick_min tol age steps out,
  make_strat_col rnd thick_min tol true age steps = Ok out ->
  (forall t i e s, In (t, i, e, s) steps -> s <> "Formation age"%string) ->
  exists before t i e s after l rest,
    steps = before ++ (t, i, e, s) :: after /\
    Forall (fun s => in_span rnd tol true age s = false) before /\
    in_span rnd tol true age (t, i, e, s) = true /\
    out = l :: rest /\
    l_label l = "Formation age"%string /\ l_ice l = 0 /\ l_ej l = 0 /\ l_time l = rnd t.
Proof. exact strat_formation. Qed.

(** It fails only with an IndexError, when no timestep is young enough. *)
Theorem C44_errors : forall rnd thick_min tol after_age age steps,
  match make_strat_col rnd thick_min tol after_age age steps with
  | Ok _ => after_age = false \/ exists s, In s steps /\ in_span rnd tol true age s = true
  | Err e => e = IndexError /\ after_age = true /\ forall s, In s steps -> in_span rnd tol true age s = false
  end.
Proof. exact strat_ok_iff. Qed.

Ltac decide_Rltb :=
  repeat match goal with
  | |- context [Rltb ?a ?b] =>
    first [ rewrite (proj2 (Rltb_true a b)) by (try rewrite Rabs_right; lra)
          | rewrite (proj2 (Rltb_false a b)) by (try rewrite Rabs_right; lra) ]
  end.

Definition case_steps : list (R * R * R * string) :=
  [(4, 1, 0, ""); (3, 1, 0, ""); (2, 1 / 2, 0, ""); (1, 0, 5, "A"); (1 / 2, 1, 2, "")]%string.
Example C44_case : exists out,
  make_strat_col (fun x => x) (1 / 1000) (1 / 1000000) true 3 case_steps = Ok out /\
  map l_label out = ["Formation age"; "Ice"; "A"; "Minor source(s)"]%string /\
  map l_time out = [3; 2; 1; 1 / 2] /\
  StronglySorted (fun a b : R * R * R * string => fst (fst (fst b)) <= fst (fst (fst a))) case_steps /\
  (forall t i e s, In (t, i, e, s) case_steps -> s <> "Formation age"%string).
Proof.
  unfold make_strat_col, strat_rows, case_steps, rtol. cbn [map filter r_time].
  decide_Rltb. unfold row_label. decide_Rltb. cbn.
  eexists. split; [reflexivity|]. repeat split.
  - repeat constructor; cbn; lra.
  - intros t i e s [H|[H|[H|[H|[H|[]]]]]]; injection H as <- <- <- <-; discriminate.
Qed.

(** ** C45 *)
Theorem C45_depth : forall rnd thick_min tol after_age age steps out i l,
  make_strat_col rnd thick_min tol after_age age steps = Ok out ->
  nth_error out i = Some l ->
  l_depth l = Rsum (map (fun l => l_ice l + l_ej l) (skipn i out)).
Proof. exact strat_depth. Qed.

Theorem C45_depth_steps : forall rnd thick_min tol after_age age steps out,
  make_strat_col rnd thick_min tol after_age age steps = Ok out ->
  (forall i a b, nth_error out i = Some a -> nth_error out (S i) = Some b ->
     l_depth a - l_depth b = l_ice a + l_ej a) /\
  (forall a rest, out = a :: rest -> l_depth a = Rsum (map l_ice out) + Rsum (map l_ej out)) /\
  (forall init a, out = init ++ [a] -> l_depth a = l_ice a + l_ej a).
Proof. exact strat_depth_steps. Qed.

Theorem C45_layers_nonneg : forall rnd thick_min tol after_age age steps out,
  make_strat_col rnd thick_min tol after_age age steps = Ok out ->
  (forall x, 0 <= x -> 0 <= rnd x) ->
  Forall (fun '(_, i, e, _) => 0 <= i /\ 0 <= e) steps ->
  Forall (fun l => 0 <= l_ice l /\ 0 <= l_ej l) out.
Proof. exact strat_nonneg. Qed.

Theorem C45_ice_percentage : forall rnd thick_min tol after_age age steps out,
  make_strat_col rnd thick_min tol after_age age steps = Ok out ->
  (forall x, 0 <= x -> 0 <= rnd x) ->
  Forall (fun '(_, i, e, _) => 0 <= i /\ 0 <= e) steps ->
  Forall (fun l => (l_icepct l = None <-> l_ice l = 0 /\ l_ej l = 0) /\
     forall p, l_icepct l = Some p ->
       0 <= p <= 100 /\ Rabs (p - 100 * (l_ice l / (l_ice l + l_ej l))) <= 1 / 20000) out.
Proof. exact strat_icepct. Qed.

Example C45_case : Forall (fun '(_, i, e, _) => 0 <= i /\ 0 <= e) case_steps.
Proof. repeat constructor; lra. Qed.

(** ** C46 *)
Theorem C46_sources : forall c thick_min tol ncol time df dists lo hi,
  is_min time lo -> is_max time hi ->
  length dists = length df -> Forall (fun r => length r = ncol) dists ->
  exists (at_ : R -> nat) ej src,
    (forall age, first_nearest time age (at_ age)) /\
    get_ejecta_thickness_time c thick_min tol ncol time df dists = Ok (ej, src) /\
    length ej = length time /\ length src = length time /\
    forall k j, (k < length time)%nat -> (j < ncol)%nat ->
      exists ej_k src_k,
        nth_error ej k = Some ej_k /\ nth_error src k = Some src_k /\
        length ej_k = ncol /\ length src_k = ncol /\
        let here := filter (fun sd => Rleb (lo - Rabs lo * tol) (s_age (fst sd))
                                      && Rleb (s_age (fst sd)) (hi + Rabs hi * tol)
                                      && Nat.eqb (at_ (s_age (fst sd))) k) (combine df dists) in
        let thick sd := get_ejecta_thickness c (nth j (snd sd) None) (s_rad (fst sd)) in
        nth_error ej_k j = Some (Rsum (map thick here)) /\
        (Forall (fun s => s_name s <> ""%string /\ no_comma (s_name s)) df ->
         nth_error src_k j = Some (String.concat "," (map (fun sd => s_name (fst sd))
                                             (filter (fun sd => Rltb thick_min (thick sd)) here)))).
Proof. exact ejecta_sources. Qed.

Theorem C46_minor_sources : forall thick_min ice ej names,
  (forall n, In n names -> n <> ""%string /\ no_comma n /\ n <> "Minor source(s)"%string) ->
  row_label thick_min ice ej (String.concat "," names) = Some "Minor source(s)"%string <->
  thick_min < ej /\ names = [].
Proof. exact minor_label. Qed.

Theorem C46_row_label : forall thick_min t ice ej src,
  row_label thick_min ice ej src =
  if visible thick_min (t, ice, ej, src) then Some (step_label thick_min (t, ice, ej, src)) else None.
Proof. exact row_label_spec. Qed.

Definition site_a (name : string) (age : R) : site := mk_site name 0 (-85) 0 (-85) 1000 age false.
Example C46_case : is_min [2; 1] 1 /\ is_max [2; 1] 2 /\
  length [[Some 2000]; [Some 3000]] = length [site_a "A" 2; site_a "B" 2] /\
  Forall (fun r : list (option R) => length r = 1%nat) [[Some 2000]; [Some 3000]] /\
  Forall (fun s => s_name s <> ""%string /\ no_comma (s_name s)) [site_a "A" 2; site_a "B" 2].
Proof.
  repeat split; try (cbn; tauto); try (intros t [<-|[<-|[]]]; lra); repeat constructor; discriminate.
Qed.

(** ** C47 *)
Theorem C47_labels : forall iter rows, set_order iter ->
  Forall2 (fun row out =>
    NoDup (split out) /\
    forall x, x <> ""%string ->
      (In x (split out) <-> exists lbl, In lbl row /\ In x (split lbl)))
  rows (get_all_labels iter rows).
Proof. exact all_labels. Qed.

(** What [split] means: it undoes joining with commas. *)
Theorem C47_split_join : forall parts, parts <> [] -> Forall no_comma parts ->
  split (String.concat "," parts) = parts.
Proof. exact split_join. Qed.

(** The label of one cell depends on the iteration order of a Python set. *)
Theorem C47_order_refuted : exists iter iter' rows, set_order iter /\ set_order iter' /\
  get_all_labels iter rows <> get_all_labels iter' rows.
Proof.
  exists (nodup string_dec), (fun l => rev (nodup string_dec l)), [["A"; "B"]]%string.
  split; [exact nodup_order|]. split; [exact rev_order|]. vm_compute. discriminate.
Qed.

(** A cold trap without a source leaves an empty entry between two commas. *)
Theorem C47_double_comma_refuted : exists iter row, set_order iter /\
  get_all_labels iter [row] = ["A,,B"%string] /\ In "A"%string row /\ In "B"%string row.
Proof.
  exists (nodup string_dec), ["A"; ""; "B"]%string.
  split; [exact nodup_order|]. split; [reflexivity|cbn; tauto].
Qed.

Example C47_case : get_all_labels (nodup string_dec) [["A,B"; "B"; ""]; [""; ""]]%string
  = ["A,B"; ""]%string.
Proof. vm_compute. reflexivity. Qed.

(** ** C65 *)
Theorem C65_threshold_ignored : forall c thick_min thick_min' tol ncol time df dists,
  match get_ejecta_thickness_time c thick_min tol ncol time df dists,
        get_ejecta_thickness_time c thick_min' tol ncol time df dists with
  | Ok (ej, _), Ok (ej', _) => ej = ej'
  | Err e, Err e' => e = e'
  | _, _ => False
  end.
Proof. exact threshold_ignored. Qed.

(** The docstring's claim: thickness below thickness_min is set to 0. *)
Theorem C65_thin_ejecta_removed_refuted :
  exists time df dists ej src e,
    get_ejecta_thickness_time CFG0 (1 / 1000) (1 / 1000000) 1 time df dists = Ok (ej, src) /\
    ej = [[e]] /\ 0 < e < 1 / 1000.
Proof. exact thin_ejecta_kept. Qed.

Print Assumptions C44_totals.
Print Assumptions C44_layers.
Print Assumptions C44_youngest.
Print Assumptions C44_formation_row.
Print Assumptions C44_errors.
Print Assumptions C45_depth.
Print Assumptions C45_depth_steps.
Print Assumptions C45_layers_nonneg.
Print Assumptions C45_ice_percentage.
Print Assumptions C46_sources.
Print Assumptions C46_minor_sources.
Print Assumptions C46_row_label.
Print Assumptions C47_labels.
Print Assumptions C47_split_join.
Print Assumptions C47_order_refuted.
Print Assumptions C47_double_comma_refuted.
Print Assumptions C65_threshold_ignored.
Print Assumptions C65_thin_ejecta_removed_refuted.
