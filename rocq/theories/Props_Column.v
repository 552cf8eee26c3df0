(** Properties C01-C09: stratigraphy column updates. *)
From Coq Require Import List ZArith Reals Lia Lra Bool String QArith.
From Verif Require Import Base Arith Model_Column Spec_Column Proofs_Base Proofs_Column
  Proofs_ColumnR Proofs_ColumnA Proofs_ColumnP Proofs_FP.
Import ListNotations.
Open Scope R_scope.

(** ** C01 *)
Theorem C01_garden_only_removes : forall rw rs ice ej t depth eff ice',
  fp_ok rw rs ->
  Forall (fun x => 0 <= x /\ rs x = x) ice -> rw depth = depth -> 0 <= eff <= 1 ->
  garden_ice_column (roundedR rw rs) ice ej t depth eff = Ok ice' ->
  Forall2 (fun n o => 0 <= n <= o) ice' ice /\
  Forall (fun x => rs x = x) ice' /\
  (forall k, (Z.of_nat k > t)%Z -> nth_error ice' k = nth_error ice k).
Proof.
  intros rw rs ice ej t depth eff ice' FP HF Hd He H.
  destruct (garden_safe rw rs FP ice ej t depth eff ice' HF Hd He H) as [[S1 S2] U].
  split; [exact S2|]. split; [|exact U].
  eapply Forall_impl; [|exact S1]. intros a Ha; exact (proj2 Ha).
Qed.

Theorem C01_garden_only_removes_exact : forall ice ej t depth eff ice',
  Forall (fun x => 0 <= x) ice -> 0 <= eff <= 1 ->
  garden_ice_column exactR ice ej t depth eff = Ok ice' ->
  Forall2 (fun n o => 0 <= n <= o) ice' ice /\
  (forall k, (Z.of_nat k > t)%Z -> nth_error ice' k = nth_error ice k).
Proof.
  intros ice ej t depth eff ice' HF He H.
  destruct (garden_safe _ _ exact_ok ice ej t depth eff ice' (stored_exact _ HF) eq_refl He H)
    as [[_ S2] U]. exact (conj S2 U).
Qed.

(** The float32 column / float64 working precision used by the program is covered. *)
Theorem C01_float_formats :
  fp_ok rnd64 rnd32 /\ fp_ok rnd64 rnd64 /\ fp_ok rnd32 rnd32.
Proof. exact (conj fp_ok_64_32 (conj fp_ok_64_64 fp_ok_32_32)). Qed.

(** Non-trivial case: a call that removes part of two layers. *)
Example C01_case :
  garden_ice_column exactQ [4; 6; 9]%Q [0; 1; 2]%Q 1 5%Q (1 # 2) = Ok [3; 3; 9]%Q.
Proof. vm_compute. reflexivity. Qed.

(** ** C02 *)
Theorem C02_ejecta_shields : forall ice ej t depth eff ice' k,
  List.length ice = List.length ej -> (-1 <= t < Z.of_nat (List.length ice))%Z ->
  Forall (fun x => 0 <= x) ice -> Forall (fun x => 0 <= x) ej -> 0 <= eff <= 1 ->
  garden_ice_column exactR ice ej t depth eff = Ok ice' ->
  (Z.of_nat k <= t)%Z ->
  depth <= Rsum (slice k (Z.to_nat (t + 1)) ej) ->
  nth_error ice' k = nth_error ice k.
Proof. exact garden_shield_sum. Qed.

Theorem C02_ejecta_shields_rounded : forall rw rs ice ej t depth eff ice' k m e,
  fp_ok rw rs ->
  List.length ice = List.length ej -> (-1 <= t < Z.of_nat (List.length ice))%Z ->
  Forall (fun x => 0 <= x /\ rs x = x) ice -> Forall (fun x => 0 <= x) ej ->
  rw depth = depth -> 0 <= eff <= 1 ->
  garden_ice_column (roundedR rw rs) ice ej t depth eff = Ok ice' ->
  (k <= m)%nat -> (Z.of_nat m <= t)%Z -> nth_error ej m = Some e -> depth <= e ->
  nth_error ice' k = nth_error ice k.
Proof. exact garden_shield_single_array. Qed.

Example C02_case :
  garden_ice_column exactQ [4; 6; 9]%Q [1; 3; 2]%Q 2 (9 # 2) 1%Q = Ok [4; 6; 13 # 2]%Q.
Proof. vm_compute. reflexivity. Qed.

(** ** C03 *)
(** One pass can remove more ice than its depth: the depth of the ice that is left, not of the
    ice removed, is counted, so a pass goes deeper than its depth. *)
Theorem C03_total_bound_refuted : exists ice ej t depth ice',
  List.length ice = List.length ej /\ (0 <= t < Z.of_nat (List.length ice))%Z /\
  Forall (fun x => 0 <= x) ice /\ Forall (fun x => 0 <= x) ej /\ 0 < depth /\
  garden_ice_column exactR ice ej t depth 1 = Ok ice' /\
  Rsum ice - Rsum ice' > depth.
Proof. exact garden_total_refuted. Qed.

(** No constant multiple of the depth bounds the removal either. *)
Theorem C03_no_multiple_bounds_removal : forall c : R, exists ice ej t depth ice',
  List.length ice = List.length ej /\ (0 <= t < Z.of_nat (List.length ice))%Z /\
  Forall (fun x => 0 <= x) ice /\ Forall (fun x => 0 <= x) ej /\ 0 < depth /\
  garden_ice_column exactR ice ej t depth 1 = Ok ice' /\
  Rsum ice - Rsum ice' > c * depth.
Proof. exact garden_no_multiple. Qed.

Theorem C03_layer_bound : forall ice ej t depth eff ice' k x x',
  List.length ice = List.length ej -> (-1 <= t < Z.of_nat (List.length ice))%Z ->
  Forall (fun x => 0 <= x) ice -> Forall (fun x => 0 <= x) ej -> 0 <= eff <= 1 ->
  garden_ice_column exactR ice ej t depth eff = Ok ice' ->
  (Z.of_nat k <= t)%Z -> nth_error ice k = Some x -> nth_error ice' k = Some x' ->
  x - x' <= Rmax 0 (depth - Rsum (slice k (Z.to_nat (t + 1)) ej)) /\
  x - x' <= eff * x /\ 0 <= x' <= x.
Proof. exact garden_array_layer. Qed.

Theorem C03_total_bound_half_eff : forall ice ej t depth eff ice',
  List.length ice = List.length ej -> (-1 <= t < Z.of_nat (List.length ice))%Z ->
  Forall (fun x => 0 <= x) ice -> Forall (fun x => 0 <= x) ej -> 0 <= eff <= 1 / 2 ->
  0 <= depth ->
  garden_ice_column exactR ice ej t depth eff = Ok ice' ->
  Rsum ice - Rsum ice' <= depth.
Proof. exact garden_half_total. Qed.

Theorem C03_thick_top_layer_exact : forall ice ej t depth ice' x e,
  List.length ice = List.length ej -> 
  Forall (fun x => 0 <= x) ice -> Forall (fun x => 0 <= x) ej ->
  nth_error ice t = Some x -> nth_error ej t = Some e ->
  e < depth -> 2 * (depth - e) <= x ->
  garden_ice_column exactR ice ej (Z.of_nat t) depth 1 = Ok ice' ->
  ice' = upd ice t (x - (depth - e)).
Proof. exact garden_top_exact. Qed.

(** The repository's own expectations (test_garden_ice_column) for depth 15 and
    10 are not what the loop computes. *)
Example C03_case_15 :
  garden_ice_column exactQ [10; 10]%Q [5; 0]%Q 1 15%Q 1%Q = Ok [0; 0]%Q.
Proof. vm_compute. reflexivity. Qed.
Example C03_case_10 :
  garden_ice_column exactQ [10; 11]%Q [0; 0]%Q 1 10%Q 1%Q = Ok [1; 1]%Q.
Proof. vm_compute. reflexivity. Qed.

(** ** C04 *)
Theorem C04_garden_layerwise : forall ice ej t depth eff,
  List.length ice = List.length ej -> (-1 <= t < Z.of_nat (List.length ice))%Z ->
  Forall (fun x => 0 <= x) ice -> Forall (fun x => 0 <= x) ej -> 0 <= eff <= 1 ->
  garden_ice_column exactR ice ej t depth eff
  = Ok (ice_of (garden_R 0 depth eff (stack_of (Z.to_nat (t + 1)) ice ej))
        ++ skipn (Z.to_nat (t + 1)) ice).
Proof. exact garden_array_R. Qed.

Theorem C04_garden_index_error : forall ice ej t depth eff,
  List.length ice = List.length ej -> (-1 <= t)%Z ->
  Forall (fun x => 0 <= x) ice -> Forall (fun x => 0 <= x) ej -> 0 <= eff <= 1 ->
  garden_ice_column exactR ice ej t depth eff = Err IndexError <->
  0 < depth /\ (Z.of_nat (List.length ice) <= t)%Z.
Proof. exact garden_index_error_iff. Qed.

Example C04_case :
  garden_ice_column exactQ [4; 6]%Q [0; 1]%Q 2 4%Q 1%Q = Err IndexError.
Proof. vm_compute. reflexivity. Qed.

(** ** C05 *)
Theorem C05_erode_total : forall ice ej t depth shield ice' e,
  List.length ice = List.length ej ->
  Forall (fun x => 0 <= x) ice -> 0 <= depth ->
  nth_error ej t = Some e ->
  erode_ice_cannon exactR ice ej (Z.of_nat t) depth shield = Ok ice' ->
  Rsum ice - Rsum ice' =
  (if Rltb shield e then 0 else Rmin depth (Rsum (firstn (S t) ice))).
Proof. exact erode_array_total. Qed.

Theorem C05_erode_topdown : forall ice ej t depth shield ice' k x x',
  List.length ice = List.length ej -> (-1 <= t < Z.of_nat (List.length ice))%Z ->
  Forall (fun x => 0 <= x) ice ->
  erode_ice_cannon exactR ice ej t depth shield = Ok ice' ->
  nth_error ice k = Some x -> nth_error ice' k = Some x' ->
  0 <= x' <= x /\
  ((Z.of_nat k > t)%Z -> x' = x) /\
  (x' <> x -> forall j y, (k < j)%nat -> (Z.of_nat j <= t)%Z ->
     nth_error ice' j = Some y -> y = 0).
Proof. exact erode_array_topdown. Qed.

Theorem C05_erode_never_fails : forall ice ej t depth shield,
  List.length ice = List.length ej -> (-1 <= t < Z.of_nat (List.length ice))%Z ->
  exists ice', erode_ice_cannon exactR ice ej t depth shield = Ok ice' /\
               List.length ice' = List.length ice.
Proof. exact erode_array_ok. Qed.

Theorem C05_erode_safe_rounded : forall rw rs ice ej t depth shield ice',
  fp_ok rw rs ->
  Forall (fun x => 0 <= x /\ rs x = x) ice ->
  erode_ice_cannon (roundedR rw rs) ice ej t depth shield = Ok ice' ->
  Forall2 (fun n o => 0 <= n <= o) ice' ice /\
  (forall k, (Z.of_nat k > t)%Z -> nth_error ice' k = nth_error ice k).
Proof.
  intros rw rs ice ej t depth shield ice' FP HF H.
  destruct (erode_safe rw rs FP ice ej t depth shield ice' HF H) as [[_ S2] U].
  exact (conj S2 U).
Qed.

Example C05_case :
  erode_ice_cannon exactQ [4; 1; 2; 7]%Q [1; 0; 0; 9]%Q 2 5%Q (2 # 5) = Ok [2; 0; 0; 7]%Q.
Proof. vm_compute. reflexivity. Qed.

(** ** C06 *)
(** Ice below a buried layer of ejecta above the shield thickness is eroded: only the
    youngest layer shields. *)
Theorem C06_buried_shield_refuted : exists ice ej t depth shield ice' m e,
  List.length ice = List.length ej /\ Forall (fun x => 0 <= x) ice /\
  Forall (fun x => 0 <= x) ej /\ 0 < depth /\
  erode_ice_cannon exactR ice ej (Z.of_nat t) depth shield = Ok ice' /\
  (m < t)%nat /\ nth_error ej m = Some e /\ shield < e /\
  (exists k x x', (k <= m)%nat /\ nth_error ice k = Some x /\ nth_error ice' k = Some x' /\ x' < x).
Proof. exact erode_shield_refuted. Qed.

Theorem C06_shield_at_surface : forall (rw rs : R -> R) ice ej t depth shield e,
  List.length ice = List.length ej -> nth_error ej t = Some e -> shield < e ->
  erode_ice_cannon (roundedR rw rs) ice ej (Z.of_nat t) depth shield = Ok ice.
Proof. exact erode_shield_surface. Qed.

Example C06_case :
  erode_ice_cannon exactQ [4; 1]%Q [0; 1]%Q 1 5%Q (2 # 5) = Ok [4; 1]%Q.
Proof. vm_compute. reflexivity. Qed.

(** ** C07 *)
Theorem C07_run_never_creates_ice :
  forall rw rs costello shield names d overturn bd bf d' c s,
  fp_ok rw rs -> NoDup names -> In c names ->
  lookup d c = Ok s ->
  Forall (fun x => 0 <= x /\ rs x = x) (s_ice s) ->
  Forall (fun o => rw o = o) overturn ->
  Forall (Forall (fun x => rw x = x)) bd -> Forall (Forall (fun x => 0 <= x <= 1)) bf ->
  update_strat_cols (roundedR rw rs) costello shield names d overturn bd bf = Ok d' ->
  exists s', lookup d' c = Ok s' /\
    Forall2 (fun n o => 0 <= n <= o) (s_ice s') (s_ice s) /\
    s_ej s' = s_ej s /\ s_src s' = s_src s.
Proof. exact update_strat_cols_safe. Qed.

Theorem C07_run_keeps_coldtraps : forall (rw rs : R -> R) costello shield names d overturn bd bf d',
  update_strat_cols (roundedR rw rs) costello shield names d overturn bd bf = Ok d' ->
  map fst d' = map fst d.
Proof. exact update_strat_cols_keys. Qed.

Definition q_dict : @dict Q :=
  [("A"%string, mk_strat [5; 5; 5]%Q [0; 1; 0]%Q ["";"x";""]%string);
   ("B"%string, mk_strat [1; 2; 3]%Q [0; 0; 0]%Q ["";"";""]%string)].
Example C07_case :
  update_strat_cols exactQ true (2 # 5) ["A"; "B"]%string q_dict [1; 1; 1]%Q
    [[0; 0]; [0; 0]; [4; 4]]%Q [[0; 0]; [0; 0]; [1 # 2; 1 # 2]]%Q
  = Ok [("A"%string, mk_strat [7 # 2; 5 # 2; 4]%Q [0; 1; 0]%Q ["";"x";""]%string);
        ("B"%string, mk_strat [0; 1 # 2; 2]%Q [0; 0; 0]%Q ["";"";""]%string)].
Proof. vm_compute. reflexivity. Qed.

(** ** C08 *)
Theorem C08_coldtraps_independent :
  forall T (A : arith T) costello shield names names' j j' c d d' e e' ov bd bf bd' bf',
  NoDup names -> NoDup names' ->
  nth_error names j = Some c -> nth_error names' j' = Some c ->
  lookup d c = lookup d' c ->
  (forall k, (k < List.length ov)%nat ->
     get2 bd k j = get2 bd' k j' /\ get2 bf k j = get2 bf' k j') ->
  update_strat_cols A costello shield names d ov bd bf = Ok e ->
  update_strat_cols A costello shield names' d' ov bd' bf' = Ok e' ->
  lookup e c = lookup e' c.
Proof. exact @update_independent. Qed.

(** Adding a cold trap does not change the others (same run as C07_case). *)
Example C08_case :
  update_strat_cols exactQ true (2 # 5) ["B"]%string
    [("B"%string, mk_strat [1; 2; 3]%Q [0; 0; 0]%Q ["";"";""]%string)] [1; 1; 1]%Q
    [[0]; [0]; [4]]%Q [[0]; [0]; [1 # 2]]%Q
  = Ok [("B"%string, mk_strat [0; 1 # 2; 2]%Q [0; 0; 0]%Q ["";"";""]%string)].
Proof. vm_compute. reflexivity. Qed.

(** ** C09 *)
Theorem C09_batch_equals_stepwise :
  forall T (A : arith T) costello shield names j c d d' bd bf (evs : list event) src,
  NoDup names -> nth_error names j = Some c ->
  lookup d c = Ok (mk_strat (map ev_ice evs) (map ev_ej evs) src) ->
  (forall t e, nth_error evs t = Some e ->
     get2 bd t j = Ok (ev_bsed_depth e) /\ get2 bf t j = Ok (ev_bsed_frac e)) ->
  update_strat_cols A costello shield names d (map ev_overturn evs) bd bf = Ok d' ->
  lookup d' c = Ok (mk_strat (ice_of (simulate A costello shield evs)) (map ev_ej evs) src).
Proof. exact @update_is_simulation. Qed.

Theorem C09_run_never_fails :
  forall T (A : arith T) costello shield names d ov bd bf,
  (forall c, In c names -> exists s, lookup d c = Ok s /\
     List.length (s_ice s) = List.length ov /\ List.length (s_ej s) = List.length ov) ->
  List.length bd = List.length ov -> List.length bf = List.length ov ->
  Forall (fun r => List.length r = List.length names) bd ->
  Forall (fun r => List.length r = List.length names) bf ->
  exists d', update_strat_cols A costello shield names d ov bd bf = Ok d'.
Proof. exact @update_total. Qed.

Example C09_case :
  ice_of (simulate exactQ true (2 # 5)
    [mk_event 5 0 0 0 1; mk_event 5 1 0 0 1; mk_event 5 0 4 (1 # 2) 1]%Q)
  = [7 # 2; 5 # 2; 4]%Q.
Proof. vm_compute. reflexivity. Qed.
Example C09_case_cannon :
  ice_of (simulate exactQ false (2 # 5)
    [mk_event 5 0 0 0 1; mk_event 5 1 0 0 1; mk_event 1 0 0 0 2]%Q)
  = [4; 4; 0]%Q.
Proof. vm_compute. reflexivity. Qed.

Print Assumptions C01_garden_only_removes.
Print Assumptions C01_garden_only_removes_exact.
Print Assumptions C01_float_formats.
Print Assumptions C02_ejecta_shields.
Print Assumptions C02_ejecta_shields_rounded.
Print Assumptions C03_total_bound_refuted.
Print Assumptions C03_no_multiple_bounds_removal.
Print Assumptions C03_layer_bound.
Print Assumptions C03_total_bound_half_eff.
Print Assumptions C03_thick_top_layer_exact.
Print Assumptions C04_garden_layerwise.
Print Assumptions C04_garden_index_error.
Print Assumptions C05_erode_total.
Print Assumptions C05_erode_topdown.
Print Assumptions C05_erode_never_fails.
Print Assumptions C05_erode_safe_rounded.
Print Assumptions C06_buried_shield_refuted.
Print Assumptions C06_shield_at_surface.
Print Assumptions C07_run_never_creates_ice.
Print Assumptions C07_run_keeps_coldtraps.
Print Assumptions C08_coldtraps_independent.
Print Assumptions C09_batch_equals_stepwise.
Print Assumptions C09_run_never_fails.
