(** What the figures of ejecta against distance and radius hold: property C92. *)
From Coq Require Import String List ZArith Reals Lia Lra Psatz Bool.
From Verif Require Import Base Model_Time Model_Geo Model_Crater Model_Curves Proofs_Base Proofs_Time Proofs_Crater Proofs_Scaling
  Proofs_Curves Props_Crater.
Import ListNotations.
Open Scope R_scope.

(** Point [i] of the curve of [name] on a panel is at ([x], [y]). *)
Definition drawn_at (l : list curve) (name : string) (i : nat) (x : R) (y : option R) : Prop :=
  exists v, In v l /\ v_name v = name /\ nth_error (v_points v) i = Some (x, y).

(** The two craters of the figure that are on Earth. *)
Definition earthly (name : string) : Prop := name = "Ries Basin"%string \/ name = "Meteor Crater"%string.

Lemma on_earth_iff name : on_earth name = true <-> earthly name.
Proof.
  unfold on_earth, earthly. rewrite orb_true_iff, !String.eqb_eq. tauto.
Qed.

Lemma points_at c a b petro rho name diam i : (i < 100)%nat ->
  let cc := if on_earth name then earth c else c in
  let bulk := if on_earth name then 2700 else rho in
  let x := 1 + INR i * (4 / 99) in
  let t := get_ejecta_thickness cc (Some (diam / 2 * x)) (diam / 2) in
  let vel := ballistic_velocity cc (diam / 2 * x) in
  nth_error (crater_points c a b petro rho name diam) i =
  Some (mk_point x vel t (option_map (fun v => kinetic_energy (t * bulk) v / 1000000) vel) (t * mixing_ratio a b petro diam)).
Proof.
  intros Hi cc bulk x t vel. unfold crater_points. rewrite nth_error_map.
  assert (E : nth_error (linspace 1 5 100) i = Some x).
  { rewrite linspace_nth by lia. f_equal. unfold x. replace (INR 100 - 1) with 99 by (rewrite INR_IZR_INZ; cbn [Z.of_nat Pos.of_succ_nat Pos.succ]; lra). lra. }
  rewrite E. reflexivity.
Qed.

Lemma points_len c a b petro rho name diam : length (crater_points c a b petro rho name diam) = 100%nat.
Proof. unfold crater_points. now rewrite map_length, linspace_length. Qed.

Lemma panel_in c a b petro rho f l name diam i p : In (name, diam) l ->
  nth_error (crater_points c a b petro rho name diam) i = Some p ->
  drawn_at (panel c a b petro rho f l) name i (p_x p) (f p).
Proof.
  intros H N. eexists. split; [apply (in_map (fun '(name, diam) => _)); exact H|].
  cbn [v_name v_points]. split; [reflexivity|]. rewrite nth_error_map, N. reflexivity.
Qed.

Definition diam_of (name : string) (diam : R) : Prop := In (name, diam) shown_craters.

Lemma diam_unique name d d' : diam_of name d -> diam_of name d' -> d = d'.
Proof.
  unfold diam_of, shown_craters. intros H H'. cbn [In] in H, H'.
  assert (Inj : forall (s s' : string) (x x' : R), (s, x) = (s', x') -> s = s' /\ x = x') by (intros ? ? ? ? E; inversion E; auto).
  repeat (destruct H as [H|H]); repeat (destruct H' as [H'|H']); try contradiction;
    apply Inj in H; apply Inj in H'; destruct H as [N <-], H' as [N' <-]; try reflexivity; rewrite <- N' in N; discriminate.
Qed.

Lemma panel_out c a b petro rho f l name diam i x y : (forall p, In p l -> In p shown_craters) -> diam_of name diam ->
  drawn_at (panel c a b petro rho f l) name i x y ->
  exists p, nth_error (crater_points c a b petro rho name diam) i = Some p /\ x = p_x p /\ y = f p.
Proof.
  intros HL HD (v & Hv & Hn & Hp). unfold panel in Hv. apply in_map_iff in Hv. destruct Hv as ([n d] & <- & Hin).
  cbn [v_name v_points] in Hn, Hp. subst n. assert (d = diam) by (eapply diam_unique; [apply HL; exact Hin|exact HD]). subst d.
  rewrite nth_error_map in Hp. destruct (nth_error _ i) as [p|]; [|discriminate]. exists p.
  cbn [option_map] in Hp. assert (Q : forall (a a' : R * option R), Some a = Some a' -> a = a') by congruence. apply Q in Hp.
  split; [reflexivity|]. now inversion Hp.
Qed.

(** ** C92: curves against distance *)

(** All four panels have points at 1 + 4 i / 99 crater radii, i from 0 to 99: six curves of
    speed, thickness and energy, and one of depth for each crater of the Moon. *)
Theorem C92_axes : forall c a b petro rho name diam i, diam_of name diam -> (i < 100)%nat ->
  let F := ejecta_distance c a b petro rho in let x := 1 + INR i * (4 / 99) in
  (exists y, drawn_at (f_vel F) name i x y) /\ (exists y, drawn_at (f_thick F) name i x (Some y)) /\
  (exists y, drawn_at (f_ke F) name i x y) /\
  ((exists y, drawn_at (f_depth F) name i x (Some y)) <-> ~ earthly name).
Proof.
  intros c a b petro rho name diam i HD Hi F x. pose proof (points_at c a b petro rho name diam i Hi) as P. cbv zeta in P.
  repeat split; try (eexists; eapply panel_in in P; [|exact HD]; exact P).
  - intros (y & v & Hv & Hn & _) He. apply on_earth_iff in He. unfold F, ejecta_distance, f_depth, panel in Hv.
    apply in_map_iff in Hv. destruct Hv as ([n d] & <- & Hin). cbn [v_name] in Hn. subst n.
    apply filter_In in Hin. destruct Hin as [_ Hin]. rewrite He in Hin. discriminate.
  - intros Ne. eexists. eapply panel_in in P; [exact P|]. apply filter_In. split; [exact HD|].
    destruct (on_earth name) eqn:E; [apply on_earth_iff in E; contradiction|reflexivity].
Qed.

(** The names and diameters (km) in the labels of the curves. *)
Theorem C92_labels : forall c a b petro rho, let F := ejecta_distance c a b petro rho in
  let labels := map (fun v => (v_name v, v_diam v)) in
  let six := [("Orientale", 940); ("Harpalus", 416 / 10); ("Ries Basin", 24); ("Shackleton", 209 / 10); ("Mosting C", 42 / 10); ("Meteor Crater", 1)]%string in
  labels (f_vel F) = six /\ labels (f_thick F) = six /\ labels (f_ke F) = six /\
  labels (f_depth F) = [("Orientale", 940); ("Harpalus", 416 / 10); ("Shackleton", 209 / 10); ("Mosting C", 42 / 10)]%string /\
  forall name diam, diam_of name diam <-> In (name, diam / 1000) six.
Proof.
  intros c a b petro rho F labels six.
  assert (A : forall f, labels (panel c a b petro rho f shown_craters) = six).
  { intros f. unfold labels, six, panel, shown_craters. cbn [map v_name v_diam]. repeat (f_equal; try (f_equal; lra)). }
  split; [apply A|]. split; [apply A|]. split; [apply A|]. split.
  - unfold labels, F, ejecta_distance, f_depth, panel, shown_craters.
    cbn [filter on_earth String.eqb Ascii.eqb Bool.eqb orb negb map v_name v_diam]. repeat (f_equal; try (f_equal; lra)).
  - intros name diam. unfold diam_of, shown_craters, six. cbn [In]. split; intros H.
    + repeat (destruct H as [H|H]; [|]); try contradiction; inversion H; subst.
      all: first [left; f_equal; lra|right; first [left; f_equal; lra|right; first [left; f_equal; lra|right; first [left; f_equal; lra|right; first [left; f_equal; lra|right; left; f_equal; lra]]]]].
    + assert (Q : forall (n : string) (u w : R), u * 1000 = w -> (n, u) = (name, diam / 1000) -> (n, w) = (name, diam)).
      { intros n u w E K. inversion K. f_equal. lra. }
      destruct H as [H|[H|[H|[H|[H|[H|[]]]]]]].
      * left. apply (Q _ 940); [lra|exact H].
      * right; left. apply (Q _ (416 / 10)); [lra|exact H].
      * do 2 right; left. apply (Q _ 24); [lra|exact H].
      * do 3 right; left. apply (Q _ (209 / 10)); [lra|exact H].
      * do 4 right; left. apply (Q _ (42 / 10)); [lra|exact H].
      * do 5 right; left. apply (Q _ 1); [lra|exact H].
Qed.

(** The speed drawn at [x] radii is the launch speed that lands at [x] radii: on Earth for
    Ries and Meteor Crater, on the Moon of the configuration for the others. *)
Theorem C92_speed : forall c a b petro rho name diam i x y, diam_of name diam ->
  0 < grav_moon c -> 0 < impact_angle c < 90 -> 2350000 < PI * rad_moon c ->
  drawn_at (f_vel (ejecta_distance c a b petro rho)) name i x y ->
  exists v g R, y = Some v /\ 0 < v /\
    (earthly name -> g = 981 / 100 /\ R = 6371000) /\ (~ earthly name -> g = grav_moon c /\ R = rad_moon c) /\
    let th := impact_angle c * (PI / 180) in
    tan (diam / 2 * x / (2 * R)) * (g * R - v ^ 2 * cos th ^ 2) = v ^ 2 * (sin th * cos th).
Proof.
  intros c a b petro rho name diam i x y HD Hg Ha Hr H.
  assert (Hrp : 0 < rad_moon c) by (pose proof PI_RGT_0; nra).
  apply (panel_out _ _ _ _ _ _ _ _ diam) in H; [|auto|exact HD]. destruct H as (p & Hp & -> & ->).
  assert (Hi : (i < 100)%nat) by (rewrite <- (points_len c a b petro rho name diam); apply nth_error_Some; congruence).
  rewrite points_at in Hp by exact Hi. assert (Q : forall q q' : point, Some q = Some q' -> q = q') by congruence.
  apply Q in Hp. subst p. cbn [p_vel p_x]. set (x := 1 + INR i * (4 / 99)).
  assert (Hx : 1 <= x <= 5).
  { unfold x. pose proof (pos_INR i). assert (INR i <= 99) by (replace 99 with (INR 99) by (rewrite INR_IZR_INZ; reflexivity); apply le_INR; lia). lra. }
  clearbody x.
  assert (HD2 : 1000 <= diam <= 940000).
  { unfold diam_of, shown_craters in HD. cbn [In] in HD. assert (Inj : forall (s s' : string) (u u' : R), (s, u) = (s', u') -> u = u') by (intros ? ? ? ? E; inversion E; auto).
    repeat (destruct HD as [HD|HD]; [apply Inj in HD; lra|]). contradiction. }
  assert (Hd : 0 < diam / 2 * x <= 2350000) by nra.
  destruct (on_earth name) eqn:E.
  - apply on_earth_iff in E.
    destruct (C21_range_equation (earth c) (diam / 2 * x)) as (v & Hv & H0 & HE); cbn [earth rad_moon grav_moon impact_angle] in *; try lra; [pose proof PI2_3_2; lra|].
    pose proof (C21_bounds (earth c) (diam / 2 * x) v) as B. cbn [earth rad_moon grav_moon impact_angle] in B.
    exists v, (981 / 100), 6371000. split; [exact Hv|]. split; [apply B; try lra; [pose proof PI2_3_2; lra|exact Hv]|]. split; [tauto|]. split; [tauto|]. exact HE.
  - assert (Ne : ~ earthly name) by (intros X; apply on_earth_iff in X; congruence).
    destruct (C21_range_equation c (diam / 2 * x)) as (v & Hv & H0 & HE); try lra.
    exists v, (grav_moon c), (rad_moon c). split; [exact Hv|]. split; [apply (C21_bounds c (diam / 2 * x) v); try lra; exact Hv|]. split; [tauto|]. split; [tauto|]. exact HE.
Qed.

Lemma x_range i : (i < 100)%nat -> 1 <= 1 + INR i * (4 / 99) <= 5.
Proof.
  intros Hi. pose proof (pos_INR i). assert (INR i <= 99) by (replace 99 with (INR 99) by (rewrite INR_IZR_INZ; reflexivity); apply le_INR; lia). lra.
Qed.

Lemma out_point c a b petro rho f l name diam i x y : (forall p, In p l -> In p shown_craters) -> diam_of name diam ->
  drawn_at (panel c a b petro rho f l) name i x y ->
  (i < 100)%nat /\ x = 1 + INR i * (4 / 99) /\
  let cc := if on_earth name then earth c else c in let bulk := if on_earth name then 2700 else rho in
  let t := get_ejecta_thickness cc (Some (diam / 2 * x)) (diam / 2) in let vel := ballistic_velocity cc (diam / 2 * x) in
  y = f (mk_point x vel t (option_map (fun v => kinetic_energy (t * bulk) v / 1000000) vel) (t * mixing_ratio a b petro diam)).
Proof.
  intros HL HD H. apply (panel_out _ _ _ _ _ _ _ _ diam) in H; [|auto|exact HD]. destruct H as (p & Hp & -> & ->).
  assert (Hi : (i < 100)%nat) by (rewrite <- (points_len c a b petro rho name diam); apply nth_error_Some; congruence).
  rewrite points_at in Hp by exact Hi. assert (Q : forall q q' : point, Some q = Some q' -> q = q') by congruence.
  apply Q in Hp. subst p. repeat split; auto.
Qed.

Lemma shown_moon p : In p (filter (fun '(name, _) => negb (on_earth name)) shown_craters) -> In p shown_craters.
Proof. intros H. now apply filter_In in H. Qed.

(** Thickness of all craters but Orientale: a power of the distance, from the value at the
    rim that belongs to the size of the crater. *)
Theorem C92_thickness : forall c a b petro rho name diam i x y, diam_of name diam ->
  simple2complex c <= complex2peakring c -> diam < complex2peakring c -> diam <> simple2complex c ->
  drawn_at (f_thick (ejecta_distance c a b petro rho)) name i x y ->
  y = Some (Rpower x (ej_exp c) * (if Rltb diam (simple2complex c) then 4 / 100 * (diam / 2) else 14 / 100 * Rpower (diam / 2) (74 / 100))).
Proof.
  intros c a b petro rho name diam i x y HD Hs Hb Hn H.
  apply (out_point _ _ _ _ _ _ _ _ diam) in H; [|auto|exact HD]. destruct H as (Hi & Hx & ->). cbn [p_thick]. f_equal.
  assert (Px : 0 < x) by (pose proof (x_range i Hi); lra).
  assert (Pd : 0 < diam).
  { unfold diam_of, shown_craters in HD. cbn [In] in HD. assert (Inj : forall (s s' : string) (u u' : R), (s, u) = (s', u') -> u = u') by (intros ? ? ? ? E; inversion E; auto).
    repeat (destruct HD as [HD|HD]; [apply Inj in HD; lra|]). contradiction. }
  set (cc := if on_earth name then earth c else c).
  assert (E : simple2complex cc = simple2complex c /\ complex2peakring cc = complex2peakring c /\ ej_exp cc = ej_exp c) by (unfold cc; destruct (on_earth name); auto).
  clearbody cc. destruct E as (E1' & E2' & E3'). rewrite <- E1', <- E2' in *. rewrite <- E3'.
  destruct (C19_power_law cc (diam / 2) (diam / 2)) as (_ & P & _); try lra.
  replace (diam / 2 * x) with (x * (diam / 2)) by ring. rewrite P by exact Px. f_equal.
  destruct (C19_rim_value cc (diam / 2)) as [G1 G2]; try lra.
  rcase diam (simple2complex cc) L; [apply G1; lra|apply G2; lra].
Qed.

(** Orientale, with the shipped constants: there is ejecta at each point. *)
Theorem C92_orientale : forall a b petro rho i x y,
  drawn_at (f_thick (ejecta_distance CFG0 a b petro rho)) "Orientale" i x y -> exists t, y = Some t /\ 0 < t.
Proof.
  intros a b petro rho i x y H. apply (out_point _ _ _ _ _ _ _ _ 940000) in H; [|auto|now left].
  destruct H as (Hi & Hx & ->). cbn [p_thick on_earth String.eqb orb Ascii.eqb Bool.eqb]. eexists. split; [reflexivity|].
  pose proof (x_range i Hi). apply C20_basin_thickness_positive; try lra. pose proof PI2_3_2. lra.
Qed.

(** The energy is half the mass on a square metre times the square of the speed, in MJ. *)
Theorem C92_energy : forall c a b petro rho name i x v t y, (exists diam, diam_of name diam) ->
  let F := ejecta_distance c a b petro rho in
  drawn_at (f_vel F) name i x (Some v) -> drawn_at (f_thick F) name i x (Some t) -> drawn_at (f_ke F) name i x y ->
  exists bulk, (earthly name -> bulk = 2700) /\ (~ earthly name -> bulk = rho) /\ y = Some (t * bulk * v ^ 2 / 2 / 1000000).
Proof.
  intros c a b petro rho name i x v t y [diam HD] F Hv Ht Hy.
  apply (out_point _ _ _ _ _ _ _ _ diam) in Hv; [|auto|exact HD]. apply (out_point _ _ _ _ _ _ _ _ diam) in Ht; [|auto|exact HD].
  apply (out_point _ _ _ _ _ _ _ _ diam) in Hy; [|auto|exact HD]. destruct Hv as (_ & _ & Hv), Ht as (_ & _ & Ht), Hy as (_ & _ & Hy).
  cbv zeta in Hv, Ht, Hy. cbn [p_vel p_thick p_ke] in Hv, Ht, Hy.
  assert (Q : forall q q' : R, Some q = Some q' -> q = q') by congruence. apply Q in Ht. rewrite <- Hv, <- Ht in Hy. cbn [option_map] in Hy.
  exists (if on_earth name then 2700 else rho). split; [|split].
  - intros E. apply on_earth_iff in E. now rewrite E.
  - intros E. destruct (on_earth name) eqn:X; [apply on_earth_iff in X; contradiction|reflexivity].
  - rewrite Hy. f_equal. unfold kinetic_energy. lra.
Qed.

(** Should be: the depth at a distance is the thickness there times the mixing ratio there
    (as in a run, C54).  It is the thickness times the mixing ratio at one diameter, wherever
    the point is: too deep closer than two radii, too shallow beyond. *)
Theorem C92_depth_refuted : forall c a b petro rho name diam i x t y, diam_of name diam -> 0 < a -> 0 < b ->
  let F := ejecta_distance c a b petro rho in
  drawn_at (f_thick F) name i x (Some t) -> 0 < t -> drawn_at (f_depth F) name i x (Some y) ->
  let true_depth := t * mixing_ratio a b petro (diam / 2 * x) in
  (x < 2 -> true_depth < y) /\ (x = 2 -> true_depth = y) /\ (2 < x -> y < true_depth).
Proof.
  intros c a b petro rho name diam i x t y HD Ha Hb F Ht Pt Hy true_depth.
  apply (out_point _ _ _ _ _ _ _ _ diam) in Ht; [|auto|exact HD]. apply (out_point _ _ _ _ _ _ _ _ diam) in Hy; [|apply shown_moon|exact HD].
  destruct Ht as (Hi & Hx & Ht), Hy as (_ & _ & Hy). cbv zeta in Ht, Hy. cbn [p_thick p_depth] in Ht, Hy.
  assert (Q : forall q q' : R, Some q = Some q' -> q = q') by congruence. apply Q in Ht. apply Q in Hy. rewrite <- Ht in Hy. subst y.
  assert (Px : 0 < x) by (pose proof (x_range i Hi); lra).
  assert (Pd : 0 < diam).
  { unfold diam_of, shown_craters in HD. cbn [In] in HD. assert (Inj : forall (s s' : string) (u u' : R), (s, u) = (s', u') -> u = u') by (intros ? ? ? ? E; inversion E; auto).
    repeat (destruct HD as [HD|HD]; [apply Inj in HD; lra|]). contradiction. }
  assert (P2 : 0 < diam / 2 * x) by nra. unfold true_depth. repeat split.
  - intros L. apply Rmult_lt_compat_l; [exact Pt|]. destruct (C52_mixing_ratio a b petro _ Ha Hb P2) as (_ & _ & _ & M).
    specialize (M diam ltac:(nra)). lra.
  - intros ->. f_equal. f_equal. lra.
  - intros L. apply Rmult_lt_compat_l; [exact Pt|]. destruct (C52_mixing_ratio a b petro _ Ha Hb Pd) as (_ & _ & _ & M).
    specialize (M (diam / 2 * x) ltac:(nra)). lra.
Qed.

(** So no point of the panel is right: none is at two radii. *)
Theorem C92_depth_all_refuted : forall c a b petro rho name diam i x t y, diam_of name diam -> 0 < a -> 0 < b ->
  let F := ejecta_distance c a b petro rho in
  drawn_at (f_thick F) name i x (Some t) -> 0 < t -> drawn_at (f_depth F) name i x (Some y) ->
  y <> t * mixing_ratio a b petro (diam / 2 * x).
Proof.
  intros c a b petro rho name diam i x t y HD Ha Hb F Ht Pt Hy E.
  destruct (C92_depth_refuted c a b petro rho name diam i x t y HD Ha Hb Ht Pt Hy) as (L1 & _ & L2).
  apply (out_point _ _ _ _ _ _ _ _ diam) in Ht; [|auto|exact HD]. destruct Ht as (_ & Hx & _).
  destruct (Rtotal_order x 2) as [L|[L|L]]; [specialize (L1 L); lra| |specialize (L2 L); lra].
  assert (K : INR i * 4 = 99) by lra. rewrite INR_IZR_INZ in K. rewrite <- mult_IZR in K. apply eq_IZR in K. lia.
Qed.

(** The shape that is drawn instead: the same multiple of the thickness at all distances. *)
Theorem C92_depth : forall c a b petro rho name i x t y i' x' t' y', (exists diam, diam_of name diam) ->
  let F := ejecta_distance c a b petro rho in
  drawn_at (f_thick F) name i x (Some t) -> drawn_at (f_depth F) name i x (Some y) ->
  drawn_at (f_thick F) name i' x' (Some t') -> drawn_at (f_depth F) name i' x' (Some y') -> y * t' = y' * t.
Proof.
  intros c a b petro rho name i x t y i' x' t' y' [diam HD] F Ht Hy Ht' Hy'.
  apply (out_point _ _ _ _ _ _ _ _ diam) in Ht; [|auto|exact HD]. apply (out_point _ _ _ _ _ _ _ _ diam) in Hy; [|apply shown_moon|exact HD].
  apply (out_point _ _ _ _ _ _ _ _ diam) in Ht'; [|auto|exact HD]. apply (out_point _ _ _ _ _ _ _ _ diam) in Hy'; [|apply shown_moon|exact HD].
  destruct Ht as (_ & _ & Ht), Hy as (_ & _ & Hy), Ht' as (_ & _ & Ht'), Hy' as (_ & _ & Hy'). cbv zeta in Ht, Hy, Ht', Hy'.
  cbn [p_thick p_depth] in Ht, Hy, Ht', Hy'.
  assert (Q : forall q q' : R, Some q = Some q' -> q = q') by congruence. apply Q in Ht, Hy, Ht', Hy'. rewrite <- Ht in Hy. rewrite <- Ht' in Hy'. subst y y'. ring.
Qed.

(** Ejecta of Ries at [x] radii, per square metre of ground. *)
Lemma ries_energy x : 1 <= x <= 5 -> exists v, ballistic_velocity (earth CFG0) (12000 * x) = Some v /\
  let k := get_ejecta_thickness (earth CFG0) (Some (12000 * x)) 12000 * 2700 * v ^ 2 / 2 / 1000000 in
  let T := tan (12000 * x / (2 * 6371000)) in
  k = 14 / 100 * Rpower 12000 (74 / 100) / x ^ 3 * 2700 * (2 * (981 / 100) * 6371000 * T / (1 + T)) / 2 / 1000000.
Proof.
  intros Hx. destruct (earth_speed CFG0 (12000 * x) eq_refl ltac:(lra)) as (HT & v & Hv & _ & E). exists v. split; [exact Hv|].
  cbv zeta. rewrite E. do 4 f_equal.
  destruct (C19_power_law (earth CFG0) 12000 12000) as (_ & P & _); try (cbn [earth CFG0 simple2complex complex2peakring]; lra).
  replace (12000 * x) with (x * 12000) at 1 by ring. rewrite P by lra.
  destruct (C19_rim_value (earth CFG0) 12000) as [_ G]; try (cbn [earth CFG0 simple2complex complex2peakring]; lra).
  rewrite G by (cbn [earth CFG0 simple2complex complex2peakring]; lra). cbn [earth CFG0 ej_exp].
  replace (-3) with (- INR 3) by (rewrite INR_IZR_INZ; cbn; lra). rewrite Rpower_Ropp, Rpower_pow by lra.
  field. lra.
Qed.

Lemma INR74 : INR 74 = 74.
Proof. rewrite INR_IZR_INZ. reflexivity. Qed.

Lemma ries_index c a b petro rho :
  nearest_idx (map (fun p => 24000 / 2 * p_x p) (crater_points c a b petro rho "Ries Basin" 24000)) (24000 * 2) = 74%nat.
Proof.
  set (l := map _ _).
  assert (N : forall i, (i < 100)%nat -> nth_error l i = Some (12000 + 48000 / 99 * INR i)).
  { intros i Hi. unfold l. rewrite nth_error_map, points_at by exact Hi. cbn [option_map p_x]. f_equal. lra. }
  assert (Len : length l = 100%nat) by (unfold l; now rewrite map_length, points_len). clearbody l.
  assert (Ne : l <> []) by (intros ->; discriminate).
  pose proof (nearest_idx_spec l (24000 * 2) Ne) as S0.
  apply (first_nearest_unique l (24000 * 2)); [exact S0|].
  assert (B : forall j u, nth_error l j = Some u -> j <> 74%nat -> Rabs (12000 + 48000 / 99 * INR 74 - 24000 * 2) < Rabs (u - 24000 * 2)).
  { intros j u Hu Hj. assert (Hl : (j < 100)%nat) by (rewrite <- Len; apply nth_error_Some; congruence).
    rewrite N in Hu by exact Hl. assert (Q : forall q q' : R, Some q = Some q' -> q = q') by congruence. apply Q in Hu. subst u. rewrite INR74.
    rewrite (Rabs_left (12000 + 48000 / 99 * 74 - 24000 * 2)) by lra. destruct (le_lt_dec 75 j) as [L|L].
    - apply le_INR in L. replace (INR 75) with 75 in L by (rewrite INR_IZR_INZ; reflexivity). rewrite Rabs_right by lra. lra.
    - assert (L2 : (j <= 73)%nat) by lia. apply le_INR in L2. replace (INR 73) with 73 in L2 by (rewrite INR_IZR_INZ; reflexivity). rewrite Rabs_left by lra. lra. }
  exists (12000 + 48000 / 99 * INR 74). split; [apply N; lia|]. split.
  - intros j u Hu. destruct (Nat.eq_dec j 74) as [->|Hj].
    + rewrite N in Hu by lia. assert (Q : forall q q' : R, Some q = Some q' -> q = q') by congruence. apply Q in Hu. subst u. lra.
    + specialize (B j u Hu Hj). lra.
  - intros j u Hl Hu. apply (B j u Hu). lia.
Qed.

(** The dashed line, with the shipped constants: the energy at the last point before four
    radii of Ries (395 / 99 radii), to the nearest hundred. *)
Theorem C92_bunte : forall a b petro rho, f_bunte (ejecta_distance CFG0 a b petro rho) = Some 1500 /\
  exists k, drawn_at (f_ke (ejecta_distance CFG0 a b petro rho)) "Ries Basin" 74 (395 / 99) (Some k) /\ 1450 < k < 1460.
Proof.
  intros a b petro rho. cbn [ejecta_distance f_bunte f_ke].
  assert (P : nth_error (crater_points CFG0 a b petro rho "Ries Basin" 24000) 74 <> None) by (apply nth_error_Some; rewrite points_len; lia).
  pose proof (points_at CFG0 a b petro rho "Ries Basin" 24000 74 ltac:(lia)) as N. cbv zeta in N.
  change (on_earth "Ries Basin") with true in N. cbv iota in N. rewrite INR74 in N.
  replace (1 + 74 * (4 / 99)) with (395 / 99) in N by lra. replace (24000 / 2 * (395 / 99)) with (12000 * (395 / 99)) in N by lra.
  replace (24000 / 2) with 12000 in N by lra.
  destruct (ries_energy (395 / 99) ltac:(lra)) as (v & Hv & Hk). cbv zeta in Hk. rewrite Hv in N. cbn [option_map] in N.
  set (t := get_ejecta_thickness (earth CFG0) (Some (12000 * (395 / 99))) 12000) in *.
  assert (Hke : kinetic_energy (t * 2700) v / 1000000 = t * 2700 * v ^ 2 / 2 / 1000000) by (unfold kinetic_energy; lra).
  rewrite Hke, Hk in N. clearbody t. clear Hk Hke.
  set (T := tan (12000 * (395 / 99) / (2 * 6371000))) in *.
  assert (BT : 37575 / 10000000 <= T <= 37717 / 10000000).
  { unfold T. pose proof (tan_near (12000 * (395 / 99) / (2 * 6371000)) ltac:(lra)). lra. }
  clearbody T. pose proof power_bounds as BP. set (Pw := Rpower 12000 (74 / 100)) in *. clearbody Pw.
  set (k := 14 / 100 * Pw / (395 / 99) ^ 3 * 2700 * (2 * (981 / 100) * 6371000 * T / (1 + T)) / 2 / 1000000) in *.
  assert (Bk : 1450 < k < 1460).
  { set (w := T / (1 + T)). assert (Bw : 3743 / 1000000 <= w <= 3758 / 1000000).
    { unfold w. split; [apply Rmult_le_reg_r with (1 + T); [lra|]|apply Rmult_le_reg_r with (1 + T); [lra|]];
        unfold Rdiv; rewrite (Rmult_assoc T), Rinv_l by lra; lra. }
    replace k with (14 / 100 * Pw / (395 / 99) ^ 3 * 2700 * (2 * (981 / 100) * 6371000 * w) / 2 / 1000000) by (unfold k, w; field; lra).
    assert (Bz : 1043 * (3743 / 1000000) <= Pw * w <= 1044 * (3758 / 1000000)) by (clear - BP Bw; split; apply Rmult_le_compat; lra).
    replace (14 / 100 * Pw / (395 / 99) ^ 3 * 2700 * (2 * (981 / 100) * 6371000 * w) / 2 / 1000000)
      with (14 / 100 / (395 / 99) ^ 3 * 2700 * (2 * (981 / 100) * 6371000) / 2 / 1000000 * (Pw * w)) by field.
    revert Bz. generalize (Pw * w). intros z Bz. lra. }
  split.
  - unfold bunte. rewrite ries_index, N. cbn [p_ke option_map]. do 2 f_equal.
    rewrite (rint_eq (k / 100) 15); [lra|]. rewrite Rabs_right; lra.
  - exists k. split; [|exact Bk].
    eapply (panel_in CFG0 a b petro rho p_ke shown_craters) in N; [exact N|]. cbn. auto.
Qed.

(** Should be: "Bunte Breccia, KE_min" is the energy at the end of the deposit, four radii
    (48 km) from the centre of Ries.  To the nearest hundred that is 1400: the line at 1500 is
    from 120 m closer. *)
Theorem C92_bunte_refuted : forall a b petro rho,
  f_bunte (ejecta_distance CFG0 a b petro rho) = Some 1500 /\
  exists v k, ballistic_velocity (earth CFG0) (4 * 12000) = Some v /\
    k = get_ejecta_thickness (earth CFG0) (Some (4 * 12000)) 12000 * 2700 * v ^ 2 / 2 / 1000000 /\ 1400 < k < 1450.
Proof.
  intros a b petro rho. split; [apply C92_bunte|].
  destruct (ries_energy 4 ltac:(lra)) as (v & Hv & Hk). replace (12000 * 4) with (4 * 12000) in Hv, Hk by ring. cbv zeta in Hk.
  exists v. eexists. split; [exact Hv|]. split; [reflexivity|]. rewrite Hk. clear Hk Hv v.
  set (T := tan (4 * 12000 / (2 * 6371000))) in *.
  assert (BT : 37670 / 10000000 <= T <= 37680 / 10000000).
  { unfold T. split; [pose proof (tan_near (4 * 12000 / (2 * 6371000)) ltac:(lra)); lra|]. apply tan_tight; lra. }
  clearbody T. pose proof power_bounds as BP. set (Pw := Rpower 12000 (74 / 100)) in *. clearbody Pw.
  set (w := T / (1 + T)). assert (Bw : 3752 / 1000000 <= w <= 3755 / 1000000).
  { unfold w. split; [apply Rmult_le_reg_r with (1 + T); [lra|]|apply Rmult_le_reg_r with (1 + T); [lra|]];
      unfold Rdiv; rewrite (Rmult_assoc T), Rinv_l by lra; lra. }
  assert (Bz : 1043 * (3752 / 1000000) <= Pw * w <= 1044 * (3755 / 1000000)) by (clear - BP Bw; split; apply Rmult_le_compat; lra).
  replace (14 / 100 * Pw / 4 ^ 3 * 2700 * (2 * (981 / 100) * 6371000 * T / (1 + T)) / 2 / 1000000)
    with (14 / 100 / 4 ^ 3 * 2700 * (2 * (981 / 100) * 6371000) / 2 / 1000000 * (Pw * w)) by (unfold w; field; lra).
  revert Bz. generalize (Pw * w). intros z Bz. lra.
Qed.

(** ** C92: markers against radius *)

(** A marker of the figure: radius, thickness and depth, for a kind of crater and a distance. *)
Definition mark_of (F : radius_fig) (kind : string) (dist r t d : R) : Prop :=
  exists s, In s (g_series F) /\ s_kind s = kind /\ s_dist s = dist /\ In (r, t, d) (s_marks s).

(** The transitions between simple, complex and basin are where the figure can show all three. *)
Definition apart (c : ccfg) : Prop :=
  220 < simple2complex c /\ simple2complex c + 40 < complex2peakring c /\ complex2peakring c < 1319980.

Lemma series_in c a b petro s : In s (g_series (ejecta_bsed c a b petro)) ->
  exists first dist kind rads, In (first, dist) [(true, 1000); (false, 10000); (false, 100000); (false, 1000000)] /\
    In (kind, rads) (shown_radii c) /\ s = radius_series c a b petro first dist kind rads.
Proof.
  intros H. unfold ejecta_bsed in H. cbn [g_series] in H. apply in_concat in H. destruct H as (l & Hl & Hs).
  apply in_map_iff in Hl. destruct Hl as ([first dist] & <- & Hd). apply in_map_iff in Hs. destruct Hs as ([kind rads] & <- & Hk).
  exists first, dist, kind, rads. auto.
Qed.

Lemma series_of c a b petro first dist kind rads : In (first, dist) [(true, 1000); (false, 10000); (false, 100000); (false, 1000000)] ->
  In (kind, rads) (shown_radii c) -> In (radius_series c a b petro first dist kind rads) (g_series (ejecta_bsed c a b petro)).
Proof.
  intros Hd Hk. unfold ejecta_bsed. cbn [g_series]. apply in_concat. eexists. split; [apply (in_map (fun '(first, dist) => map (fun '(kind, rads) => radius_series c a b petro first dist kind rads) (shown_radii c))); exact Hd|].
  cbv beta iota. exact (in_map (fun '(kind, rads) => radius_series c a b petro first dist kind rads) _ _ Hk).
Qed.

(** Each marker: the thickness of its law at the distance, none inside the crater; the depth is
    the thickness times the mixing ratio at the distance.  No radius is at a transition, where
    a crater would have no ejecta (C19). *)
Theorem C92_radius : forall c a b petro kind dist r t d, apart c ->
  mark_of (ejecta_bsed c a b petro) kind dist r t d ->
  In dist [1000; 10000; 100000; 1000000] /\ d = t * mixing_ratio a b petro dist /\ (dist < r -> t = 0) /\
  (kind = "Simple crater"%string -> 100 <= r <= simple2complex c / 2 - 10 /\
     (r <= dist -> t = 4 / 100 * r * Rpower (dist / r) (ej_exp c))) /\
  (kind = "Complex crater"%string -> simple2complex c / 2 + 10 <= r <= complex2peakring c / 2 - 10 /\
     (r <= dist -> t = 14 / 100 * Rpower r (74 / 100) * Rpower (dist / r) (ej_exp c))) /\
  (kind = "Basin"%string -> complex2peakring c / 2 + 10 <= r <= 660000).
Proof.
  intros c a b petro kind dist r t d (A1 & A2 & A3) (s & Hs & <- & <- & Hm).
  apply series_in in Hs. destruct Hs as (first & dist & kind & rads & Hd & Hk & ->).
  cbn [radius_series s_kind s_dist s_marks] in *. unfold marks in Hm. apply in_map_iff in Hm. destruct Hm as (r0 & E & Hr).
  assert (Q : forall (p q u p' q' u' : R), (p, q, u) = (p', q', u') -> p = p' /\ q = q' /\ u = u') by (intros ? ? ? ? ? ? X; inversion X; auto).
  apply Q in E. destruct E as (-> & Et & Ed). rewrite Et in Ed.
  assert (Dp : 0 < dist).
  { cbn [In] in Hd. assert (J : forall (x x' : bool) (u u' : R), (x, u) = (x', u') -> u = u') by (intros ? ? ? ? X; inversion X; auto).
    repeat (destruct Hd as [Hd|Hd]; [apply J in Hd; lra|]). contradiction. }
  split. { cbn [In] in Hd |- *. assert (J : forall (x x' : bool) (u u' : R), (x, u) = (x', u') -> u = u') by (intros ? ? ? ? X; inversion X; auto).
    repeat (destruct Hd as [Hd|Hd]; [apply J in Hd; tauto|]). contradiction. }
  split; [now rewrite <- Ed|]. split. { intros L. rewrite <- Et. rcase dist r X; [reflexivity|lra]. }
  assert (Pw : forall k, r < complex2peakring c / 2 -> r <> simple2complex c / 2 -> 0 < r -> r <= dist ->
     get_ejecta_thickness c (Some r) r = k -> t = k * Rpower (dist / r) (ej_exp c)).
  { intros k B1 B2 B3 B4 B5. rewrite <- Et. rcase dist r X; [lra|].
    destruct (C19_power_law c r r) as (_ & P & _); try lra. replace dist with (dist / r * r) at 1 by (field; lra).
    rewrite P, B5 by (apply Rdiv_lt_0_compat; lra). ring. }
  unfold shown_radii in Hk. cbn [In] in Hk.
  assert (J : forall (x x' : string) (u u' : list R), (x, u) = (x', u') -> x = x' /\ u = u') by (intros ? ? ? ? X; inversion X; auto).
  destruct Hk as [Hk|[Hk|[Hk|[]]]]; apply J in Hk; destruct Hk as [<- <-]; (split; [|split]); try discriminate; intros _.
  - apply geom_in in Hr; [|lra|lra|lia]. split; [lra|]. intros L. apply Pw; try lra.
    destruct (C19_rim_value c r) as [G _]; lra.
  - apply geom_in in Hr; [|lra|lra|lia]. split; [lra|]. intros L. apply Pw; try lra.
    destruct (C19_rim_value c r) as [_ G]; lra.
  - apply geom_in in Hr; [|lra|lra|lia]. lra.
Qed.

(** Basins, with the shipped constants: there is ejecta wherever the place is outside. *)
Theorem C92_radius_basin : forall a b petro dist r t d,
  mark_of (ejecta_bsed CFG0 a b petro) "Basin" dist r t d -> r <= dist -> 0 < t.
Proof.
  intros a b petro dist r t d H L. assert (A : apart CFG0) by (unfold apart; cbn [CFG0 simple2complex complex2peakring]; lra).
  destruct (C92_radius CFG0 a b petro "Basin" dist r t d A H) as (Hd & _ & _ & _ & _ & B). specialize (B eq_refl).
  cbn [CFG0 complex2peakring] in B. assert (Dm : dist <= 1000000) by (cbn [In] in Hd; repeat (destruct Hd as [Hd|Hd]; [lra|]); contradiction).
  destruct H as (s & Hs & _ & <- & Hm). apply series_in in Hs. destruct Hs as (first & dist & kind & rads & _ & _ & ->).
  cbn [radius_series s_dist s_marks] in *. unfold marks in Hm. apply in_map_iff in Hm. destruct Hm as (r0 & E & Hr).
  assert (Q : forall (p q u p' q' u' : R), (p, q, u) = (p', q', u') -> p = p' /\ q = q' /\ u = u') by (intros ? ? ? ? ? ? X; inversion X; auto).
  apply Q in E. destruct E as (-> & Et & _). rewrite <- Et. rcase dist r X; [lra|].
  apply C20_basin_thickness_positive; try lra. pose proof PI2_3_2. lra.
Qed.

(** The three kinds at the four distances, ten markers each, from the smallest radius of the
    kind to the largest; only those at 1 km have a label. *)
Theorem C92_series : forall c a b petro kind dist lo hi, apart c -> In dist [1000; 10000; 100000; 1000000] ->
  In (kind, (lo, hi)) [("Simple crater", (100, simple2complex c / 2 - 10));
     ("Complex crater", (simple2complex c / 2 + 10, complex2peakring c / 2 - 10));
     ("Basin", (complex2peakring c / 2 + 10, 660000))]%string ->
  exists s, In s (g_series (ejecta_bsed c a b petro)) /\ s_kind s = kind /\ s_dist s = dist /\ length (s_marks s) = 10%nat /\
    (exists t d, nth_error (s_marks s) 0 = Some (lo, t, d)) /\ (exists t d, nth_error (s_marks s) 9 = Some (hi, t, d)) /\
    (dist = 1000 -> s_label s = Some (kind, (2 * lo / 1000, 2 * hi / 1000))) /\ (dist <> 1000 -> s_label s = None).
Proof.
  intros c a b petro kind dist lo hi (A1 & A2 & A3) Hd Hk.
  assert (F : exists first, In (first, dist) [(true, 1000); (false, 10000); (false, 100000); (false, 1000000)] /\ (dist = 1000 -> first = true) /\ (dist <> 1000 -> first = false)).
  { cbn [In] in Hd. destruct Hd as [<-|[<-|[<-|[<-|[]]]]]; [exists true|exists false|exists false|exists false];
      (split; [cbn; auto|split; intros X; try reflexivity; lra]). }
  destruct F as (first & F1 & F2 & F3).
  assert (Hr : In (kind, geomspace lo hi 10) (shown_radii c) /\ 0 < lo < hi).
  { unfold shown_radii. cbn [In] in Hk |- *.
    assert (J : forall (x x' : string) (u v u' v' : R), (x, (u, v)) = (x', (u', v')) -> x = x' /\ u = u' /\ v = v') by (intros ? ? ? ? ? ? X; inversion X; auto).
    destruct Hk as [Hk|[Hk|[Hk|[]]]]; apply J in Hk; destruct Hk as (<- & <- & <-); (split; [tauto|lra]). }
  destruct Hr as (Hr & P1 & P2). eexists. split; [apply (series_of c a b petro first dist kind _ F1 Hr)|].
  cbn [radius_series s_kind s_dist s_marks s_label]. split; [reflexivity|]. split; [reflexivity|].
  pose proof (geom_len lo hi 10) as GL. pose proof (geom_first lo hi 10 P1 P2 ltac:(lia)) as G0. pose proof (geom_last lo hi 10 P1 P2 ltac:(lia)) as G9.
  change (10 - 1)%nat with 9%nat in G9. set (l := geomspace lo hi 10) in *. clearbody l.
  split; [unfold marks; now rewrite map_length|]. unfold marks. rewrite !nth_error_map, G0, G9. cbn [option_map].
  split; [eauto|]. split; [eauto|].
  assert (Hh : hd 0 l = lo /\ last l 0 = hi).
  { do 10 (destruct l as [|? l]; [discriminate|]). destruct l; [|discriminate]. cbn in G0, G9 |- *.
    assert (Q : forall u u' : R, Some u = Some u' -> u = u') by congruence. split; [exact (Q _ _ G0)|exact (Q _ _ G9)]. }
  destruct Hh as [-> ->]. split; intros X; [now rewrite (F2 X)|now rewrite (F3 X)].
Qed.

(** Should be: numbers along an axis are in the unit that the axis names.  The axes name
    kilometres and hold metres: a crater whose label gives a diameter of 0.2 (km) is at 100 on
    the axis "Radius [km]", and ejecta that is 4 mm thick 1 km away is at 0.004 of a kilometre. *)
Theorem C92_units_refuted : forall c a b petro, apart c -> ej_exp c = -3 ->
  let F := ejecta_bsed c a b petro in
  g_xlabel F = "Radius [km]"%string /\ g_thick_label F = "Ejecta Thickness [km]"%string /\ g_depth_label F = "Ballistic Mixing Depth [km]"%string /\
  exists s hi d, In s (g_series F) /\ s_dist s = 1000 /\ s_label s = Some ("Simple crater"%string, (2 / 10, hi)) /\
    nth_error (s_marks s) 0 = Some (100, 4 / 1000, d).
Proof.
  intros c a b petro A E F. do 3 (split; [reflexivity|]).
  destruct (C92_series c a b petro "Simple crater" 1000 100 (simple2complex c / 2 - 10) A) as (s & S1 & S2 & S3 & S4 & (t & d & S5) & _ & S7 & _); [cbn; auto|cbn; auto|].
  exists s, (2 * (simple2complex c / 2 - 10) / 1000), d. split; [exact S1|]. split; [exact S3|].
  split; [rewrite S7 by reflexivity; do 3 f_equal; lra|].
  assert (M : mark_of F "Simple crater" 1000 100 t d) by (exists s; repeat split; auto; now apply nth_error_In in S5).
  destruct (C92_radius c a b petro _ _ _ _ _ A M) as (_ & _ & _ & B & _). destruct (B eq_refl) as [_ B2]. specialize (B2 ltac:(lra)).
  rewrite S5. do 2 f_equal. f_equal. rewrite B2, E. replace (1000 / 100) with 10 by lra.
  replace (-3) with (- INR 3) by (rewrite INR_IZR_INZ; cbn; lra). rewrite Rpower_Ropp, Rpower_pow by lra. lra.
Qed.

(** Mosting C at its rim with a mixing ratio of one per km: 84 m of ejecta, which would mix
    176.4 m of ground; the figure says 352.8 m. *)
Example C92_case : let F := ejecta_distance CFG0 1 1 false 2700 in
  drawn_at (f_thick F) "Mosting C" 0 1 (Some 84) /\ drawn_at (f_depth F) "Mosting C" 0 1 (Some (3528 / 10)) /\
  84 * mixing_ratio 1 1 false (4200 / 2 * 1) = 1764 / 10.
Proof.
  intros F. assert (D : diam_of "Mosting C" 4200) by (unfold diam_of, shown_craters; cbn [In]; tauto).
  destruct (C92_axes CFG0 1 1 false 2700 "Mosting C" 4200 0 D ltac:(lia)) as (_ & (t & Ht) & _ & Hd).
  destruct Hd as [_ Hd]. destruct Hd as (y & Hy); [intros [X|X]; discriminate|].
  replace (1 + INR 0 * (4 / 99)) with 1 in Ht, Hy by (change (INR 0) with 0; lra).
  assert (Et : t = 84).
  { pose proof (C92_thickness CFG0 1 1 false 2700 "Mosting C" 4200 0 1 (Some t) D) as T. cbn [CFG0 simple2complex complex2peakring ej_exp] in T.
    specialize (T ltac:(lra) ltac:(lra) ltac:(lra) Ht). assert (Q : forall u u' : R, Some u = Some u' -> u = u') by congruence. apply Q in T.
    rewrite Rpower_1_base in T. destruct (Rltb 4200 18000) eqn:E; [lra|apply Rltb_false in E; lra]. }
  subst t. split; [exact Ht|].
  assert (Mr : forall d, 0 < d -> mixing_ratio 1 1 false d = d / 1000) by (intros d Hd0; unfold mixing_ratio; rewrite Rpower_1 by lra; lra).
  split.
  - assert (Ey : y = 3528 / 10); [|now rewrite Ey in Hy].
    pose proof Ht as Ht2. apply (out_point _ _ _ _ _ _ _ _ 4200) in Ht2; [|auto|exact D]. pose proof Hy as Hy2. apply (out_point _ _ _ _ _ _ _ _ 4200) in Hy2; [|apply shown_moon|exact D].
    destruct Ht2 as (_ & _ & Ht2), Hy2 as (_ & _ & Hy2). cbv zeta in Ht2, Hy2. cbn [p_thick p_depth] in Ht2, Hy2.
    assert (Q : forall u u' : R, Some u = Some u' -> u = u') by congruence. apply Q in Ht2, Hy2. rewrite <- Ht2 in Hy2. rewrite Hy2, Mr by lra. lra.
  - rewrite Mr by lra. lra.
Qed.

(** The shipped transitions are apart, and so the statements about radii apply. *)
Example C92_radius_case : apart CFG0 /\ exists t d, mark_of (ejecta_bsed CFG0 1 1 false) "Complex crater" 100000 9010 t d.
Proof.
  assert (A : apart CFG0) by (unfold apart; cbn [CFG0 simple2complex complex2peakring]; lra). split; [exact A|].
  destruct (C92_series CFG0 1 1 false "Complex crater" 100000 9010 69990 A) as (s & S1 & S2 & S3 & _ & (t & d & S5) & _); [cbn; auto| |].
  { cbn [CFG0 simple2complex complex2peakring In]. right; left. do 2 f_equal; lra. }
  exists t, d, s. repeat split; auto. now apply nth_error_In in S5.
Qed.

Print Assumptions C92_axes.
Print Assumptions C92_labels.
Print Assumptions C92_speed.
Print Assumptions C92_thickness.
Print Assumptions C92_orientale.
Print Assumptions C92_energy.
Print Assumptions C92_depth_refuted.
Print Assumptions C92_depth_all_refuted.
Print Assumptions C92_depth.
Print Assumptions C92_bunte.
Print Assumptions C92_bunte_refuted.
Print Assumptions C92_radius.
Print Assumptions C92_radius_basin.
Print Assumptions C92_series.
Print Assumptions C92_units_refuted.
