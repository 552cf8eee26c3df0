(** Property C75: the gridded outputs. *)
From Coq Require Import String List ZArith Reals Lia Lra Bool Sorted.
From Flocq Require Import Core.
From Verif Require Import Base Model_Geo Model_Crater Model_Grid Spec_Geo Spec_Grid Proofs_Base Proofs_Geo Proofs_Crater Proofs_Grid Proofs_FP.
Import ListNotations.
Open Scope R_scope.

(** The axes, for sizes and step that the dtype can add exactly: y falls from [ysize] and x
    rises from [-xsize] by [step], without gap, repetition or rounding error, up to the first
    value at or beyond the other end. *)
Theorem C75_axes : forall rnd xsize ysize step, keeps_integers rnd ->
  (0 <= xsize)%Z -> (0 <= ysize)%Z -> (0 < step)%Z ->
  (2 * xsize + step <= 2 ^ 24)%Z -> (2 * ysize + step <= 2 ^ 24)%Z ->
  exists ys xs, get_grid_arrays rnd xsize ysize step = Ok (ys, xs) /\
    lists_integers Rgt (fun k => - ysize - step < k <= ysize /\ (step | ysize - k))%Z ys /\
    lists_integers Rlt (fun k => - xsize <= k < xsize + step /\ (step | k + xsize))%Z xs.
Proof.
  intros rnd xsize ysize step K X0 Y0 T0 XB YB.
  destruct (axis_down rnd ysize step K Y0 T0 YB) as (ys & Hy & Ly & _).
  destruct (axis_up rnd xsize step K X0 T0 XB) as (xs & Hx & Lx & _).
  exists ys, xs. unfold get_grid_arrays. rewrite Hy. cbn [bind]. rewrite Hx. auto.
Qed.

(** cfg.dtype is binary32 by default. *)
Theorem C75_float32 : keeps_integers rnd32.
Proof.
  intros z Hz. unfold rnd32. apply round_generic; [apply valid_rnd_N|].
  destruct (Z.eq_dec (Z.abs z) (2 ^ 24)) as [E|E].
  - assert (G : generic_format radix2 (FLT_exp (-149) 24) (bpow radix2 24)) by (apply generic_format_bpow; unfold FLT_exp; lia).
    change (bpow radix2 24) with (IZR (2 ^ 24)) in G.
    destruct (Z.abs_eq_or_opp z) as [Q|Q]; [replace z with (2 ^ 24)%Z by lia; exact G|].
    replace z with (- (2 ^ 24))%Z by lia. rewrite opp_IZR. apply generic_format_opp. exact G.
  - apply generic_format_FLT. exists (Float radix2 z 0); cbn [Fnum Fexp].
    + unfold F2R. cbn [Fnum Fexp bpow]. ring.
    + change (radix2 ^ 24)%Z with (2 ^ 24)%Z. lia.
    + lia.
Qed.

(** Grids whose step divides twice the size reach exactly from one end to the other. *)
Theorem C75_extent : forall rnd xsize ysize step ys xs, keeps_integers rnd ->
  (0 <= xsize)%Z -> (0 <= ysize)%Z -> (0 < step)%Z ->
  (2 * xsize + step <= 2 ^ 24)%Z -> (2 * ysize + step <= 2 ^ 24)%Z ->
  get_grid_arrays rnd xsize ysize step = Ok (ys, xs) ->
  (step | 2 * xsize)%Z -> (step | 2 * ysize)%Z ->
  In (IZR (- xsize)) xs /\ In (IZR xsize) xs /\ In (IZR (- ysize)) ys /\ In (IZR ysize) ys /\
  (forall v, In v xs -> IZR (- xsize) <= v <= IZR xsize) /\
  (forall v, In v ys -> IZR (- ysize) <= v <= IZR ysize) /\
  length xs = S (Z.to_nat (2 * xsize / step)) /\ length ys = S (Z.to_nat (2 * ysize / step)).
Proof.
  intros rnd xsize ysize step ys xs K X0 Y0 T0 XB YB G [p Hp] [q Hq].
  destruct (axis_down rnd ysize step K Y0 T0 YB) as (ys' & Hy & [_ Ly] & Ny).
  destruct (axis_up rnd xsize step K X0 T0 XB) as (xs' & Hx & [_ Lx] & Nx).
  unfold get_grid_arrays in G. rewrite Hy in G. cbn [bind] in G. rewrite Hx in G. cbn [bind] in G.
  assert (Inj : forall a b : list R * list R, Ok a = Ok b -> a = b) by congruence. apply Inj in G.
  assert (ys' = ys) by congruence. assert (xs' = xs) by congruence. clear G Inj. subst ys' xs'.
  split; [apply Lx; eexists; split; [reflexivity|]; split; [lia|exists 0%Z; lia]|].
  split; [apply Lx; eexists; split; [reflexivity|]; split; [lia|exists p; lia]|].
  split; [apply Ly; eexists; split; [reflexivity|]; split; [lia|exists q; lia]|].
  split; [apply Ly; eexists; split; [reflexivity|]; split; [lia|exists 0%Z; lia]|].
  split; [|split; [|split]].
  - intros v Hv. apply Lx in Hv as (k & -> & Hk & [r Hr]). assert (r < p + 1)%Z by nia. split; apply IZR_le; nia.
  - intros v Hv. apply Ly in Hv as (k & -> & Hk & [r Hr]). assert (r < q + 1)%Z by nia. split; apply IZR_le; nia.
  - rewrite Nx, Hp. rewrite Z.div_mul by lia. replace (- xsize - (xsize + step))%Z with ((- (p + 1)) * step)%Z by lia.
    rewrite Z.div_mul by lia. assert (0 <= p)%Z by nia. lia.
  - rewrite Ny, Hq. rewrite Z.div_mul by lia. replace (- ysize - (ysize + step))%Z with ((- (q + 1)) * step)%Z by lia.
    rewrite Z.div_mul by lia. assert (0 <= q)%Z by nia. lia.
Qed.

(** The documented extent (get_grid_arrays: x from -xsize to xsize) is left by every other
    grid. *)
Theorem C75_extent_refuted : forall rnd xsize ysize step ys xs, keeps_integers rnd ->
  (0 <= xsize)%Z -> (0 <= ysize)%Z -> (0 < step)%Z ->
  (2 * xsize + step <= 2 ^ 24)%Z -> (2 * ysize + step <= 2 ^ 24)%Z ->
  get_grid_arrays rnd xsize ysize step = Ok (ys, xs) ->
  (~ (step | 2 * xsize)%Z -> exists v, In v xs /\ IZR xsize < v) /\
  (~ (step | 2 * ysize)%Z -> exists v, In v ys /\ v < IZR (- ysize)).
Proof.
  intros rnd xsize ysize step ys xs K X0 Y0 T0 XB YB G.
  destruct (C75_axes rnd xsize ysize step K X0 Y0 T0 XB YB) as (ys' & xs' & G' & [_ Ly] & [_ Lx]).
  assert (Inj : forall a b : list R * list R, Ok a = Ok b -> a = b) by congruence. rewrite G' in G. apply Inj in G.
  assert (ys' = ys) by congruence. assert (xs' = xs) by congruence. clear G G' Inj. subst ys' xs'.
  assert (C : forall m, ~ (step | m)%Z -> (m < (m / step + 1) * step < m + step)%Z).
  { intros m N. pose proof (Z.mul_div_le m step T0). pose proof (Z.mul_succ_div_gt m step T0).
    assert (step * (m / step) <> m)%Z; [|lia]. intros Q. apply N. exists (m / step)%Z. lia. }
  split; intros N; apply C in N.
  - exists (IZR (- xsize + (2 * xsize / step + 1) * step)). split; [|apply IZR_lt; lia].
    apply Lx. eexists. split; [reflexivity|]. split; [lia|]. exists (2 * xsize / step + 1)%Z. ring.
  - exists (IZR (ysize - (2 * ysize / step + 1) * step)). split; [|apply IZR_lt; lia].
    apply Ly. eexists. split; [reflexivity|]. split; [lia|]. exists (2 * ysize / step + 1)%Z. ring.
Qed.

(** The default grid: 801 by 801 points, all on the sphere. *)
Theorem C75_default : exists ys xs, get_grid_arrays rnd32 400000 400000 1000 = Ok (ys, xs) /\
  N.of_nat (length ys) = 801%N /\ N.of_nat (length xs) = 801%N /\
  forall x y, In x xs -> In y ys -> x ^ 2 + y ^ 2 <= default_rp ^ 2.
Proof.
  destruct (C75_axes rnd32 400000 400000 1000 C75_float32) as (ys & xs & G & _); try lia.
  exists ys, xs. split; auto.
  destruct (C75_extent rnd32 400000 400000 1000 ys xs C75_float32) as (_ & _ & _ & _ & Bx & By & Lx & Ly); auto; try lia;
    try (exists 800%Z; reflexivity).
  split; [|split].
  - rewrite Ly. vm_compute. reflexivity.
  - rewrite Lx. vm_compute. reflexivity.
  - intros x y Hx Hy. apply Bx in Hx. apply By in Hy. change (- (400000))%Z with (-400000)%Z in *. unfold default_rp.
    assert (x ^ 2 <= 400000 ^ 2) by (apply pow_maj_Rabs, Rabs_le; lra).
    assert (y ^ 2 <= 400000 ^ 2) by (apply pow_maj_Rabs, Rabs_le; lra). lra.
Qed.

(** The outputs for craters numbered from 0, on a grid with as many columns as rows: one grid
    of thickness per crater, in the order of the table, rows along y.  A cell holds the
    thickness law at the great circle distance from the crater if this is from the rim to the
    threshold, and 0 otherwise and outside the sphere; cells strictly within the threshold
    are no older than the crater. *)
Theorem C75_outputs : forall c sort timestart ej_thr basin_thr xs ys sites,
  sorts_sites sort -> sites <> [] -> length xs = length ys ->
  exists ages thick,
    get_grid_outputs c sort timestart ej_thr basin_thr xs ys (numbered sites) = Ok (ages, thick) /\
    length thick = length sites /\
    (forall g, In g thick -> length g = length ys /\ forall row, In row g -> length row = length xs) /\
    forall k i j s x y,
      nth_error sites k = Some s -> nth_error ys i = Some y -> nth_error xs j = Some x ->
      let (lat, lon) := xy2latlon (rad_moon c) x y in
      let d := gc_dist default_rp (s_lon s) (s_lat s) lon lat in
      let thr := if s_basin s then basin_thr else ej_thr in
      let inside := x ^ 2 + y ^ 2 <= rad_moon c ^ 2 in
      exists t age arow, cell3 thick k i j t /\ nth_error ages i = Some arow /\ nth_error arow j = Some age /\
        (inside /\ s_rad s <= d <= thr * s_rad s -> t = get_ejecta_thickness c (Some d) (s_rad s)) /\
        (~ (inside /\ s_rad s <= d <= thr * s_rad s) -> t = 0) /\
        (inside /\ d < thr * s_rad s -> age <= s_age s).
Proof.
  intros c sort timestart ej_thr basin_thr xs ys sites Hsort N Sq.
  destruct (outputs_numbered c sort timestart ej_thr basin_thr xs ys sites N Sq) as (ages & Ha & Hg).
  eexists. eexists. split; [exact Hg|]. split; [rewrite map_length, combine_length, map_length; lia|]. split.
  - intros g Ig. apply in_map_iff in Ig as ([s m] & <- & I). apply in_combine_r in I. apply in_map_iff in I as (s' & <- & _).
    unfold dist_rows. rewrite !map_length. split; auto. intros row Ir. apply in_map_iff in Ir as (r & <- & Ir).
    apply in_map_iff in Ir as (y & <- & _). now rewrite !map_length.
  - intros k i j s x y Hs Hy Hx.
    destruct (dist_rows_cell (rad_moon c) ej_thr basin_thr xs ys s i j x y Hy Hx) as (row & Hr & Hd).
    assert (Hm : nth_error (map (dist_rows (rad_moon c) ej_thr basin_thr xs ys) sites) k = Some (dist_rows (rad_moon c) ej_thr basin_thr xs ys s))
      by (rewrite nth_error_map, Hs; reflexivity).
    pose proof (thick_cell c sites _ k i j s _ row _ Hs Hm Hr Hd) as T.
    assert (A : exists arow age, nth_error ages i = Some arow /\ nth_error arow j = Some age /\
      (x ^ 2 + y ^ 2 <= rad_moon c ^ 2 -> let (lat, lon) := xy2latlon (rad_moon c) x y in
        gc_dist default_rp (s_lon s) (s_lat s) lon lat < (if s_basin s then basin_thr else ej_thr) * s_rad s -> age <= s_age s)).
    { destruct (Rle_dec (x ^ 2 + y ^ 2) (rad_moon c ^ 2)) as [In0|Out].
      - destruct (age_grid_spec sort (rad_moon c) timestart ej_thr basin_thr xs ys sites ages i j x y Hsort Ha N In0 Hy Hx)
          as (arow & v & R1' & R2' & P). exists arow, v. split; auto. split; auto. intros _.
        destruct (xy2latlon (rad_moon c) x y) as [lat lon]. intros C. cbv zeta in P. rewrite Rmult_comm in C.
        destruct P as [[_ P]|(s0 & I0 & _ & -> & P)]; [exfalso; apply (P s); auto; eapply nth_error_In; eauto|].
        apply P; auto. eapply nth_error_In; eauto.
      - destruct (age_grid_outside sort (rad_moon c) timestart ej_thr basin_thr xs ys sites ages i j x y Ha N ltac:(lra) Hy Hx)
          as (arow & R1' & R2'). exists arow, timestart. split; auto. split; auto. intros; lra. }
    destruct A as (arow & age & A1 & A2 & A3).
    destruct (xy2latlon (rad_moon c) x y) as [lat lon]. cbv zeta.
    eexists. exists age, arow. split; [exact T|]. split; [exact A1|]. split; [exact A2|].
    rcase (rad_moon c ^ 2) (x ^ 2 + y ^ 2) E.
    + split; [intros [? _]; lra|]. split; [intros _; apply thick_nan|intros [? _]; lra].
    + pose proof (dist_cell_spec ej_thr basin_thr s lon lat) as D. cbv zeta in D.
      split; [|split].
      * intros [_ B]. destruct D as [[-> _]|[_ D]]; [reflexivity|contradiction].
      * intros B. destruct D as [[_ D]|[-> _]]; [exfalso; apply B; split; auto; lra|apply thick_nan].
      * intros [B1 B2]. auto.
Qed.

(** With the default lunar radius, the grid shows at the map position of a cold trap what
    the run lays down there, unless the distance is exactly the rim or the threshold or the
    crater is the cold trap itself. *)
Theorem C75_run_agrees : forall c sort timestart ej_thr basin_thr xs ys sites names m k n s dst i j row o,
  sorts_sites sort -> rad_moon c = default_rp -> length xs = length ys ->
  NoDup (map s_name sites) -> Forall (fun s => 0 <= s_rad s) sites ->
  (forall c, In c names -> exists dst, In dst sites /\ s_name dst = c) ->
  get_coldtrap_dists ej_thr basin_thr names sites = Ok m ->
  nth_error sites k = Some s -> In dst sites -> nth_error names n = Some (s_name dst) ->
  s_name s <> s_name dst ->
  -90 < s_plat dst <= 0 -> -180 < s_plon dst <= 180 ->
  (let (x, y) := latlon2xy default_rp (s_plat dst) (s_plon dst) in
   nth_error ys i = Some y /\ nth_error xs j = Some x) ->
  let thr := if s_basin s then basin_thr else ej_thr in
  let d := gc_dist default_rp (s_lon s) (s_lat s) (s_plon dst) (s_plat dst) in
  0 <= thr -> d <> s_rad s -> d <> thr * s_rad s ->
  nth_error m k = Some row -> nth_error row n = Some o ->
  exists ages thick,
    get_grid_outputs c sort timestart ej_thr basin_thr xs ys (numbered sites) = Ok (ages, thick) /\
    cell3 thick k i j (get_ejecta_thickness c o (s_rad s)).
Proof.
  intros c sort timestart ej_thr basin_thr xs ys sites names m k n s dst i j row o Hsort Rp Sq Nd Rs Nm Hm Hs Id Hn Ns La Lo XY thr d T0 D1 D2 Mk Ro.
  assert (Ne : sites <> []) by (intros ->; destruct k; discriminate).
  destruct (outputs_numbered c sort timestart ej_thr basin_thr xs ys sites Ne Sq) as (ages & Ha & Hg).
  eexists. eexists. split; [exact Hg|].
  pose proof (latlon_roundtrip default_rp (s_plat dst) (s_plon dst)) as RT.
  pose proof (eq_refl (latlon2xy default_rp (s_plat dst) (s_plon dst))) as Exy.
  destruct (latlon2xy default_rp (s_plat dst) (s_plon dst)) as [x y] eqn:Exy' in XY, RT. clear Exy. destruct XY as [Hy Hx].
  specialize (RT ltac:(unfold default_rp; lra) La Lo).
  assert (In0 : x ^ 2 + y ^ 2 <= default_rp ^ 2).
  { unfold latlon2xy in Exy'. cbv zeta in Exy'. injection Exy' as <- <-.
    set (a := deg2rad (s_plat dst)). set (b := deg2rad (s_plon dst)).
    replace ((default_rp * cos a * sin b) ^ 2 + (default_rp * cos a * cos b) ^ 2)
      with ((default_rp * cos a) ^ 2 * (sin b * sin b + cos b * cos b)) by ring.
    pose proof (sin2_cos2 b) as SC. unfold Rsqr in SC. rewrite SC, Rmult_1_r, Rpow_mult_distr.
    pose proof (COS_bound a). assert (cos a ^ 2 <= 1) by nra. unfold default_rp. nra. }
  assert (Hk : nth_error (map (dist_rows (rad_moon c) ej_thr basin_thr xs ys) sites) k = Some (dist_rows (rad_moon c) ej_thr basin_thr xs ys s))
    by (rewrite nth_error_map, Hs; reflexivity).
  destruct (dist_rows_cell (rad_moon c) ej_thr basin_thr xs ys s i j x y Hy Hx) as (r & Hr & Hd).
  replace o with (if Rltb (rad_moon c ^ 2) (x ^ 2 + y ^ 2) then None
      else let (lat, lon) := xy2latlon (rad_moon c) x y in dist_cell ej_thr basin_thr s lon lat).
  - exact (thick_cell c sites _ k i j s _ r _ Hs Hk Hr Hd).
  - rewrite Rp, RT. destruct (Rltb (default_rp ^ 2) (x ^ 2 + y ^ 2)) eqn:E; [apply Rltb_true in E; lra|].
    destruct (coldtrap_dists_spec ej_thr basin_thr names sites Nd Rs Nm) as (m' & Hm' & _ & P).
    assert (m' = m) by congruence. subst m'.
    specialize (P k n s dst Hs Id Hn). cbv zeta in P. fold d thr in P.
    destruct P as (row' & Hrow & _ & P1 & P2). assert (row' = row) by congruence. subst row'. rewrite Ro in P1, P2.
    pose proof (dist_cell_spec ej_thr basin_thr s (s_plon dst) (s_plat dst)) as D. cbv zeta in D. fold d thr in D.
    destruct D as [[-> B]|[-> B]].
    + destruct P2 as [_ P2]. symmetry. assert (Some o = Some (Some d)); [|congruence]. apply P2. split; auto. split; [lra|right; lra].
    + destruct P1 as [P1|P1]; [|congruence]. apply P2 in P1 as (_ & Q1 & [Q2|Q2]); [lra|]. exfalso. apply B. lra.
Qed.

(** A negative threshold means no limit for the run (C16), but no ejecta anywhere in the
    grid. *)
Theorem C75_no_limit_refuted : forall c sort timestart ej_thr basin_thr xs ys sites ages thick k i j t,
  ej_thr < 0 -> basin_thr < 0 -> sites <> [] -> length xs = length ys -> Forall (fun s => 0 < s_rad s) sites ->
  get_grid_outputs c sort timestart ej_thr basin_thr xs ys (numbered sites) = Ok (ages, thick) ->
  cell3 thick k i j t -> t = 0.
Proof.
  intros c sort timestart ej_thr basin_thr xs ys sites ages thick k i j t H1 H2 N Sq Rs H C.
  destruct (outputs_numbered c sort timestart ej_thr basin_thr xs ys sites N Sq) as (ages' & Ha & Hg). rewrite Hg in H.
  assert (Inj : forall a b : list (list R) * list (list (list R)), Ok a = Ok b -> a = b) by congruence. apply Inj in H.
  apply (f_equal snd) in H. cbn [snd] in H. subst thick.
  destruct C as (g & row & C1 & C2 & C3). apply nth_error_In in C1. apply in_map_iff in C1 as ([s m] & <- & I).
  pose proof (in_combine_l _ _ _ _ I) as Is. pose proof (in_combine_r _ _ _ _ I) as Im.
  apply in_map_iff in Im as (s' & <- & Is'). rewrite Forall_forall in Rs.
  apply nth_error_In in C2. apply in_map_iff in C2 as (r & <- & Ir). apply nth_error_In in C3. apply in_map_iff in C3 as (d & <- & Id).
  unfold dist_rows in Ir. apply in_map_iff in Ir as (y & <- & _). apply in_map_iff in Id as (x & <- & _).
  destruct (Rltb _ _); [apply thick_nan|]. destruct (xy2latlon _ x y) as [lat lon].
  destruct (dist_cell_spec ej_thr basin_thr s' lon lat) as [[_ D]|[-> _]]; [exfalso|apply thick_nan].
  pose proof (Rs s' Is'). destruct (s_basin s'); nra.
Qed.

(** Distances on the grid are not those on the configured Moon (cfg.rad_moon), but those of
    the same coordinates on a Moon of 1737.4 km. *)
Theorem C75_radius_refuted : forall rp ej_thr basin_thr xs ys s i j x y row d,
  0 < rp -> rp <> default_rp -> nth_error ys i = Some y -> nth_error xs j = Some x ->
  nth_error (dist_rows rp ej_thr basin_thr xs ys s) i = Some row -> nth_error row j = Some (Some d) -> 0 < d ->
  let (lat, lon) := xy2latlon rp x y in
  d = default_rp / rp * gc_dist rp (s_lon s) (s_lat s) lon lat /\ d <> gc_dist rp (s_lon s) (s_lat s) lon lat.
Proof.
  intros rp ej_thr basin_thr xs ys s i j x y row d R0' Rn Hy Hx Hr Hd D0.
  destruct (dist_rows_cell rp ej_thr basin_thr xs ys s i j x y Hy Hx) as (row' & Hr' & Hd').
  assert (row' = row) by congruence. subst row'. rewrite Hd' in Hd. clear Hd'. assert (Q : forall a b : option R, Some a = Some b -> a = b) by congruence.
  apply Q in Hd. destruct (Rltb _ _); [discriminate|]. destruct (xy2latlon rp x y) as [lat lon].
  destruct (dist_cell_spec ej_thr basin_thr s lon lat) as [[E _]|[E _]]; rewrite E in Hd; [|discriminate].
  assert (Ed : gc_dist default_rp (s_lon s) (s_lat s) lon lat = d) by congruence.
  assert (F : d = default_rp / rp * gc_dist rp (s_lon s) (s_lat s) lon lat).
  { rewrite <- Ed. unfold gc_dist. field. lra. }
  split; auto. intros G. rewrite <- G in F. assert (default_rp / rp = 1) by nra.
  apply Rn. replace default_rp with (default_rp / rp * rp) by (field; lra). rewrite H. ring.
Qed.

(** Documented for any sizes (results of shape (Ny, Nx)): a grid with more columns than rows
    or more rows than columns is an error. *)
Theorem C75_rectangular_refuted : forall c sort timestart ej_thr basin_thr rnd xsize ysize step ys xs sites,
  keeps_integers rnd -> (0 <= xsize)%Z -> (0 <= ysize)%Z -> (0 < step)%Z ->
  (2 * xsize + step <= 2 ^ 24)%Z -> (2 * ysize + step <= 2 ^ 24)%Z ->
  get_grid_arrays rnd xsize ysize step = Ok (ys, xs) ->
  (step | 2 * xsize)%Z -> (step | 2 * ysize)%Z -> xsize <> ysize -> sites <> [] ->
  get_grid_outputs c sort timestart ej_thr basin_thr xs ys (numbered sites) = Err ValueError.
Proof.
  intros c sort timestart ej_thr basin_thr rnd xsize ysize step ys xs sites K X0 Y0 T0 XB YB G Dx Dy Nq Ns.
  destruct (C75_extent rnd xsize ysize step ys xs K X0 Y0 T0 XB YB G Dx Dy) as (_ & _ & _ & _ & _ & _ & Lx & Ly).
  unfold get_grid_outputs. rewrite numbered_snd, age_grid_square; auto.
  rewrite Lx, Ly. destruct Dx as [p Hp], Dy as [q Hq]. rewrite Hp, Hq, !Z.div_mul by lia. intros Q.
  assert (0 <= p /\ 0 <= q)%Z by nia. assert (p = q) by lia. subst. lia.
Qed.

(** The loop takes the index label of a row as its position.  Rows labelled in another
    order, as after sorting, exchange distances: the thickness of each crater is computed
    with its own radius at the other's distances. *)
Theorem C75_labels_refuted : forall c sort timestart ej_thr basin_thr xs ys a b i j x y,
  length xs = length ys -> nth_error ys i = Some y -> nth_error xs j = Some x ->
  x ^ 2 + y ^ 2 <= rad_moon c ^ 2 ->
  exists ages thick,
    get_grid_outputs c sort timestart ej_thr basin_thr xs ys [(1%Z, a); (0%Z, b)] = Ok (ages, thick) /\
    let (lat, lon) := xy2latlon (rad_moon c) x y in
    cell3 thick 0 i j (get_ejecta_thickness c (dist_cell ej_thr basin_thr b lon lat) (s_rad a)) /\
    cell3 thick 1 i j (get_ejecta_thickness c (dist_cell ej_thr basin_thr a lon lat) (s_rad b)).
Proof.
  intros c sort timestart ej_thr basin_thr xs ys a b i j x y Sq Hy Hx In0.
  assert (H : get_gc_dist_grid (rad_moon c) ej_thr basin_thr xs ys [(1%Z, a); (0%Z, b)] =
    Ok [dist_rows (rad_moon c) ej_thr basin_thr xs ys b; dist_rows (rad_moon c) ej_thr basin_thr xs ys a]).
  { unfold get_gc_dist_grid. cbn [fold_left bind length]. rewrite !position_ok by lia. cbn [bind]. rewrite Sq, Nat.eqb_refl. reflexivity. }
  assert (exists ages, get_age_grid sort (rad_moon c) timestart ej_thr basin_thr xs ys [a; b] = Ok ages) as [ages Ha].
  { unfold get_age_grid. rewrite Sq, Nat.eqb_refl. eauto. }
  eexists. eexists. split.
  - unfold get_grid_outputs. cbn [map snd]. rewrite Ha. cbn [bind]. rewrite H. cbn [bind]. reflexivity.
  - destruct (dist_rows_cell (rad_moon c) ej_thr basin_thr xs ys a i j x y Hy Hx) as (ra & Ra & Da).
    destruct (dist_rows_cell (rad_moon c) ej_thr basin_thr xs ys b i j x y Hy Hx) as (rb & Rb & Db).
    destruct (Rltb (rad_moon c ^ 2) (x ^ 2 + y ^ 2)) eqn:E; [apply Rltb_true in E; lra|].
    destruct (xy2latlon (rad_moon c) x y) as [lat lon].
    set (DD := [dist_rows (rad_moon c) ej_thr basin_thr xs ys b; dist_rows (rad_moon c) ej_thr basin_thr xs ys a]). split.
    + exact (thick_cell c [a; b] DD 0 i j a _ rb _ eq_refl eq_refl Rb Db).
    + exact (thick_cell c [a; b] DD 1 i j b _ ra _ eq_refl eq_refl Ra Da).
Qed.

(** A label beyond the number of rows, as after dropping rows, is an error. *)
Theorem C75_label_range : forall c sort timestart ej_thr basin_thr xs ys df i s,
  length xs = length ys -> In (i, s) df -> (Z.of_nat (length df) <= i)%Z ->
  get_grid_outputs c sort timestart ej_thr basin_thr xs ys df = Err IndexError.
Proof.
  intros c sort timestart ej_thr basin_thr xs ys df i s Sq I B. unfold get_grid_outputs.
  assert (exists ages, get_age_grid sort (rad_moon c) timestart ej_thr basin_thr xs ys (map snd df) = Ok ages) as [ages ->].
  { unfold get_age_grid. destruct (map snd df); [eauto|]. rewrite Sq, Nat.eqb_refl. eauto. }
  cbn [bind]. rewrite (dist_grid_label _ _ _ _ _ df i s Sq I B). reflexivity.
Qed.

(** A 10 km crater and a 40 km one, both at the pole, on the 3 by 3 grid of 10 km: 10 km
    from the pole there is ejecta of the first (rim at 5 km, threshold at 20 km), and the
    inside of the second.  Numbered in order the first has ejecta there, relabelled none. *)
Definition case_a : site := mk_site "a" 0 (-90) 0 (-90) 5000 3000 false.
Definition case_b : site := mk_site "b" 0 (-90) 0 (-90) 20001 2000 false.
Example C75_case : exists ages thick ages' thick' t,
  get_grid_outputs CFG0 isort_site 4250 4 5 [-10000; 0; 10000] [10000; 0; -10000] [(0%Z, case_a); (1%Z, case_b)] = Ok (ages, thick) /\
  get_grid_outputs CFG0 isort_site 4250 4 5 [-10000; 0; 10000] [10000; 0; -10000] [(1%Z, case_a); (0%Z, case_b)] = Ok (ages', thick') /\
  0 < t /\ cell3 thick 0 0 1 t /\ cell3 thick' 0 0 1 0.
Proof.
  assert (D := polar_dist default_rp 10000 ltac:(unfold default_rp; lra) ltac:(lra) ltac:(unfold default_rp; lra)).
  destruct (C75_outputs CFG0 isort_site 4250 4 5 [-10000; 0; 10000] [10000; 0; -10000] [case_a; case_b] isort_site_ok) as (ages & thick & H & _ & _ & P);
    [discriminate|reflexivity|].
  destruct (C75_labels_refuted CFG0 isort_site 4250 4 5 [-10000; 0; 10000] [10000; 0; -10000] case_a case_b 0 1 0 10000) as (ages' & thick' & H' & P');
    [reflexivity|reflexivity|reflexivity|cbn [rad_moon CFG0]; lra|].
  specialize (P 0%nat 0%nat 1%nat case_a 0 10000 eq_refl eq_refl eq_refl).
  change (rad_moon CFG0) with default_rp in P, P'.
  destruct (xy2latlon default_rp 0 10000) as [lat lon]. cbv zeta in P. cbn [case_a s_lon s_lat s_basin s_rad] in P.
  destruct P as (t & _ & _ & C & _ & _ & T & _).
  exists ages, thick, ages', thick', t. split; [exact H|]. split; [exact H'|].
  assert (I : 0 ^ 2 + 10000 ^ 2 <= default_rp ^ 2) by (unfold default_rp; lra).
  split; [|split; auto].
  - rewrite T by (split; [exact I|lra]). apply (thick_law CFG0); [cbn; lra|split; cbn; lra|lra].
  - destruct P' as [P' _]. replace (dist_cell 4 5 case_b lon lat) with (@None R) in P'.
    + rewrite thick_nan in P'. exact P'.
    + destruct (dist_cell_spec 4 5 case_b lon lat) as [[_ Q]|[Q _]]; [exfalso|auto]. cbn [case_b s_lon s_lat s_basin s_rad] in Q. lra.
Qed.

(** A step that does not divide: 10 m each way by 3 m ends at 11. *)
Example C75_case_step : ~ (3 | 2 * 10)%Z /\ (0 <= 10)%Z /\ (2 * 10 + 3 <= 2 ^ 24)%Z.
Proof. split; [intros [k Hk]; lia|lia]. Qed.

(** A cold trap half a degree from the pole, at a point of the grid, under the ejecta of the
    crater at the pole. *)
Definition case_t : site := mk_site "t" 0 (-895 / 10) 0 (-895 / 10) 3000 4000 false.
Example C75_case_run : exists ages thick t, let (x, y) := latlon2xy default_rp (-895 / 10) 0 in
  get_grid_outputs CFG0 isort_site 4250 4 5 [x] [y] (numbered [case_a; case_t]) = Ok (ages, thick) /\
  cell3 thick 0 0 0 t /\ 0 < t.
Proof.
  assert (D : gc_dist default_rp 0 (-90) 0 (-895 / 10) = default_rp * (PI / 360)).
  { pose proof PI_RGT_0. symmetry. apply gc_dist_unique; [unfold default_rp; lra|unfold default_rp; lra|].
    replace (default_rp * (PI / 360) / default_rp) with (PI / 360) by (unfold default_rp; field).
    unfold pos, dot. replace (-90 * PI / 180) with (- (PI / 2)) by field. rewrite cos_neg, cos_PI2, sin_neg, sin_PI2.
    replace (-895 / 10 * PI / 180) with (- (PI / 2 - PI / 360)) by field. rewrite sin_neg, sin_shift. ring. }
  pose proof PI2_3_2. pose proof PI_4.
  destruct (latlon2xy default_rp (-895 / 10) 0) as [x y] eqn:E.
  assert (Nd : NoDup (map s_name [case_a; case_t])) by (repeat constructor; cbn; intuition discriminate).
  assert (Rs : Forall (fun s => 0 <= s_rad s) [case_a; case_t]) by (repeat constructor; cbn; lra).
  assert (Nm : forall c, In c ["t"%string] -> exists dst, In dst [case_a; case_t] /\ s_name dst = c)
    by (intros c [<-|[]]; exists case_t; cbn; auto).
  destruct (coldtrap_dists_spec 4 5 ["t"%string] [case_a; case_t] Nd Rs Nm) as (m & Hm & _ & P).
  destruct (P 0%nat 0%nat case_a case_t eq_refl ltac:(cbn; auto) eq_refl) as (row & Hr & _ & _ & P2).
  cbn [case_a case_t s_lon s_lat s_plon s_plat s_rad s_basin s_name] in P2. rewrite D in P2.
  assert (Ho : nth_error row 0 = Some (Some (default_rp * (PI / 360)))).
  { apply P2. split; [discriminate|]. unfold default_rp. split; [lra|right; lra]. }
  destruct (C75_run_agrees CFG0 isort_site 4250 4 5 [x] [y] [case_a; case_t] ["t"%string] m 0 0 case_a case_t 0 0 row
    (Some (default_rp * (PI / 360))) isort_site_ok eq_refl eq_refl Nd Rs Nm Hm eq_refl ltac:(cbn; auto) eq_refl) as (ages & thick & Hg & C);
    try (cbn [case_a case_t s_lon s_lat s_plon s_plat s_rad s_basin s_name]; rewrite ?D; try (unfold default_rp; lra)); auto.
  - discriminate.
  - cbn [case_a case_t s_plon s_plat]. rewrite E. auto.
  - exists ages, thick, (get_ejecta_thickness CFG0 (Some (default_rp * (PI / 360))) (s_rad case_a)).
    split; [exact Hg|]. split; [exact C|]. apply (thick_law CFG0); [cbn; lra|split; cbn; lra|unfold default_rp; lra].
Qed.

Print Assumptions C75_axes.
Print Assumptions C75_float32.
Print Assumptions C75_extent.
Print Assumptions C75_extent_refuted.
Print Assumptions C75_default.
Print Assumptions C75_outputs.
Print Assumptions C75_run_agrees.
Print Assumptions C75_no_limit_refuted.
Print Assumptions C75_radius_refuted.
Print Assumptions C75_rectangular_refuted.
Print Assumptions C75_labels_refuted.
Print Assumptions C75_label_range.
