(** Properties of the figures of collected runs. *)
From Coq Require QArith.QArith_base.
From Coq Require Import ZArith Bool Ascii String List Arith Permutation Sorted Reals Lra Lia.
From Verif Require Import Base Model_Time Model_Ice Model_Path Model_Cfg Model_Strat Model_Plot Model_Figure Model_Save Model_Files Model_Cmd Model_Collect Model_Module Model_Shown
  Spec_Csv Spec_Save Spec_Plot Spec_Run Spec_Outputs Spec_Files Spec_Cmd Spec_Collect Spec_Shown
  Proofs_Base Proofs_Time Proofs_Path Proofs_Cmap Proofs_Agg Proofs_Files Proofs_Cmd Proofs_Collect Proofs_Day Proofs_Shown Props_Cfg Props_Files Props_Cmd Props_Collect.
Import ListNotations.
Open Scope R_scope.
Open Scope list_scope.

(** ** C88: figures of collected runs *)

(** A figure is saved in the directory that was asked for; the version is in the path; the
    name is the one that was asked for, or, if the version was not in the path, this name with
    the version before its ending. *)
Theorem C88_saved : forall figdir fsave version root dir x, asked figdir fsave root dir x ->
  exists y, figure_file figdir fsave version = Ok (Some (mk_ppath root (dir ++ [y]))) /\
    occurs version (as_posix (mk_ppath root (dir ++ [y]))) /\
    ((occurs version (as_posix (mk_ppath root (dir ++ [x]))) /\ y = x) \/
     (~ occurs version (as_posix (mk_ppath root (dir ++ [x]))) /\
      exists b e, ends_in x b e /\ y = (b ++ "_" ++ version ++ e)%string)).
Proof. exact figure_saved. Qed.

(** Saving a figure under the path that was printed writes the same file. *)
Theorem C88_saved_again : forall figdir fsave version p, starts_slash figdir = true -> ~ occurs "/" version ->
  figure_file figdir fsave version = Ok (Some p) -> figure_file figdir (as_posix p) version = Ok (Some p).
Proof.
  intros figdir fsave version p S V. apply figure_again; [exact S|]. destruct (noslash version) eqn:E; [reflexivity|]. elim V. clear -E.
  induction version as [|c n IH]; cbn in E; [discriminate|]. destruct (Ascii.eqb_spec c slash) as [->|N].
  - exists EmptyString, n. reflexivity.
  - cbn in E. destruct (IH E) as (a & b & ->). exists (String c a), b. reflexivity.
Qed.

(** Two versions that are not in the path give two files. *)
Theorem C88_versions : forall figdir fsave v1 v2 root dir x p1 p2, asked figdir fsave root dir x -> v1 <> v2 ->
  ~ occurs v1 (as_posix (mk_ppath root (dir ++ [x]))) -> ~ occurs v2 (as_posix (mk_ppath root (dir ++ [x]))) ->
  figure_file figdir fsave v1 = Ok (Some p1) -> figure_file figdir fsave v2 = Ok (Some p2) -> p1 <> p2.
Proof.
  intros figdir fsave v1 v2 root dir x p1 p2 A N O1 O2 E1 E2 ->. unfold figure_file in *. rewrite (asked_under _ _ _ _ _ A) in *. cbn [parts rooted] in *.
  destruct (String.eqb fsave ""); [discriminate|].
  destruct (contains v1 _) eqn:C1; [apply contains_occurs in C1; contradiction|]. destruct (contains v2 _) eqn:C2; [apply contains_occurs in C2; contradiction|].
  rewrite rev_app_distr in *. cbn [rev app] in *. destruct (split_name x) as [b e].
  assert (I : forall a b : ppath, Ok (Some a) = Ok (Some b) -> a = b) by congruence. rewrite <- E2 in E1. apply I in E1. injection E1 as E1.
  apply app_inj_tail in E1 as [_ E1]. apply app_inj_l in E1. cbn [append] in E1. injection E1 as E1. apply N. eapply string_app_inj. exact E1.
Qed.

(** Two versions always give two files: false.  A version is taken to be in the path if it is
    the start of another version there, and the figure of the other version is overwritten. *)
Theorem C88_versions_refuted : exists figdir fsave v1 v2 p, v1 <> v2 /\
  figure_file figdir fsave v1 = Ok (Some p) /\ figure_file figdir fsave v2 = Ok (Some p) /\
  as_posix p = "/figs/230202_v1.1.10/bsed_violin.pdf"%string.
Proof.
  exists "/figs/230202_v1.1.10"%string, "bsed_violin.pdf"%string, "v1.1.1"%string, "v1.1.10"%string. eexists. split; [discriminate|]. split; [vm_compute; reflexivity|].
  split; vm_compute; reflexivity.
Qed.

(** If no day is given, one with collected runs is taken if there is one; if the operating
    system lists directories in the order of their names, it is the last day. *)
Theorem C88_guess : forall L s data_path out, out_of data_path = Ok out -> lists L s out ->
  (forall d, get_datedir L s data_path = Ok d -> exists x, d = out ++ [x] /\ dirs s d = true /\ Model_Save.exists_ s (d ++ ["layers.csv"%string]) = true /\
     (StronglySorted (fun a b => String.leb a b = true) (children L out) ->
      forall y, dirs s (out ++ [y]) = true -> Model_Save.exists_ s (out ++ [y; "layers.csv"%string]) = true -> String.leb y x = true)) /\
  ((exists d, get_datedir L s data_path = Ok d) <->
   dirs s out = true /\ exists x, dirs s (out ++ [x]) = true /\ Model_Save.exists_ s (out ++ [x; "layers.csv"%string]) = true).
Proof.
  intros L s dp out O ((N & Ch) & _). unfold get_datedir. rewrite O. cbn [bind]. destruct (dirs s out) eqn:Do; [|split; [discriminate|split; [intros (d & X); discriminate|intros [X _]; discriminate]]].
  set (ok := fun x => Model_Save.exists_ s (out ++ [x; "layers.csv"%string])). set (subs := filter (fun x => dirs s (out ++ [x])) (children L out)).
  assert (Sub : forall x, In x subs <-> dirs s (out ++ [x]) = true).
  { intros x. unfold subs. rewrite filter_In, Ch. unfold Model_Save.exists_. split; [tauto|]. intros ->. auto. }
  destruct (find ok (rev subs)) as [x|] eqn:F.
  - pose proof (find_some _ _ F) as [I K]. apply in_rev, Sub in I. split.
    + intros d E. assert (d = out ++ [x]) by congruence. subst d. exists x. split; [reflexivity|]. split; [exact I|]. split; [rewrite <- app_assoc; exact K|].
      intros So y Dy Ly. assert (So' : StronglySorted (fun a b => String.leb a b = true) subs).
      { unfold subs. clear -So. induction So as [|a l So IH Fa]; [constructor|]. cbn [filter]. destruct (dirs s (out ++ [a])); [|exact IH]. constructor; [exact IH|].
        apply Forall_forall. intros b J. apply filter_In in J as [J _]. rewrite Forall_forall in Fa. auto. }
      apply Sub in Dy. clear -F So' Dy Ly ok. revert F. rewrite <- (rev_involutive subs) in So', Dy. apply in_rev in Dy. revert So' Dy. generalize (rev subs). intros l So Dy F.
      induction l as [|a l IH]; [destruct Dy|]. cbn [rev] in So. cbn [find] in F. destruct (ok a) eqn:Ka.
      * injection F as <-. destruct Dy as [->|Dy]; [destruct (String.leb_total y y) as [Z|Z]; exact Z|].
        clear -So Dy. apply in_rev in Dy. induction (rev l) as [|z m IHm]; [destruct Dy|]. cbn [app] in So. apply StronglySorted_inv in So as [So Fz]. destruct Dy as [->|Dy]; [|now apply IHm].
           rewrite Forall_forall in Fz. apply Fz. apply in_or_app. right. now left.
      * destruct Dy as [->|Dy]; [unfold ok in Ka; congruence|]. apply IH; [|exact Dy|exact F]. clear -So. induction (rev l) as [|z m IHm]; [constructor|]. cbn [app] in So.
        apply StronglySorted_inv in So as [So Fz]. constructor; [now apply IHm|]. apply Forall_app in Fz. apply Fz.
    + split; [|eauto]. intros _. split; [reflexivity|]. exists x. auto.
  - split; [discriminate|]. split; [intros (d & X); discriminate|]. intros (_ & x & Dx & Lx). apply Sub in Dx. apply in_rev in Dx. pose proof (find_none _ _ F _ Dx) as X. unfold ok in X. congruence.
Qed.

(** The layers and the boxes are then those of that day. *)
Theorem C88_guessed : forall parse L s cwd data_path d t coldtraps run_names rename corder sdepths,
  get_datedir L s data_path = Ok d -> t <> ""%string -> path_parts (abspath cwd t) = d ->
  kde_layers parse L s cwd data_path "" coldtraps run_names rename = kde_layers parse L s cwd data_path t coldtraps run_names rename /\
  surface_boxplot parse L s cwd data_path "" corder sdepths = surface_boxplot parse L s cwd data_path t corder sdepths.
Proof.
  intros parse L s cwd dp d t cts rn nn co sd G N P. unfold kde_layers, surface_boxplot, load_aggregated. rewrite G. destruct t as [|a t]; [now elim N|]. rewrite P. split; reflexivity.
Qed.

(** Each half of a violin holds a number for each run of that name with 1 m of ice or more in
    the cold trap: the logarithm of its ice, which is not negative. *)
Theorem C88_violin : forall parse back coldtraps day tmp s s' found L cwd data_path known datedir corder run_names rename,
  collected parse back coldtraps day tmp s s' found -> path_parts (abspath cwd datedir) = day ->
  renames run_names rename -> (forall c, In c corder -> In c known) ->
  exists violins n, compare_violin parse L s' cwd data_path known datedir corder run_names rename = Ok (violins, n) /\
    map fst violins = corder /\
    forall c halves, In (c, halves) violins -> map fst halves = rev rename /\
      forall x name values, In (x, name) (combine run_names rename) -> In (name, values) halves ->
        Permutation values (map (fun e => log10 (ice_in back e)) (filter (fun e => of_run c x e && Rleb 1 (ice_in back e)) found)) /\
        Forall (fun v => 0 <= v) values.
Proof.
  intros parse back cts day tmp s s' found L cwd dp known dd corder rn nn C P Rn K.
  destruct (collected_read _ _ _ _ _ _ _ _ C) as (lay & tot & n & Rd & P1 & _ & F & _).
  unfold compare_violin, load_aggregated. cbn [bind]. rewrite P, Rd.
  assert (Kn : forallb (fun c => existsb (String.eqb c) known) corder = true) by (apply forallb_forall; intros c I; apply existsb_str; auto). rewrite Kn. cbn [bind].
  eexists _, _. split; [reflexivity|]. split; [rewrite map_map; apply map_id|].
  intros c halves I. apply in_map_iff in I as (c' & E & Ic). injection E as -> <-. split; [rewrite map_map; apply map_id|].
  intros x name values Ix I. apply in_map_iff in I as (h & E & _). injection E as -> <-.
  assert (V : forall t a b st, log_ice (mk_flat t a st) = log_ice (mk_flat t b st)) by reflexivity.
  rewrite (group_renamed log_ice tot rn nn c x name V Rn Ix).
  assert (Q : Permutation (group log_ice tot c x) (map (fun e => log10 (ice_in back e)) (filter (fun e => of_run c x e && Rleb 1 (ice_in back e)) found))) by (apply violin_group; [exact F|exact P1]).
  split; [exact Q|]. eapply Permutation_Forall; [symmetry; exact Q|]. apply Forall_forall. intros v J. apply in_map_iff in J as (e & <- & J). apply filter_In in J as [_ J].
  apply andb_prop in J as [_ J]. apply Rleb_true in J. now apply log10_nonneg.
Qed.

(** The panel of a cold trap shows each layer with more than 5 cm of ice that is deeper than 5
    cm, rounded to 10 cm, with its top between 10 cm and its depth; of more than 1000 layers
    it shows each 300th. *)
Theorem C88_layers : forall parse back coldtraps day tmp s s' found L cwd data_path datedir shown_traps run_names rename,
  collected parse back coldtraps day tmp s s' found -> datedir <> ""%string -> path_parts (abspath cwd datedir) = day ->
  renames run_names rename ->
  exists panels, kde_layers parse L s' cwd data_path datedir shown_traps run_names rename = Ok panels /\ map fst panels = shown_traps /\
    forall c rows, In (c, rows) panels -> exists ls all,
      Permutation ls (layers_of back found c run_names rename) /\
      Forall2 (fun nl k => shows back c (fst nl) (snd nl) k) ls all /\
      Forall (fun k => 1 / 10 <= kd_top k <= kd_depth k) all /\
      ((Z.of_nat (length all) <= 1000)%Z -> rows = all) /\
      ((1000 < Z.of_nat (length all))%Z -> forall i, nth_error rows i = nth_error all (300 * i)).
Proof.
  intros parse back cts day tmp s s' found L cwd dp dd shown rn nn C N P Rn.
  destruct (collected_read _ _ _ _ _ _ _ _ C) as (lay & tot & n & Rd & _ & P2 & _).
  unfold kde_layers, load_aggregated. destruct dd as [|a dd]; [now elim N|]. cbn [bind]. rewrite P, Rd. cbn [bind].
  eexists. split; [reflexivity|]. split; [rewrite map_map; apply map_id|].
  intros c rows I. apply in_map_iff in I as (c' & E & _).
  set (df := filter (fun r => String.eqb (kd_trap r) c') (flat_map clean_layer (rename_runs lay rn nn))) in *.
  assert (Ec : c' = c) by congruence. subst c'. assert (Er : rows = if (1000 <? N.of_nat (length df))%N then every 300 0 df else df) by congruence. clear E.
  destruct (Permutation_map_inv _ _ (kde_rows back found c rn nn lay Rn P2)) as (ls & El & Pl). fold df in El. exists ls, df. split; [now symmetry|].
  assert (Sh : Forall2 (fun nl k => shows back c (fst nl) (snd nl) k) ls df).
  { rewrite El. assert (T : forall nl, In nl ls -> thick_enough back (snd nl) = true) by (intros nl J; apply (layers_thick back found c rn nn); eapply Permutation_in; [symmetry; exact Pl|exact J]).
    clear -T. induction ls as [|nl ls IH]; [constructor|]. cbn [map]. constructor; [apply kde_shows; apply T; now left|]. apply IH. intros; apply T; now right. }
  split; [exact Sh|]. split.
  { clear -Sh. induction Sh as [|nl k ls df (_ & _ & _ & _ & I & D & Et) Sh IH]; [constructor|]. constructor; [|exact IH]. rewrite Et. split; [apply Rmax_l|]. apply Rmax_lub; lra. }
  rewrite Er. split; intros Len.
  - destruct (N.ltb_spec 1000 (N.of_nat (length df))); [lia|reflexivity].
  - destruct (N.ltb_spec 1000 (N.of_nat (length df))); [|lia]. intros i. rewrite every_nth by lia. reflexivity.
Qed.

(** The box of a cold trap holds the ice above a depth in each run that is named "moonpies";
    the part of these with more ice than a threshold is between 0 and 1. *)
Theorem C88_boxes : forall parse back coldtraps day tmp s s' found L cwd data_path datedir corder ks,
  collected parse back coldtraps day tmp s s' found -> datedir <> ""%string -> path_parts (abspath cwd datedir) = day ->
  found <> [] -> ks <> [] -> Forall (fun k => (k < 5)%nat) ks ->
  exists panels n, surface_boxplot parse L s' cwd data_path datedir corder (map depth_at ks) = Ok (panels, n) /\
    Forall2 (fun k pa =>
      map fst (pa_boxes pa) = corder /\ (forall c values, In (c, values) (pa_boxes pa) -> Permutation values (surface_ice back found k c)) /\
      NoDup (map fst (pa_over pa)) /\ (forall c, In c (map fst (pa_over pa)) <-> surface_ice back found k c <> []) /\
      (forall c f, In (c, f) (pa_over pa) ->
         f = more_than (if (depth_at k =? 6)%N then 3 / 10 else 5) (surface_ice back found k c) / INR (length (surface_ice back found k c)) /\ 0 <= f <= 1)) ks panels.
Proof.
  intros parse back cts day tmp s s' found L cwd dp dd corder ks C N P Nf Nk Hk.
  destruct (collected_read _ _ _ _ _ _ _ _ C) as (lay & tot & n & Rd & P1 & _ & F & _).
  rewrite (surface_form parse L s' cwd dp dd corder (map depth_at ks) lay tot n); [| |destruct ks; [now elim Nk|discriminate]|].
  2: { unfold load_aggregated. destruct dd as [|a dd]; [now elim N|]. cbn [bind]. now rewrite P. }
  2: { intros d I. apply in_map_iff in I as (k & <- & I). rewrite Forall_forall in Hk. exact (key_exists back found tot k F P1 Nf (Hk k I)). }
  eexists _, _. split; [reflexivity|]. clear Nk. induction Hk as [|k ks K F2 IH]; [constructor|]. cbn [map]. constructor; [|exact IH]. clear IH F2 ks.
  set (ice := surface_ice back found k). unfold panel_of. cbn [pa_boxes pa_over].
  set (kept := filter (fun r => String.eqb (fl_run r) "moonpies") tot).
  assert (Ok1 : forall c, filter (fun r => String.eqb (fl_trap r) c && String.eqb (fl_run r) "moonpies") tot = filter (fun r => String.eqb (fl_trap r) c) kept) by (intros c; symmetry; apply filter_filter).
  assert (Bx : forall c, Permutation (vals_of tot (depth_at k) c) (ice c)).
  { intros c. exact (box_values back found tot k c F P1 K). }
  assert (Nb : forall c, length (filter (fun r => String.eqb (fl_trap r) c) kept) = length (ice c)).
  { intros c. rewrite <- Ok1. unfold ice, surface_ice. rewrite map_length. now apply (box_rows back). }
  split; [rewrite map_map; apply map_id|]. split.
  { intros c values I. apply in_map_iff in I as (c' & E & _). injection E as -> <-. apply Bx. }
  rewrite map_map, map_id. split; [apply unique_nodup|]. split.
  { intros c. rewrite unique_in. split.
    - intros I Z. apply in_map_iff in I as (r & <- & I). assert (J : In r (filter (fun r0 => String.eqb (fl_trap r0) (fl_trap r)) kept)) by (apply filter_In; split; [exact I|apply String.eqb_refl]).
      pose proof (Nb (fl_trap r)) as X. rewrite Z in X. apply length_zero_iff_nil in X. rewrite X in J. destruct J.
    - intros Z. pose proof (Nb c) as X. destruct (filter (fun r => String.eqb (fl_trap r) c) kept) as [|r l] eqn:Fr; [destruct (ice c); [now elim Z|discriminate]|].
      assert (J : In r (filter (fun r => String.eqb (fl_trap r) c) kept)) by (rewrite Fr; now left). apply filter_In in J as [J Q]. apply String.eqb_eq in Q. apply in_map_iff. exists r. auto. }
  intros c f I. apply in_map_iff in I as (c' & E & Ic). injection E as -> Ef. rewrite Ok1, Nb in Ef. rewrite (filter_len_perm _ _ _ (Bx c)) in Ef.
  split; [symmetry; exact Ef|]. rewrite <- Ef. assert (Len : (length (filter (fun x => Rltb (if (depth_at k =? 6)%N then 3 / 10 else 5) x) (ice c)) <= length (ice c))%nat) by apply filter_length_le'.
  assert (Pn : (0 < length (ice c))%nat). { rewrite <- Nb. apply unique_in, in_map_iff in Ic as (r & <- & Ic). assert (J : In r (filter (fun r0 => String.eqb (fl_trap r0) (fl_trap r)) kept)) by (apply filter_In; split; [exact Ic|apply String.eqb_refl]). destruct (filter (fun r0 => String.eqb (fl_trap r0) (fl_trap r)) kept) as [|z l] eqn:Fz; [destruct J|cbn [length]; lia]. }
  apply lt_INR in Pn. apply le_INR in Len. pose proof (pos_INR (length (filter (fun x => Rltb (if (depth_at k =? 6)%N then 3 / 10 else 5) x) (ice c)))). cbn [INR] in Pn.
  split; [apply Rmult_le_pos; [assumption|left; now apply Rinv_0_lt_compat]|]. apply (Rmult_le_reg_r (INR (length (ice c)))); [exact Pn|]. unfold Rdiv. rewrite Rmult_assoc, Rinv_l by lra. lra.
Qed.

(** The ice above a depth, if no layer holds more ice than it is thick. *)
Theorem C88_above : forall k table, formed table -> holds_ice table -> (k < 5)%nat ->
  ice_above k table = Rsum (map (ice_of_layer_above (nth k [1; 3; 6; 10; 100] 0)) table).
Proof.
  intros k t F H K. destruct (C86_totals t F) as (tot & m & am & Q & _ & _ & _ & _ & A). unfold ice_above. rewrite Q. cbn [snd]. rewrite (A H).
  destruct k as [|[|[|[|[|]]]]]; try lia; reflexivity.
Qed.

(** The marks at 6 m: three quarters of the runs have no more ice in Faustini than the first
    mark, and a quarter no less; for the second mark it is 95 and 5 %. *)
Theorem C88_marks : forall parse back coldtraps day tmp s s' found L cwd data_path datedir corder,
  collected parse back coldtraps day tmp s s' found -> datedir <> ""%string -> path_parts (abspath cwd datedir) = day ->
  let ice := surface_ice back found 2 "Faustini" in ice <> [] ->
  exists pa n v w, surface_boxplot parse L s' cwd data_path datedir corder [6%N] = Ok ([pa], n) /\
    pa_marks pa = [("p75", Some v); ("p99", Some w)]%string /\
    75 / 100 * (INR (length ice) - 1) < at_most v ice /\ 25 / 100 * (INR (length ice) - 1) <= at_least v ice /\
    95 / 100 * (INR (length ice) - 1) < at_most w ice /\ 5 / 100 * (INR (length ice) - 1) <= at_least w ice.
Proof.
  intros parse back cts day tmp s s' found L cwd dp dd corder C N P ice Ni.
  destruct (collected_read _ _ _ _ _ _ _ _ C) as (lay & tot & n & Rd & P1 & _ & F & _).
  assert (Nf : found <> []) by (intros ->; now apply Ni). assert (K : (2 < 5)%nat) by lia.
  rewrite (surface_form parse L s' cwd dp dd corder [6%N] lay tot n); [| |discriminate|].
  2: { unfold load_aggregated. destruct dd as [|a dd]; [now elim N|]. cbn [bind]. now rewrite P. }
  2: { intros d [<-|[]]. exact (key_exists back found tot 2 F P1 Nf K). }
  pose proof (box_values back found tot 2 "Faustini" F P1 K) as Bx. change (Permutation (vals_of tot 6 "Faustini") ice) in Bx.
  assert (Nv : vals_of tot 6 "Faustini" <> []) by (intros Z; rewrite Z in Bx; apply Permutation_nil in Bx; contradiction).
  destruct (quantile_ok (75 / 100) _ ltac:(lra) Nv) as (v & Qv & _ & V1 & V2). destruct (quantile_ok (95 / 100) _ ltac:(lra) Nv) as (w & Qw & _ & W1 & W2).
  cbn [map]. eexists _, n, v, w. split; [reflexivity|]. unfold panel_of. cbn [pa_marks]. change (6 =? 6)%N with true. cbn iota. rewrite Qv, Qw. split; [reflexivity|].
  unfold at_most, at_least in *. rewrite (Permutation_length Bx) in *. rewrite !(filter_len_perm _ _ _ Bx) in *. lra.
Qed.

(** From the commands of a day to its boxes: each box holds one number for each seed, from
    the table that this seed gives on any disk; the number of runs is the number of seeds. *)
Theorem C88_campaign : forall P l s E0 zs parse back, lawful P -> l <> [] ->
  (forall E argv, In (E, argv) l -> ready E s /\ same_place E0 E /\ date_now E = date_now E0 /\ exists resume z, asks E argv resume z) ->
  NoDup zs -> (forall z, In z zs <-> exists E argv resume, In (E, argv) l /\ asks E argv resume z) ->
  (forall q, is_prefix (day_dir E0) q = true -> Model_Save.exists_ s q = false) ->
  (forall x, read_as parse (p_show P) back x) -> (forall x y, x <= y -> back x <= back y) ->
  exists s' table, commands P l s = Ok s' /\
    (forall z c, In z zs -> In c with_hop -> shipped_table c (table z c) /\
       forall E1 s1 argv1 s1', ready E1 s1 -> asks E1 argv1 false z -> command P E1 argv1 s1 = Ok s1' ->
       Model_Save.files s1' (run_dir E1 z ++ [table_name c]) = Some (strat_text (p_show P) (table z c))) /\
    forall show back32 dump load L L1, let day := day_dir E0 in let tmp := day ++ ["tmp"%string] in
    (forall x, read_as parse show back32 x) -> pickles_back parse dump load L with_hop tmp day s' ->
    lists L s' day -> lists L1 (pickled_disk parse dump L with_hop tmp day s') tmp ->
    exists s2, aggregate parse show dump load L L1 with_hop tmp day s' = Ok s2 /\
      forall L2 cwd data_path datedir corder ks, datedir <> ""%string -> path_parts (abspath cwd datedir) = day ->
      ks <> [] -> Forall (fun k => (k < 5)%nat) ks ->
      exists panels, surface_boxplot parse L2 s2 cwd data_path datedir corder (map depth_at ks) = Ok (panels, length zs) /\
        Forall2 (fun k pa => map fst (pa_boxes pa) = corder /\ forall c values, In c with_hop -> In (c, values) (pa_boxes pa) ->
          Permutation values (map (fun z => back32 (ice_above k (map (renumbered back) (table z c)))) zs)) ks panels.
Proof.
  intros P l s E0 zs parse back Lw Nl H Nz Hz Fr U Mo.
  destruct (C86_campaign P l s E0 zs parse back Lw Nl H Nz Hz Fr U Mo) as (s' & table & C & T & G). exists s', table. split; [exact C|]. split; [exact T|].
  intros show back32 dump load L L1 day tmp U32 B HL HL1. destruct (G show back32 dump load L L1 U32 B HL HL1) as (s2 & lay & tot & Q1 & Rd & P1 & _). fold day in Rd.
  exists s2. split; [exact Q1|]. intros L2 cwd dp dd corder ks N Pd Nk Hk.
  set (found := flat_map (fun c => map (fun z => ((c, "moonpies"%string, @nil string), map (renumbered back) (table z c))) zs) with_hop).
  assert (Pt : Permutation tot (map (trow back32) found)).
  { etransitivity; [exact P1|]. apply perm_eq. unfold found. rewrite flat_map_concat_map, (flat_map_concat_map _ with_hop), concat_map, map_map. f_equal. apply map_ext. intros c. rewrite map_map. reflexivity. }
  assert (F : Forall (fun e => formed (snd e)) found).
  { apply Forall_forall. intros e I. unfold found in I. apply in_flat_map in I as (c & Ic & I). apply in_map_iff in I as (z & <- & Iz). cbn [snd]. destruct (T z c Iz Ic) as [Sh _].
    apply (renumbered_totals c (table z c) back Sh Mo). }
  destruct traps_head as (Nh & Nd & _).
  assert (Nf : found <> []).
  { destruct l as [|[E argv] l]; [now elim Nl|]. destruct (H E argv (or_introl eq_refl)) as (_ & _ & _ & r & z & A). assert (Iz : In z zs) by (apply Hz; exists E, argv, r; split; [now left|exact A]).
    destruct with_hop as [|c ct] eqn:Ew; [now elim Nh|]. unfold found. destruct zs; [destruct Iz|]. discriminate. }
  rewrite (surface_form parse L2 s2 cwd dp dd corder (map depth_at ks) lay tot (length zs)); [| |destruct ks; [now elim Nk|discriminate]|].
  2: { unfold load_aggregated. destruct dd as [|a dd]; [now elim N|]. cbn [bind]. now rewrite Pd. }
  2: { intros d I. apply in_map_iff in I as (k & <- & I). rewrite Forall_forall in Hk. exact (key_exists back32 found tot k F Pt Nf (Hk k I)). }
  eexists. split; [reflexivity|]. clear Nk. induction Hk as [|k ks K F2 IH]; [constructor|]. cbn [map]. constructor; [|exact IH]. clear IH F2 ks.
  unfold panel_of. cbn [pa_boxes]. split; [rewrite map_map; apply map_id|]. intros c values Ic I. apply in_map_iff in I as (c' & E & _). injection E as -> <-.
  etransitivity; [exact (box_values back32 found tot k c F Pt K)|]. apply perm_eq. unfold found. clear -Ic Nd.
  rewrite (pick_trap (of_run c "moonpies") _ c with_hop Nd Ic); [rewrite map_map; reflexivity| |].
  - intros x J. apply in_map_iff in J as (z & <- & _). unfold of_run. cbn [fst snd]. now rewrite !String.eqb_refl.
  - intros d x Nx J. apply in_map_iff in J as (z & <- & _). unfold of_run. cbn [fst snd]. apply String.eqb_neq in Nx. now rewrite Nx.
Qed.

(** ** Concrete cases *)
(** Two days with collected runs: two runs, one of them with two kinds of settings. *)
Definition runs_text : string := "Faustini,Faustini,Faustini
moonpies,moonpies,no_bsed
total ice 6m,total ice,total ice
0,0,5
1,20,
"%string.
Definition layers_text : string := "Faustini,Faustini,Faustini
moonpies,moonpies,moonpies
ice,depth,time
0.46,3.04,7
"%string.
Definition shown_files : list (path * string) :=
  [(["repo"; "out"; "230202"; "layers.csv"], layers_text); (["repo"; "out"; "230202"; "runs.csv"], runs_text);
   (["repo"; "out"; "240101"; "layers.csv"], layers_text); (["repo"; "out"; "240101"; "runs.csv"], runs_text)]%string.
Definition same : R -> R := fun x => x.
Definition data_at : string := "/repo/moonpies/data/"%string.
Definition listed (l : list (path * string)) : listing := listing_of (flat_map (fun f => prefixes (fst f)) l) (disk_of l).
Lemma listed_ok l d : lists (listed l) (disk_of l) d.
Proof. apply listing_ok. intros q X _ _. now apply disk_cand. Qed.
Lemma listed_rev l d : lists (listing_of (rev (flat_map (fun f => prefixes (fst f)) l)) (disk_of l)) (disk_of l) d.
Proof. apply listing_ok. intros q X _ _. apply -> in_rev. now apply disk_cand. Qed.

Definition shown_lay : list flat := [mk_flat "Faustini" "moonpies" [("ice", Some (46 / 100)); ("depth", Some (304 / 100)); ("time", Some 7)]]%string.
Definition shown_tot : list flat :=
  [mk_flat "Faustini" "moonpies" [("total ice 6m", Some 0); ("total ice", Some 0)]; mk_flat "Faustini" "no_bsed" [("total ice", Some 5)];
   mk_flat "Faustini" "moonpies" [("total ice 6m", Some 1); ("total ice", Some 20)]]%string.
Lemma shown_read day : In day ["230202"; "240101"]%string -> read_agg_dfs same (disk_of shown_files) ["repo"; "out"; day]%string = Ok (shown_lay, shown_tot, 2%nat).
Proof.
  intros I. assert (Fl : Model_Save.files (disk_of shown_files) ["repo"; "out"; day; "layers.csv"]%string = Some layers_text /\ Model_Save.files (disk_of shown_files) ["repo"; "out"; day; "runs.csv"]%string = Some runs_text)
    by (destruct I as [<-|[<-|[]]]; split; reflexivity).
  unfold read_agg_dfs, read_file. cbn [app]. destruct Fl as [-> ->].
  assert (A : read_frame same layers_text = Ok (mk_frame (map (fun x => ("Faustini", "moonpies", x)) ["ice"; "depth"; "time"])%string [[Some (Q2R (QArith_base.Qmake 46 100)); Some (Q2R (QArith_base.Qmake 304 100)); Some (Q2R (QArith_base.Qmake 7 1))]])) by (vm_compute; reflexivity).
  assert (B : read_frame same runs_text = Ok (mk_frame [("Faustini", "moonpies", "total ice 6m"); ("Faustini", "moonpies", "total ice"); ("Faustini", "no_bsed", "total ice")]%string
    [[Some (Q2R (QArith_base.Qmake 0 1)); Some (Q2R (QArith_base.Qmake 0 1)); Some (Q2R (QArith_base.Qmake 5 1))]; [Some (Q2R (QArith_base.Qmake 1 1)); Some (Q2R (QArith_base.Qmake 20 1)); None]])) by (vm_compute; reflexivity).
  rewrite A, B. cbn [bind]. unfold shown_lay, shown_tot.
  assert (Z0 : Q2R (QArith_base.Qmake 0 1) = 0) by (unfold Q2R; cbn; lra). assert (Z1 : Q2R (QArith_base.Qmake 1 1) = 1) by (unfold Q2R; cbn; lra). assert (Z5 : Q2R (QArith_base.Qmake 5 1) = 5) by (unfold Q2R; cbn; lra).
  assert (Z7 : Q2R (QArith_base.Qmake 7 1) = 7) by (unfold Q2R; cbn; lra). assert (Z20 : Q2R (QArith_base.Qmake 20 1) = 20) by (unfold Q2R; cbn; lra). assert (Za : Q2R (QArith_base.Qmake 46 100) = 46 / 100) by (unfold Q2R; cbn; lra).
  assert (Zb : Q2R (QArith_base.Qmake 304 100) = 304 / 100) by (unfold Q2R; cbn; lra). rewrite Z0, Z1, Z5, Z7, Z20, Za, Zb. reflexivity.
Qed.

(** The day that is taken is the last one: false, if the operating system lists it first. *)
Theorem C88_latest_refuted : exists L s data_path out d y, out_of data_path = Ok out /\ lists L s out /\
  get_datedir L s data_path = Ok d /\ d = out ++ ["230202"%string] /\
  y = "240101"%string /\ dirs s (out ++ [y]) = true /\ Model_Save.exists_ s (out ++ [y; "layers.csv"%string]) = true.
Proof.
  eexists (listing_of (rev (flat_map (fun f => prefixes (fst f)) shown_files)) (disk_of shown_files)), (disk_of shown_files), data_at, _, _, _.
  split; [vm_compute; reflexivity|]. split; [apply listed_rev|]. split; [vm_compute; reflexivity|]. split; [reflexivity|]. split; [reflexivity|]. split; reflexivity.
Qed.

(** Without a day, all figures take the same one: false.  The violins are looked for in the
    working directory. *)
Theorem C88_violin_guess_refuted : exists parse L s cwd data_path known corder run_names rename panels,
  (forall d, lists L s d) /\ (exists d, get_datedir L s data_path = Ok d) /\ renames run_names rename /\
  kde_layers parse L s cwd data_path "" corder run_names rename = Ok panels /\
  compare_violin parse L s cwd data_path known "" corder run_names rename = Err FileNotFoundError.
Proof.
  eexists same, (listed shown_files), (disk_of shown_files), "/home"%string, data_at, ["Faustini"%string], ["Faustini"%string], ["moonpies"; "no_bsed"]%string, ["MoonPIES"; "No BSED"]%string, _.
  split; [intros; apply listed_ok|]. split; [eexists; vm_compute; reflexivity|]. split.
  { split; [reflexivity|]. split; [repeat constructor; cbn [In]; intuition discriminate|]. split; [repeat constructor; cbn [In]; intuition discriminate|].
    intros x n. cbn [combine In]. intros [E|[E|[]]]; injection E as <- <-; right; cbn [In]; intuition discriminate. }
  split; [|vm_compute; reflexivity]. unfold kde_layers, load_aggregated.
  assert (G : get_datedir (listed shown_files) (disk_of shown_files) data_at = Ok ["repo"; "out"; "240101"]%string) by (vm_compute; reflexivity).
  rewrite G. cbn [bind]. rewrite shown_read by (right; now left). cbn [bind]. reflexivity.
Qed.

Ltac eqbs := repeat match goal with |- context [String.eqb ?a ?b] => let v := eval vm_compute in (String.eqb a b) in change (String.eqb a b) with v; cbn iota end.
Ltac rltb := repeat match goal with |- context [Rltb ?a ?b] => first [rewrite (proj2 (Rltb_true a b)) by lra | rewrite (proj2 (Rltb_false a b)) by lra]; cbn iota end.
Definition from_day : Model_Shown.place := Posix "/repo/out/240101".
Lemma day_read L cwd dp p : p = from_day \/ p = Text "/repo/out/240101" -> load_aggregated same L (disk_of shown_files) cwd dp p = Ok (shown_lay, shown_tot, 2%nat).
Proof. intros [->| ->]; apply (shown_read "240101"%string); right; now left. Qed.

(** The title of the violins tells how many runs are in each of them: false.  A run with less
    than 1 m of ice is counted and not drawn. *)
Theorem C88_count_refuted : exists parse L s cwd data_path known datedir corder run_names rename violins n halves values,
  (forall d, lists L s d) /\ renames run_names rename /\
  compare_violin parse L s cwd data_path known datedir corder run_names rename = Ok (violins, n) /\
  In ("Faustini"%string, halves) violins /\ In ("MoonPIES"%string, values) halves /\ n = 2%nat /\ values = [log10 20].
Proof.
  eexists same, (listed shown_files), (disk_of shown_files), "/home"%string, data_at, ["Faustini"%string], "/repo/out/240101"%string, ["Faustini"%string], ["moonpies"; "no_bsed"]%string, ["MoonPIES"; "No BSED"]%string, _, _, _, _.
  split; [intros; apply listed_ok|]. split.
  { split; [reflexivity|]. split; [repeat constructor; cbn [In]; intuition discriminate|]. split; [repeat constructor; cbn [In]; intuition discriminate|].
    intros x n. cbn [combine In]. intros [E|[E|[]]]; injection E as <- <-; right; cbn [In]; intuition discriminate. }
  split.
  { unfold compare_violin. rewrite day_read by now left. cbn [forallb existsb]. eqbs. cbn [orb andb bind]. reflexivity. }
  split; [now left|]. split; [right; left; reflexivity|]. split; [reflexivity|].
  unfold group, shown_tot, rename_runs. cbn -[Rltb log10 numbers]. unfold log_ice, stat. cbn -[Rltb log10 numbers]. rltb. reflexivity.
Qed.

(** Runs keep apart when they are renamed: false for names that change places. *)
Theorem C88_renamed_refuted : exists parse L s cwd data_path known datedir corder run_names rename violins n,
  (forall d, lists L s d) /\ NoDup run_names /\ NoDup rename /\ length run_names = length rename /\
  compare_violin parse L s cwd data_path known datedir corder run_names rename = Ok (violins, n) /\
  violins = [("Faustini", [("moonpies", [log10 5; log10 20]); ("no_bsed", [])])]%string.
Proof.
  eexists same, (listed shown_files), (disk_of shown_files), "/home"%string, data_at, ["Faustini"%string], "/repo/out/240101"%string, ["Faustini"%string], ["moonpies"; "no_bsed"]%string, ["no_bsed"; "moonpies"]%string, _, _.
  split; [intros; apply listed_ok|]. split; [repeat constructor; cbn [In]; intuition discriminate|]. split; [repeat constructor; cbn [In]; intuition discriminate|]. split; [reflexivity|].
  split.
  { unfold compare_violin. rewrite day_read by now left. cbn [forallb existsb]. eqbs. cbn [orb andb bind]. reflexivity. }
  unfold group, shown_tot, rename_runs. cbn -[Rltb log10 numbers]. unfold log_ice, stat. cbn -[Rltb log10 numbers]. rltb. reflexivity.
Qed.

(** The mark that is named "p99" is the 99th percentile: false, it is the 95th.  Of two runs
    with 0 and 1 m of ice it is at 0.95 m. *)
Theorem C88_p99_refuted : exists parse L s cwd data_path datedir pa n, (forall d, lists L s d) /\
  surface_boxplot parse L s cwd data_path datedir ["Faustini"%string] [6%N] = Ok ([pa], n) /\
  pa_boxes pa = [("Faustini"%string, [0; 1])] /\ pa_marks pa = [("p75"%string, Some (75 / 100)); ("p99"%string, Some (95 / 100))] /\
  quantile (99 / 100) [0; 1] = Some (99 / 100).
Proof.
  assert (Qu : forall q, 0 <= q < 1 -> quantile q [0; 1] = Some q).
  { intros q H. unfold quantile. cbn [sort_num fold_right insert_num]. rewrite (proj2 (Rleb_true 0 1)) by lra. cbn iota. cbn [length INR].
    assert (K : Int_part (1 * q) = 0%Z) by (apply Int_part_unique; lra). rewrite K. cbn [Z.to_nat nth]. f_equal. lra. }
  eexists same, (listed shown_files), (disk_of shown_files), "/home"%string, data_at, "/repo/out/240101"%string, _, _.
  split; [intros; apply listed_ok|]. split.
  { apply (surface_form same _ _ _ _ _ ["Faustini"%string] [6%N] shown_lay shown_tot 2%nat); [apply day_read; now right|discriminate|]. intros d [<-|[]]. reflexivity. }
  assert (V : vals_of shown_tot 6 "Faustini" = [0; 1]) by reflexivity.
  unfold panel_of. cbn [pa_boxes pa_marks map]. change (6 =? 6)%N with true. cbn iota. rewrite V, !Qu by lra. split; [reflexivity|]. split; reflexivity.
Qed.

(** A day with two seeds and a second kind of run, of which all numbers are read as 10. *)
Definition ten : R -> R := fun _ => 10.
Definition tens : list layer := [mk_layer 10 10 "Formation age" 10 10 None].
Definition ten_files : list (path * string) :=
  [(["out"; "d"; "moonpies"; "00001"; "strat_Faustini.csv"], bare_text); (["out"; "d"; "moonpies"; "00002"; "strat_Faustini.csv"], bare_text);
   (["out"; "d"; "no_bsed"; "00001"; "strat_Faustini.csv"], bare_text)]%string.
Definition ten_keys : list (string * string * path) :=
  [("Faustini", "moonpies", ["out"; "d"; "moonpies"; "00001"; "strat_Faustini.csv"]); ("Faustini", "moonpies", ["out"; "d"; "moonpies"; "00002"; "strat_Faustini.csv"]);
   ("Faustini", "no_bsed", ["out"; "d"; "no_bsed"; "00001"; "strat_Faustini.csv"])]%string.
Lemma ten_as x : read_as ten (fun _ => "0.0"%string) ten x.
Proof.
  eexists. split; [|unfold ten; reflexivity]. exists [], 1%R, [0%nat], ["."%char], [0%nat], [], 1%R.
  split; [constructor|]. split; [repeat constructor; lia|]. split; [repeat constructor; lia|]. split; [left; discriminate|].
  split; [now left|]. split; [constructor|]. split; reflexivity.
Qed.
Lemma tens_read : read_strat ten bare_text = Ok tens.
Proof.
  unfold bare_text. rewrite (C84_table ten _ ten); [reflexivity|apply Forall_forall; intros; apply ten_as|].
  repeat constructor; [|vm_compute; intuition discriminate]. intros I. assert (X : existsb (String.eqb "Formation age") missing = true) by (apply existsb_exists; exists "Formation age"%string; split; [exact I|reflexivity]).
  vm_compute in X. discriminate.
Qed.
Lemma ten_places q : Model_Save.exists_ (disk_of ten_files) q = true -> In q (nodup (list_eq_dec string_dec) (flat_map (fun f => prefixes (fst f)) ten_files)).
Proof. intros H. apply nodup_In. now apply disk_cand. Qed.
Lemma ten_tables x p : table_at (disk_of ten_files) dday dtmp "Faustini" x p <-> In ("Faustini"%string, x, p) ten_keys.
Proof.
  split.
  - intros (_ & _ & X & mid & Q). apply ten_places in X. vm_compute in X. unfold dday in Q. cbn [app] in Q.
    repeat (destruct X as [<-|X]; [|]); try contradiction; try discriminate; injection Q as Q1 Q2; subst x;
      destruct mid as [|m [|m2 mid]]; try discriminate; cbn [app] in Q2; try (injection Q2 as Q2 Q3; subst); cbn [In ten_keys]; auto 6.
    all: destruct mid as [|? [|]]; discriminate.
  - cbn [In ten_keys]. intros [Q|[Q|[Q|[]]]]; injection Q as <- <-; (split; [reflexivity|]); (split; [discriminate|]); (split; [reflexivity|]);
      [exists ["00001"%string]|exists ["00002"%string]|exists ["00001"%string]]; reflexivity.
Qed.
Lemma tens_formed : formed tens.
Proof. exists (mk_layer 10 10 "Formation age" 10 10 None). split; [reflexivity|]. constructor; [apply Rle_refl|constructor]. Qed.
Lemma ten_ok : aggregable ten (disk_of ten_files) dday dtmp ["Faustini"%string].
Proof.
  split; [split; [discriminate|split; [repeat constructor; intros []|constructor; [|constructor]]]|].
  { split; [vm_compute; intuition discriminate|]. exists "F"%char, "austini"%string. split; [reflexivity|]. vm_compute. lia. }
  split; [split|split; [|split; [|split; [|split; [|split; reflexivity]]]]].
  - intros mid x X _. apply ten_places in X. vm_compute in X. repeat (destruct X as [X|X]; [discriminate|]). contradiction.
  - intros c _. reflexivity.
  - exists "moonpies"%string. split; [reflexivity|discriminate].
  - intros x D. assert (X : Model_Save.exists_ (disk_of ten_files) (dday ++ [x]) = true) by (unfold Model_Save.exists_; now rewrite D).
    apply ten_places in X. vm_compute in X. repeat (destruct X as [X|X]; [try discriminate; injection X as <-; vm_compute; intuition discriminate|]). contradiction.
  - intros c x p [<-|[]] T. apply ten_tables in T. exists tens. split; [|apply tens_formed].
    cbn [In ten_keys] in T. destruct T as [Q|[Q|[Q|[]]]]; try discriminate; injection Q as <- <-; exact tens_read.
  - intros p X. apply prefixes_ok in X. vm_compute in X. repeat (destruct X as [<-|X]; [reflexivity|]). contradiction.
Qed.
Lemma ten_collected : exists s' found, collected ten ten ["Faustini"%string] dday dtmp (disk_of ten_files) s' found /\
  Permutation found (map (fun k => (k, tens)) ten_keys).
Proof.
  destruct (some_listings ten ["Faustini"%string] dtmp dday (disk_of ten_files) (flat_map (fun f => prefixes (fst f)) ten_files)) as (L & dump & load & L1 & HL & B & HL1).
  { intros q X _. now apply disk_cand. }
  { reflexivity. }
  destruct (C86_collected ten (fun _ => "0.0"%string) ten dump load L L1 ["Faustini"%string] dday dtmp (disk_of ten_files) ten_as B ten_ok HL HL1)
    as (s' & lay & tot & n & found & Q1 & Q2 & F & _). exists s', found. split.
  { exists (fun _ => "0.0"%string), dump, load, L, L1. split; [exact ten_as|]. split; [exact B|]. split; [exact ten_ok|]. split; [exact HL|]. split; [exact HL1|]. split; [exact Q1|exact F]. }
  destruct F as (F1 & F2 & F3).
  assert (P : Permutation (map fst found) ten_keys).
  { apply NoDup_Permutation; [exact F1|unfold ten_keys; repeat constructor; cbn [In]; intuition discriminate|]. intros [[c x] p]. rewrite F2. split.
    - intros [[<-|[]] T]. now apply ten_tables.
    - intros I. assert (c = "Faustini"%string) by (cbn [In ten_keys] in I; intuition congruence). subst c. split; [now left|]. now apply ten_tables. }
  assert (Q : found = map (fun k => (k, tens)) (map fst found)).
  { rewrite map_map, <- (map_id found) at 1. apply map_ext_in. intros [k t] I. cbn [fst]. f_equal. rewrite Forall_forall in F3. pose proof (F3 _ I) as Rt. cbn [fst snd] in Rt.
    assert (J : In k ten_keys) by (eapply Permutation_in; [exact P|]; apply in_map_iff; exists (k, t); auto).
    assert (X : forall p, In p (map snd ten_keys) -> read_at ten (disk_of ten_files) p = Ok tens) by (intros p; cbn [map snd ten_keys In]; intros [<-|[<-|[<-|[]]]]; exact tens_read).
    destruct k as [[c x] p]. cbn [snd fst] in Rt. rewrite (X p) in Rt by (apply (in_map snd) in J; exact J). congruence. }
  rewrite Q. now apply Permutation_map.
Qed.
Lemma ten_renames : renames ["moonpies"; "no_bsed"]%string ["MoonPIES"; "No BSED"]%string.
Proof.
  split; [reflexivity|]. split; [repeat constructor; cbn [In]; intuition discriminate|]. split; [repeat constructor; cbn [In]; intuition discriminate|].
  intros x n. cbn [combine In]. intros [E|[E|[]]]; injection E as <- <-; right; cbn [In]; intuition discriminate.
Qed.
(** The violin of this day has two runs in one half and one in the other, each with 10 m. *)
Example C88_case : exists s' found L violins n halves values,
  collected ten ten ["Faustini"%string] dday dtmp (disk_of ten_files) s' found /\
  compare_violin ten L s' "/" data_at ["Faustini"%string] "/out/d" ["Faustini"%string] ["moonpies"; "no_bsed"]%string ["MoonPIES"; "No BSED"]%string = Ok (violins, n) /\
  In ("Faustini"%string, halves) violins /\ In ("MoonPIES"%string, values) halves /\ values = [log10 10; log10 10] /\
  surface_ice ten found 2 "Faustini" = [10; 10].
Proof.
  destruct ten_collected as (s' & found & C & P). exists s', found, (listed []).
  assert (Kn : forall c, In c ["Faustini"%string] -> In c ["Faustini"%string]) by auto.
  destruct (C88_violin ten ten ["Faustini"%string] dday dtmp (disk_of ten_files) s' found (listed []) "/" data_at ["Faustini"%string] "/out/d" ["Faustini"%string] _ _ C eq_refl ten_renames Kn)
    as (violins & n & V & Fv & H). destruct violins as [|[c halves] [|? ?]]; try discriminate. cbn [map fst] in Fv. injection Fv as ->.
  destruct (H _ _ (or_introl eq_refl)) as [Fh G]. cbn [rev app] in Fh. destruct halves as [|[h1 v1] [|[h2 v2] [|? ?]]]; try discriminate. cbn [map fst] in Fh. injection Fh as -> ->.
  exists [("Faustini", [("No BSED", v1); ("MoonPIES", v2)])]%string, n, [("No BSED"%string, v1); ("MoonPIES"%string, v2)], v2.
  split; [exact C|]. split; [exact V|]. split; [now left|]. split; [right; now left|].
  destruct (G "moonpies"%string "MoonPIES"%string v2 (or_introl eq_refl) (or_intror (or_introl eq_refl))) as [Pv _].
  assert (T : forall l : list R, Permutation l [log10 10; log10 10] -> l = [log10 10; log10 10]).
  { intros l X. apply Permutation_sym, Permutation_length_2_inv in X as [->| ->]; reflexivity. }
  assert (Fp : forall (p : _ -> bool), Permutation (filter p found) (filter p (map (fun k => (k, tens)) ten_keys))).
  { intros p. clear -P. induction P; cbn [filter]; try destruct (p x); try destruct (p y); eauto using perm_skip, perm_swap, Permutation_trans, Permutation_refl. }
  split.
  - apply T. etransitivity; [exact Pv|]. etransitivity; [apply Permutation_map, Fp|]. cbn [map filter ten_keys]. unfold of_run. cbn [fst snd]. eqbs. cbn [andb].
    unfold ice_in, ten. rewrite (proj2 (Rleb_true 1 10)) by lra. reflexivity.
  - assert (X : Permutation (surface_ice ten found 2 "Faustini") [10; 10]).
    { unfold surface_ice. etransitivity; [apply Permutation_map, Fp|]. cbn [map filter ten_keys]. unfold of_run. cbn [fst snd]. eqbs. cbn [andb map]. reflexivity. }
    apply Permutation_sym, Permutation_length_2_inv in X as [->| ->]; reflexivity.
Qed.
(** A name with an ending, in a directory. *)
Example C88_saved_case : asked "/figs" "a/x.y.pdf" true ["figs"; "a"]%string "x.y.pdf" /\
  figure_file "/figs" "a/x.y.pdf" "v2" = Ok (Some (mk_ppath true ["figs"; "a"; "x.y_v2.pdf"]%string)) /\ ends_in "x.y.pdf" "x.y" ".pdf".
Proof.
  split; [right; split; [reflexivity|]; split; [reflexivity|]; exists ["a"%string]; split; reflexivity|]. split; [vm_compute; reflexivity|]. split; [reflexivity|]. left.
  split; [discriminate|]. exists "pdf"%string. split; [reflexivity|]. split; [discriminate|]. intros (a & b & E). destruct a as [|? [|? [|? [|? ?]]]]; discriminate.
Qed.
(** Of two days the last is taken, and the layer of this day is drawn from 2.5 m to 3 m. *)
Example C88_guess_case : exists L s, lists L s ["repo"; "out"]%string /\ get_datedir L s data_at = Ok ["repo"; "out"; "240101"]%string /\
  StronglySorted (fun a b => String.leb a b = true) (children L ["repo"; "out"]%string) /\ length (children L ["repo"; "out"]%string) = 2%nat.
Proof.
  exists (listed shown_files), (disk_of shown_files). split; [apply listed_ok|]. split; [vm_compute; reflexivity|]. split; [|reflexivity].
  assert (Q : children (listed shown_files) ["repo"; "out"]%string = ["230202"; "240101"]%string) by (vm_compute; reflexivity). rewrite Q. repeat constructor.
Qed.

(** The day of C86_campaign_case: two seeds in each box. *)
Example C88_campaign_case : exists s' show dump load L L1 s2 L2 panels,
  let day := ["work"; "out"; "240101"]%string in
  commands libraries0 one_day installed0 = Ok s' /\
  aggregate zero show dump load L L1 with_hop (day ++ ["tmp"%string]) day s' = Ok s2 /\
  surface_boxplot zero L2 s2 "/" data_at "/work/out/240101" ["Faustini"%string] [6%N] = Ok (panels, 2%nat) /\
  exists values, map pa_boxes panels = [[("Faustini"%string, values)]] /\ length values = 2%nat.
Proof.
  assert (R0 : ready (machine [] "240101") installed0) by (apply ready0; [reflexivity..|now apply day_plain]).
  assert (A7 : asks (machine [] "240101") ["7"%string] false 7) by (apply (asks0 "240101" 7 "7"); [auto|reflexivity|lia]).
  assert (A3 : asks (machine [] "240101") ["3"%string] false 3) by (apply (asks0 "240101" 3 "3"); [auto|reflexivity|lia]).
  assert (A7' : asks (machine [] "240101") ["--resume"; "7"]%string true 7) by (apply (asks0 "240101" 7 "7"); [auto|reflexivity|lia]).
  assert (H1 : forall E argv, In (E, argv) one_day -> ready E installed0 /\ same_place (machine [] "240101") E /\ date_now E = date_now (machine [] "240101") /\
    exists resume z, asks E argv resume z).
  { intros E argv [I|[I|[I|[]]]]; injection I as <- <-; (split; [exact R0|]); (split; [split; reflexivity|]); (split; [reflexivity|]); eauto. }
  assert (H2 : forall z, In z [7; 3]%Z <-> exists E argv resume, In (E, argv) one_day /\ asks E argv resume z).
  { intros z. split.
    - intros [<-|[<-|[]]]; [exists (machine [] "240101"), ["7"%string], false|exists (machine [] "240101"), ["3"%string], false]; (split; [cbn [one_day In]; auto|assumption]).
    - intros (E & argv & r & [I|[I|[I|[]]]] & A); injection I as <- <-.
      + destruct (asks_unique _ _ _ _ _ _ A7 A) as [_ ->]. now left.
      + destruct (asks_unique _ _ _ _ _ _ A3 A) as [_ ->]. right. now left.
      + destruct (asks_unique _ _ _ _ _ _ A7' A) as [_ ->]. now left. }
  assert (H3 : forall q, is_prefix (day_dir (machine [] "240101")) q = true -> Model_Save.exists_ installed0 q = false).
  { intros q X. apply prefix_split in X as (r & ->). change (day_dir (machine [] "240101") ++ r) with ("work"%string :: "out"%string :: "240101"%string :: r).
    unfold Model_Save.exists_. rewrite work_files. reflexivity. }
  assert (U : forall x, read_as zero (p_show libraries0) zero x) by exact zero_read.
  assert (Nz : NoDup [7; 3]%Z) by (repeat constructor; cbn [In]; intuition discriminate).
  destruct (day_facts libraries0 one_day installed0 (machine [] "240101") [7; 3]%Z lawful0 ltac:(discriminate) H1 H2 H3) as (_ & t' & E1 & _ & C & _ & K2 & K3 & _).
  destruct (C88_campaign libraries0 one_day installed0 (machine [] "240101") [7; 3]%Z zero zero lawful0 ltac:(discriminate) H1 Nz H2 H3 U) as (s' & table & C' & _ & G).
  { intros. apply Rle_refl. }
  assert (Inj : forall a b : fs, Ok a = Ok b -> a = b) by congruence. rewrite C in C'. apply Inj in C'. subst t'.
  destruct (some_listings zero with_hop (day_dir (machine [] "240101") ++ ["tmp"%string]) (day_dir (machine [] "240101")) s'
    (flat_map (fun z => prefixes (run_dir (machine [] "240101") z) ++ map (fun x => run_dir (machine [] "240101") z ++ [x]) written) [7; 3]%Z)) as (L & dump & load & L1 & HL & B & HL1).
  { intros q X Pq. apply in_flat_map. unfold Model_Save.exists_ in X. apply orb_prop in X as [X|X].
    - apply K3 in X as (z & Iz & X); [|exact Pq]. exists z. split; [exact Iz|]. apply in_or_app. left. now apply prefixes_ok.
    - destruct (K2 q Pq) as (z & x & Iz & Ix & ->); [destruct (Model_Save.files s' q); discriminate|]. exists z. split; [exact Iz|]. apply in_or_app. right. apply in_map_iff. eauto. }
  { apply Proofs_Collect.prefix_app. }
  destruct (G (fun _ => "0.0"%string) zero dump load L L1 zero_read B HL HL1) as (s2 & Q1 & Q2). clear G.
  assert (Pd : path_parts (abspath "/" "/work/out/240101") = day_dir (machine [] "240101")) by (vm_compute; reflexivity).
  destruct (Q2 (listed []) "/"%string data_at "/work/out/240101"%string ["Faustini"%string] [2%nat] ltac:(discriminate) Pd ltac:(discriminate) ltac:(repeat constructor)) as (panels & Q3 & F).
  exists s', (fun _ => "0.0"%string), dump, load, L, L1, s2, (listed []), panels. split; [exact C|]. split; [exact Q1|]. split; [exact Q3|]. clear C Q1 Q3 Q2.
  inversion F as [|k pa ks ps (Fb & Vb) F']; subst. inversion F'; subst. destruct (pa_boxes pa) as [|[c values] [|? ?]] eqn:Eb; try discriminate. cbn [map fst] in Fb. injection Fb as ->.
  exists values. split; [cbn [map]; rewrite Eb; reflexivity|]. assert (Ih : In "Faustini"%string with_hop) by (vm_compute; auto 20).
  rewrite (Permutation_length (Vb _ _ Ih (or_introl eq_refl))), map_length. reflexivity.
Qed.

Print Assumptions C88_saved.
Print Assumptions C88_saved_again.
Print Assumptions C88_versions.
Print Assumptions C88_versions_refuted.
Print Assumptions C88_guess.
Print Assumptions C88_guessed.
Print Assumptions C88_violin.
Print Assumptions C88_layers.
Print Assumptions C88_boxes.
Print Assumptions C88_above.
Print Assumptions C88_marks.
Print Assumptions C88_campaign.
Print Assumptions C88_latest_refuted.
Print Assumptions C88_violin_guess_refuted.
Print Assumptions C88_count_refuted.
Print Assumptions C88_renamed_refuted.
Print Assumptions C88_p99_refuted.
