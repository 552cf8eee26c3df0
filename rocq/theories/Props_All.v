(** C99: all figures, their versions and their files. *)
From Coq Require Import ZArith Bool Ascii String List Reals Lra Lia Permutation.
From Verif Require Import Base Arith Model_Path Model_Strat Model_Ice Model_Figure Model_Save Model_Collect Model_Shown Model_Columns Model_All
  Spec_Files Spec_Collect Spec_Shown Spec_All Proofs_Base Proofs_Path Proofs_Shown Proofs_All Props_Collect Props_Shown.
Import ListNotations.
Open Scope R_scope.
Open Scope list_scope.

(** ** The version on a figure *)

(** The version is marked at the corner that is named, a little inside the axes, and the text
    extends into the axes; an origin and an offset move it by their sum. *)
Theorem C99_mark : forall ver loc x y va ha xy xyoff, corner loc x y va ha ->
  let ox := match xy with Some p => fst p | None => 0 end + match xyoff with Some p => fst p | None => 0 end in
  let oy := match xy with Some p => snd p | None => 0 end + match xyoff with Some p => snd p | None => 0 end in
  exists m, plot_version ver loc xy xyoff = Ok (("v" ++ ver)%string, m) /\
    mk_text m = ("MoonPIES v" ++ ver)%string /\ mk_va m = va /\ mk_ha m = ha /\
    Rabs (mk_x m - ox - x) = 2 / 100 /\ Rabs (mk_y m - oy - y) = 35 / 1000 /\
    0 < mk_x m - ox < 1 /\ 0 < mk_y m - oy < 1.
Proof.
  intros ver loc x y va ha xy xyoff (a & b & rest & -> & V & H) ox oy. unfold plot_version.
  assert (X : exists xx yy, match xy with None => (0, 0) | Some p => p end = (xx, yy) /\
    match xy with Some p => fst p | None => 0 end = xx /\ match xy with Some p => snd p | None => 0 end = yy)
    by (destruct xy as [[? ?]|]; eexists _, _; repeat split; reflexivity).
  destruct X as (xx & yy & X1 & X2 & X3).
  assert (Y : exists xo yo, match xyoff with None => (0, 0) | Some p => p end = (xo, yo) /\
    match xyoff with Some p => fst p | None => 0 end = xo /\ match xyoff with Some p => snd p | None => 0 end = yo)
    by (destruct xyoff as [[? ?]|]; eexists _, _; repeat split; reflexivity).
  destruct Y as (xo & yo & Y1 & Y2 & Y3). subst ox oy. rewrite X1, X2, X3, Y1, Y2, Y3.
  destruct V as [(-> & -> & ->)|(-> & -> & ->)], H as [(-> & -> & ->)|(-> & -> & ->)]; cbn [Ascii.eqb Bool.eqb];
    eexists; (split; [reflexivity|]); cbn [mk_text mk_x mk_y mk_va mk_ha];
    (split; [reflexivity|]); (split; [reflexivity|]); (split; [reflexivity|]);
    unfold Rabs; repeat destruct (Rcase_abs _); repeat split; lra.
Qed.

(** Any other location is an error. *)
Theorem C99_mark_errors : forall ver loc xy xyoff, (forall x y va ha, ~ corner loc x y va ha) ->
  exists e, plot_version ver loc xy xyoff = Err e /\
    (e = IndexError <-> (String.length loc < 2)%nat).
Proof.
  intros ver loc xy xyoff N. unfold plot_version.
  destruct (match xy with None => (0, 0) | Some p => p end) as [x y]. destruct (match xyoff with None => (0, 0) | Some p => p end) as [xo yo].
  destruct loc as [|a [|b rest]].
  - exists IndexError. split; [reflexivity|]. cbn. split; auto.
  - exists IndexError. split; [reflexivity|]. cbn. split; auto.
  - exists AttributeError. split; [|split; [discriminate|cbn; lia]].
    destruct (Ascii.eqb_spec a "l") as [->|A1]; [|destruct (Ascii.eqb_spec a "u") as [->|A2]; [|reflexivity]];
      (destruct (Ascii.eqb_spec b "l") as [->|B1]; [|destruct (Ascii.eqb_spec b "r") as [->|B2]; [|reflexivity]]);
      exfalso; eapply N; eexists _, _, rest; (split; [reflexivity|]); split;
      try (left; split; [reflexivity|split; reflexivity]); right; (split; [reflexivity|split; reflexivity]).
Qed.

(** ** All figures *)

(** Whatever the directory and the version, each of the 23 functions writes one file, and no
    two of these files have the same name. *)
Theorem C99_distinct : forall figdir ver, ~ occurs "/" ver ->
  exists files, generate_all figdir ver = Ok files /\ length files = 23%nat /\ NoDup (map fst files) /\
    Forall (fun e => length (snd e) = 1%nat) files /\ NoDup (map file_name (flat_map snd files)).
Proof.
  intros figdir ver _. destruct (gen_ok figdir ver FIGURES (fun f H => H) bases_nodup) as (files & E & E1 & E2 & E3 & _ & _).
  exists files. split; [exact E|]. split; [rewrite <- (map_length fst), E1; reflexivity|].
  split; [rewrite E1; exact fnames_nodup|]. split; assumption.
Qed.

(** By default a figure is in the directory of its day and version, under its own name. *)
Theorem C99_default : forall figs_path date ver, ~ occurs "/" date -> ~ occurs "/" ver ->
  exists files, generate_all (FIGDIR figs_path date ver) ver = Ok files /\
    forall f, In f FIGURES -> fg_fsave f <> ""%string ->
      In (fg_name f, [mk_ppath (starts_slash figs_path) (path_parts figs_path ++ [date ++ "_v" ++ ver; fg_fsave f]%string)]) files.
Proof.
  intros figs date ver D V. apply not_occurs_slash in D, V.
  destruct (gen_ok (FIGDIR figs date ver) ver FIGURES (fun f H => H) bases_nodup) as (files & E & _ & _ & _ & _ & E5).
  exists files. split; [exact E|]. intros f F N. apply E5; [exact F|]. now apply default_file.
Qed.

(** In another directory the figures of two versions are never written over each other: false
    for the layers of the runs and for the retention of ice, whose names have no version. *)
Theorem C99_overwritten_refuted : exists figdir v1 v2 files1 files2 p q, v1 <> v2 /\ ~ occurs "/" v1 /\ ~ occurs "/" v2 /\
  generate_all figdir v1 = Ok files1 /\ generate_all figdir v2 = Ok files2 /\
  In ("kde_layers"%string, [p]) files1 /\ In ("kde_layers"%string, [p]) files2 /\
  In ("ice_retention"%string, [q]) files1 /\ In ("ice_retention"%string, [q]) files2.
Proof.
  eexists "/figs"%string, "1.0"%string, "1.1"%string, _, _, (mk_ppath true ["figs"; "kde_layers.pdf"]%string), (mk_ppath true ["figs"; "ice_retention.png"]%string).
  split; [discriminate|]. split; [intros (a & b & E); destruct a as [|? [|? [|? [|? ?]]]]; discriminate|].
  split; [intros (a & b & E); destruct a as [|? [|? [|? [|? ?]]]]; discriminate|].
  split; [vm_compute; reflexivity|]. split; [vm_compute; reflexivity|]. repeat split; cbn [In]; intuition auto.
Qed.

(** A figure whose name gets the version is kept apart from that of another version, if
    neither version is in the path that was asked for. *)
Theorem C99_versions : forall figdir v1 v2 f p1 p2, v1 <> v2 -> In f FIGURES -> fg_fsave f <> ""%string -> fg_version f = true ->
  (forall v, v = v1 \/ v = v2 ->
     ~ occurs ("v" ++ v) (as_posix (mk_ppath (starts_slash figdir) (path_parts figdir ++ [fg_fsave f])))) ->
  writes figdir v1 f = Ok [p1] -> writes figdir v2 f = Ok [p2] -> p1 <> p2.
Proof.
  intros figdir v1 v2 f p1 p2 N F S V O W1 W2. pose proof all_ok as H. rewrite forallb_forall in H. specialize (H f F). unfold fig_ok in H.
  destruct (String.eqb_spec (fg_csv f) "") as [C|C]; [|apply andb_prop in H as [H _]; apply String.eqb_eq in H; contradiction].
  unfold writes in W1, W2. rewrite C, V in W1, W2. cbn [String.eqb app] in W1, W2.
  destruct (figure_file figdir (fg_fsave f) ("v" ++ v1)) as [[q1|]|] eqn:E1; try discriminate.
  destruct (figure_file figdir (fg_fsave f) ("v" ++ v2)) as [[q2|]|] eqn:E2; try discriminate.
  cbn [bind] in W1, W2. assert (q1 = p1) by congruence. assert (q2 = p2) by congruence. subst q1 q2.
  eapply (C88_versions figdir (fg_fsave f) ("v" ++ v1) ("v" ++ v2)); eauto.
  - now apply fig_asked, names_plain.
  - intros Q. apply N. cbn [append] in Q. congruence.
Qed.

(** ** Two runs compared *)
Lemma two_renames a b c d : a <> b -> c <> d -> ~ In c [a; b] -> ~ In d [a; b] -> renames [a; b] [c; d].
Proof.
  intros N1 N2 N3 N4. split; [reflexivity|]. split; [repeat constructor; cbn [In]; intuition congruence|].
  split; [repeat constructor; cbn [In]; intuition congruence|]. intros x n. cbn [combine In]. intros [E|[E|[]]]; injection E as <- <-; auto.
Qed.
Lemma two_halves parse back coldtraps day tmp s s' found L cwd data_path known datedir corder a b x y :
  collected parse back coldtraps day tmp s s' found -> path_parts (abspath cwd datedir) = day ->
  renames [a; b] [x; y] -> (forall c, In c corder -> In c known) ->
  exists violins n, compare_violin parse L s' cwd data_path known datedir corder [a; b] [x; y] = Ok (violins, n) /\
    map fst violins = corder /\
    forall c halves, In (c, halves) violins -> exists v w, halves = [(y, v); (x, w)] /\
      Permutation v (log_ices back found c b) /\ Permutation w (log_ices back found c a).
Proof.
  intros C P Rn K. destruct (C88_violin parse back coldtraps day tmp s s' found L cwd data_path known datedir corder _ _ C P Rn K) as (violins & n & V & Fv & H).
  exists violins, n. split; [exact V|]. split; [exact Fv|]. intros c halves I. destruct (H c halves I) as [Fh G]. cbn [rev app] in Fh.
  destruct halves as [|[h1 v] [|[h2 w] [|? ?]]]; try discriminate. cbn [map fst] in Fh. injection Fh as -> ->. exists v, w. split; [reflexivity|]. split.
  - apply (G b y v); cbn [combine In]; auto.
  - apply (G a x w); cbn [combine In]; auto.
Qed.

(** The two halves of a violin of the lost fractions hold the runs without and with
    sedimentation that loses half of the ice. *)
Theorem C99_bsed : forall parse back coldtraps day tmp s s' found L cwd data_path known datedir,
  collected parse back coldtraps day tmp s s' found -> path_parts (abspath cwd datedir) = day ->
  (forall c, In c CORDER -> In c known) ->
  exists violins n, bsed_sensitivity_violin parse L s' cwd data_path known datedir = Ok (violins, n) /\
    map fst violins = CORDER /\
    forall c halves, In (c, halves) violins -> exists none half,
      halves = [("0% lost"%string, none); ("50% lost"%string, half)] /\
      Permutation none (log_ices back found c "no_bsed") /\ Permutation half (log_ices back found c "bsed_50pct").
Proof.
  intros parse back cts day tmp s s' found L cwd dp known dd C P K. eapply two_halves; eauto. 
  apply two_renames; cbn [In]; intuition discriminate.
Qed.

(** The two halves of a violin of the comets hold the runs with comets of water and the
    default runs. *)
Theorem C99_comets : forall parse back coldtraps day tmp s s' found L cwd data_path known datedir,
  collected parse back coldtraps day tmp s s' found -> path_parts (abspath cwd datedir) = day ->
  (forall c, In c CORDER -> In c known) ->
  exists violins n, comet_sensitivity_violin parse L s' cwd data_path known datedir = Ok (violins, n) /\
    map fst violins = CORDER /\
    forall c halves, In (c, halves) violins -> exists wet default,
      halves = [("100%"%string, wet); ("20%"%string, default)] /\
      Permutation wet (log_ices back found c "comet_100pct") /\ Permutation default (log_ices back found c "moonpies").
Proof.
  intros parse back cts day tmp s s' found L cwd dp known dd C P K. eapply two_halves; eauto. 
  apply two_renames; cbn [In]; intuition discriminate.
Qed.

(** ** Cases *)

(** Upper right, moved as in compare_violin. *)
Example C99_mark_case : corner "ur" 1 1 "top" "right" /\
  exists m, plot_version "1.0" "ur" None (Some (1 / 100, - (4 / 10))) = Ok ("v1.0"%string, m) /\
    mk_text m = "MoonPIES v1.0"%string /\ mk_x m = 99 / 100 /\ mk_y m = 565 / 1000.
Proof.
  split; [exists "u"%char, "r"%char, ""%string; split; [reflexivity|]; split; right; auto|].
  eexists. split; [reflexivity|]. split; [reflexivity|]. cbn [mk_x mk_y]. split; lra.
Qed.
Example C99_mark_errors_case : (forall x y va ha, ~ corner "center" x y va ha) /\
  plot_version "1.0" "center" None None = Err AttributeError.
Proof.
  split; [|reflexivity]. intros x y va ha (a & b & rest & E & [(-> & _)|(-> & _)] & _); discriminate.
Qed.
(** In a directory with the version names stay, elsewhere they get it. *)
Example C99_case :
  (exists files, generate_all (FIGDIR "/work/figures/" "240101" "1.0") "1.0" = Ok files /\
     In ("grid_plots", [mk_ppath true ["work"; "figures"; "240101_v1.0"; "grid_plots.png"]])%string files) /\
  exists files, generate_all "figs" "1.0" = Ok files /\
    In ("grid_plots", [mk_ppath false ["figs"; "grid_plots_v1.0.png"]])%string files.
Proof. split; eexists; (split; [vm_compute; reflexivity|]); cbn [In]; intuition auto. Qed.
Example C99_versions_case : exists f p1 p2, In f FIGURES /\ fg_fsave f <> ""%string /\ fg_version f = true /\
  (forall v, v = "1.0"%string \/ v = "1.1"%string -> ~ occurs ("v" ++ v) (as_posix (mk_ppath (starts_slash "figs") (path_parts "figs" ++ [fg_fsave f])))) /\
  writes "figs" "1.0" f = Ok [p1] /\ writes "figs" "1.1" f = Ok [p2].
Proof.
  eexists (mk_figure "grid_plots" "grid_plots.png" true ""), _, _. split; [cbn [In FIGURES]; intuition auto|]. split; [discriminate|]. split; [reflexivity|].
  split; [|split; vm_compute; reflexivity].
  intros v [->| ->]; rewrite <- contains_occurs; vm_compute; discriminate.
Qed.
(** The day of C88_case: all runs are default runs or without sedimentation, each has 10 m. *)
Example C99_comets_case : exists s' found violins n, 
  collected ten ten ["Faustini"%string] dday dtmp (disk_of ten_files) s' found /\
  comet_sensitivity_violin ten (listed []) s' "/" data_at CORDER "/out/d" = Ok (violins, n) /\
  In ("Faustini", [("100%", []); ("20%", [log10 10; log10 10])])%string violins.
Proof.
  destruct ten_collected as (s' & found & C & P). exists s', found.
  destruct (C99_comets ten ten ["Faustini"%string] dday dtmp (disk_of ten_files) s' found (listed []) "/" data_at CORDER "/out/d" C eq_refl (fun c H => H))
    as (violins & n & V & Fv & H). exists violins, n. split; [exact C|]. split; [exact V|].
  destruct violins as [|[c halves] vs]; [discriminate|]. cbn [map fst CORDER] in Fv. injection Fv as -> _.
  destruct (H _ _ (or_introl eq_refl)) as (wet & dry & -> & W & D).
  assert (Fp : forall (p : _ -> bool), Permutation (filter p found) (filter p (map (fun k => (k, tens)) ten_keys))).
  { intros p. clear -P. induction P; cbn [filter]; try destruct (p x); try destruct (p y); eauto using perm_skip, perm_swap, Permutation_trans, Permutation_refl. }
  assert (W0 : wet = []).
  { apply Permutation_nil, Permutation_sym. etransitivity; [exact W|]. etransitivity; [apply Permutation_map, Fp|]. cbn [map filter ten_keys]. unfold of_run. cbn [fst snd]. eqbs. cbn [andb]. reflexivity. }
  assert (D0 : dry = [log10 10; log10 10]).
  { assert (X : Permutation dry [log10 10; log10 10]).
    { etransitivity; [exact D|]. etransitivity; [apply Permutation_map, Fp|]. cbn [map filter ten_keys]. unfold of_run. cbn [fst snd]. eqbs. cbn [andb].
      unfold ice_in, ten. rewrite (proj2 (Rleb_true 1 10)) by lra. reflexivity. }
    apply Permutation_sym, Permutation_length_2_inv in X as [->| ->]; reflexivity. }
  rewrite W0, D0. now left.
Qed.

Print Assumptions C99_mark.
Print Assumptions C99_mark_errors.
Print Assumptions C99_distinct.
Print Assumptions C99_default.
Print Assumptions C99_overwritten_refuted.
Print Assumptions C99_versions.
Print Assumptions C99_bsed.
Print Assumptions C99_comets.
