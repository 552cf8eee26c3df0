(** Proofs about the colour map of the stratigraphy figure and the files it reads. *)
From Coq Require Import String Ascii List ZArith Reals Bool Lra Lia Sorted.
From Verif Require Import Base Model_Time Model_Interp Model_Path Model_Figure Spec_Figure
  Proofs_Base Proofs_Time Proofs_Interp Proofs_Path.
From Verif Require Proofs_Figure.
Import ListNotations.
Open Scope R_scope.
Open Scope list_scope.

(** * Files *)
Lemma parts_slash a b : path_parts (a ++ String slash b) = path_parts a ++ path_parts b.
Proof. unfold path_parts. rewrite split_app, filter_app. reflexivity. Qed.
Lemma parts_plain b : plainc b -> path_parts b = [b].
Proof.
  intros (A & B & _ & N). unfold path_parts. rewrite split_noslash_id by auto. cbn [filter].
  apply String.eqb_neq in A, B. rewrite A, B. reflexivity.
Qed.
Lemma parts_end a : path_parts (a ++ "/") = path_parts a.
Proof. change "/"%string with (String slash ""). rewrite parts_slash. apply app_nil_r. Qed.
Lemma parts_join a b : starts_slash b = false -> path_parts (path_join a b) = path_parts a ++ path_parts b.
Proof.
  intros S. unfold path_join. rewrite S. destruct a as [|c a]; [reflexivity|].
  destruct (ends_slash (String c a)) eqn:E.
  - destruct (ends_last _ E) as (t & ->). rewrite app_assoc_s. change ("/" ++ b)%string with (String slash b).
    rewrite parts_slash, parts_end. reflexivity.
  - change ("/" ++ b)%string with (String slash b). apply parts_slash.
Qed.
Lemma parts_addc r b : path_parts (addc r b) = path_parts r ++ path_parts b.
Proof.
  unfold addc. destruct (ends_slash r) eqn:E.
  - destruct (ends_last r E) as (t & ->). rewrite app_assoc_s. change ("/" ++ b)%string with (String slash b).
    rewrite parts_slash, parts_end. reflexivity.
  - rewrite ?app_assoc_s. change ("/" ++ b)%string with (String slash b). apply parts_slash.
Qed.

Lemma plain_plainc n : plain_name n -> plainc n.
Proof.
  intros (A & B & C & D). split; auto. split; auto. split; auto.
  destruct (noslash n) eqn:E; auto. exfalso.
  assert (X : exists a b, n = (a ++ "/" ++ b)%string).
  { clear -E. induction n as [|c n IH]; cbn in E; [discriminate|]. destruct (Ascii.eqb_spec c slash) as [->|N].
    - exists EmptyString, n. reflexivity.
    - cbn in E. destruct (IH E) as (a & b & ->). exists (String c a), b. reflexivity. }
  destruct X as (a & b & ->). exact (D a b eq_refl).
Qed.

Lemma strat_file_iff P run seed ct : plain_name run ->
  (strat_file P run seed ct = Ok (path_parts P ++ ["strat_" ++ ct ++ ".csv"]%string) <->
   exists pre, path_parts P = pre ++ [run; format_05d seed]).
Proof.
  intros PN. unfold strat_file. cbv zeta. rewrite (parts_plain run (plain_plainc _ PN)).
  set (parts := path_parts P). destruct (Nat.ltb_spec (length parts) 2) as [L|L].
  - split; [discriminate|]. intros (pre & E). rewrite E, app_length in L. cbn in L. lia.
  - split.
    + intros E. assert (Inj : forall a b : list string, Ok a = Ok b -> a = b) by congruence. apply Inj in E.
      exists (firstn (length parts - 2) parts).
      change ([run] ++ [format_05d seed; ("strat_" ++ ct ++ ".csv")%string])
        with ([run; format_05d seed] ++ [("strat_" ++ ct ++ ".csv")%string]) in E.
      rewrite app_assoc in E. apply app_inv_tail in E. auto.
    + intros (pre & ->). rewrite app_length. cbn [length]. replace (length pre + 2 - 2)%nat with (length pre) by lia.
      rewrite firstn_app, Nat.sub_diag, firstn_all. cbn [firstn]. rewrite app_nil_r, <- app_assoc. reflexivity.
Qed.

(** * Hexadecimal numbers *)
Lemma hex_digit_ok c n : digit_value c n -> hex_digit c = Ok (Z.of_nat n) /\ (n < 16)%nat.
Proof.
  unfold digit_value. intros [H|H].
  - do 16 (destruct n as [|n]; [cbn in H; injection H as <-; split; [reflexivity|lia]|]). destruct n; discriminate.
  - do 16 (destruct n as [|n]; [cbn in H; injection H as <-; split; [reflexivity|lia]|]). destruct n; discriminate.
Qed.
Lemma digit_not_hash c n : digit_value c n -> Ascii.eqb c "#" = false.
Proof.
  unfold digit_value. intros [H|H].
  - do 16 (destruct n as [|n]; [cbn in H; injection H as <-; reflexivity|]). destruct n; discriminate.
  - do 16 (destruct n as [|n]; [cbn in H; injection H as <-; reflexivity|]). destruct n; discriminate.
Qed.

Lemma six_rgb s r g b : six_digits s r g b ->
  hex_to_rgb s = Ok [INR r / 256; INR g / 256; INR b / 256] /\ (r < 256 /\ g < 256 /\ b < 256)%nat.
Proof.
  intros (c1 & c2 & c3 & c4 & c5 & c6 & d1 & d2 & d3 & d4 & d5 & d6 & H1 & H2 & H3 & H4 & H5 & H6 & Er & Eg & Eb & E).
  assert (Sh : strip_hash s = String c1 (String c2 (String c3 (String c4 (String c5 (String c6 EmptyString)))))).
  { unfold strip_hash. destruct E as [-> | ->]; cbn [list_ascii_of_string lstrip_hash Ascii.eqb Bool.eqb];
      rewrite (digit_not_hash _ _ H1); cbn [rev app lstrip_hash]; rewrite (digit_not_hash _ _ H6); reflexivity. }
  unfold hex_to_rgb. cbv zeta. rewrite Sh. cbn [String.length].
  change (6 / 3)%nat with 2%nat. change ((6 + 2 - 1) / 2)%nat with 3%nat. cbn [Nat.eqb seq mapM Nat.mul Nat.add substring].
  unfold hex_int. cbn [list_ascii_of_string fold_left bind].
  destruct (hex_digit_ok _ _ H1) as [-> B1], (hex_digit_ok _ _ H2) as [-> B2], (hex_digit_ok _ _ H3) as [-> B3],
    (hex_digit_ok _ _ H4) as [-> B4], (hex_digit_ok _ _ H5) as [-> B5], (hex_digit_ok _ _ H6) as [-> B6].
  cbn [bind]. split; [|lia]. rewrite !INR_IZR_INZ.
  replace (Z.of_nat r) with (16 * (16 * 0 + Z.of_nat d1) + Z.of_nat d2)%Z by lia.
  replace (Z.of_nat g) with (16 * (16 * 0 + Z.of_nat d3) + Z.of_nat d4)%Z by lia.
  replace (Z.of_nat b) with (16 * (16 * 0 + Z.of_nat d5) + Z.of_nat d6)%Z by lia.
  reflexivity.
Qed.

Lemma hex_int_err s : match hex_int s with Ok _ => True | Err e => e = ValueError end.
Proof.
  unfold hex_int. destruct s as [|c s]; [reflexivity|].
  assert (G : forall l acc, match acc with Ok _ => True | Err e => e = ValueError end ->
    match fold_left (fun acc c => let* v := acc in let* d := hex_digit c in Ok (16 * v + d)%Z) l acc with
    | Ok _ => True | Err e => e = ValueError end).
  { induction l as [|x l IH]; intros acc H; [exact H|]. cbn [fold_left]. apply IH.
    destruct acc as [v|e]; cbn [bind]; [|exact H]. unfold hex_digit. cbv zeta.
    repeat match goal with |- context [if ?b then _ else _] => destruct b; cbn [bind]; auto end. }
  apply G. exact I.
Qed.
Lemma hex_errors s : match hex_to_rgb s with Ok v => (3 <= length v)%nat | Err e => e = ValueError end.
Proof.
  unfold hex_to_rgb. cbv zeta. set (lv := String.length (strip_hash s)). set (n := (lv / 3)%nat).
  destruct (Nat.eqb_spec n 0) as [Z|Z]; [reflexivity|].
  assert (L : (3 <= (lv + n - 1) / n)%nat).
  { apply Nat.div_le_lower_bound; auto. pose proof (Nat.mul_div_le lv 3 ltac:(lia)). fold n in H. lia. }
  rewrite <- (seq_length ((lv + n - 1) / n) 0) in L. revert L.
  generalize (seq 0 ((lv + n - 1) / n)). generalize 3%nat. intros m l.
  enough (G : match mapM (fun i => let* v := hex_int (substring (i * n) n (strip_hash s)) in Ok (IZR v / 256)) l with
              | Ok v => length v = length l | Err e => e = ValueError end).
  { destruct (mapM _ l); auto. intros; lia. }
  induction l as [|i l IH]; [reflexivity|]. cbn [mapM].
  pose proof (hex_int_err (substring (i * n) n (strip_hash s))) as H.
  destruct (hex_int _); cbn [bind]; auto. destruct (mapM _ l); cbn [bind]; auto. cbn. lia.
Qed.

(** * The table of colours *)
Definition chan (j : nat) (c : nat * nat * nat) : R :=
  match j with O => INR (fst (fst c)) / 256 | S O => INR (snd (fst c)) / 256 | _ => INR (snd c) / 256 end.

Lemma codes_rgbs codes cols : Forall2 (fun s '(r, g, b) => six_digits s r g b) codes cols ->
  mapM hex_to_rgb codes = Ok (map (fun c => [chan 0 c; chan 1 c; chan 2 c]) cols).
Proof.
  induction 1 as [|s [[r g] b] codes cols H _ IH]; [reflexivity|]. cbn [mapM map].
  destruct (six_rgb _ _ _ _ H) as [-> _]. cbn [bind]. rewrite IH. reflexivity.
Qed.

Lemma mapM_fun {A B} (f : A -> result B) g l : (forall x, In x l -> f x = Ok (g x)) -> mapM f l = Ok (map g l).
Proof.
  induction l as [|x l IH]; intros H; [reflexivity|]. cbn [mapM map]. rewrite (H x (or_introl eq_refl)). cbn [bind].
  rewrite IH; [reflexivity|]. intros y Hy. apply H. now right.
Qed.

Lemma enum_combine (locs : list R) (ys : list R) : length locs = length ys ->
  map (fun '(i, loc) => (loc, nth i ys 0)) (enum locs) = combine locs ys.
Proof.
  unfold enum. enough (G : forall (pre l ys : list R), length l = length ys ->
    map (fun '(i, loc) => (loc, nth i (pre ++ ys) 0)) (combine (seq (length pre) (length l)) l) = combine l ys).
  { intros H. exact (G [] locs ys H). }
  intros pre l. revert pre. induction l as [|x l IH]; intros pre [|y zs] L; try discriminate; [reflexivity|].
  cbn [length seq combine map]. rewrite app_nth2, Nat.sub_diag by lia. cbn [nth]. f_equal.
  specialize (IH (pre ++ [y]) zs). rewrite app_length in IH. cbn [length] in IH.
  rewrite Nat.add_1_r in IH. rewrite <- app_assoc in IH. apply IH. cbn in L. lia.
Qed.

Definition seg (cols : list (nat * nat * nat)) (j : nat) : list (R * R) :=
  combine (linspace 0 1 (length cols)) (map (chan j) cols).

Lemma make_cmap_ok codes cols : Forall2 (fun s '(r, g, b) => six_digits s r g b) codes cols ->
  make_cmap codes None = Ok [seg cols 0; seg cols 1; seg cols 2].
Proof.
  intros F. unfold make_cmap. rewrite (codes_rgbs _ _ F). cbn [bind]. rewrite map_length.
  set (locs := linspace 0 1 (length cols)). set (rgbs := map _ cols).
  assert (G : forall num, (num < 3)%nat ->
    mapM (fun '(i, loc) => let* rgb := get rgbs i in let* v := get rgb num in Ok (loc, v)) (enum locs) = Ok (seg cols num)).
  { intros num Hn. unfold seg. fold locs. rewrite <- enum_combine by (unfold locs; now rewrite linspace_length, map_length).
    rewrite (mapM_fun _ (fun '(i, loc) => (loc, nth i (map (chan num) cols) 0))); [reflexivity|].
    intros [i loc] Hi. apply Proofs_Figure.enum_In in Hi.
    assert (L : (i < length cols)%nat).
    { rewrite <- (linspace_length 0 1 (length cols)). fold locs. apply nth_error_Some. congruence. }
    destruct (nth_error cols i) as [c|] eqn:Ec; [|apply nth_error_None in Ec; lia].
    unfold get. unfold rgbs. rewrite nth_error_map, Ec. cbn [option_map bind].
    rewrite (nth_error_nth (map (chan num) cols) i 0 (map_nth_error (chan num) i cols Ec)).
    destruct num as [|[|[|num]]]; [reflexivity..|lia]. }
  cbn [seq mapM]. rewrite !G by lia. reflexivity.
Qed.

Lemma map_fst_combine {A B} (a : list A) (b : list B) : length a = length b -> map fst (combine a b) = a.
Proof. revert b. induction a as [|x a IH]; intros [|y b] L; try discriminate; [reflexivity|]. cbn in *. f_equal. apply IH. lia. Qed.

Lemma linspace_step n i x y : (2 <= n)%nat -> nth_error (linspace 0 1 n) i = Some x ->
  nth_error (linspace 0 1 n) (S i) = Some y -> x < y.
Proof.
  intros Hn Hx Hy. assert (L : (S i < n)%nat) by (rewrite <- (linspace_length 0 1 n); apply nth_error_Some; congruence).
  rewrite linspace_nth in Hx, Hy by lia. assert (Inj : forall a b : R, Some a = Some b -> a = b) by congruence.
  apply Inj in Hx, Hy. rewrite <- Hx, <- Hy.
  rewrite S_INR. assert (H : 1 < INR n) by (apply (lt_INR 1); lia).
  assert (0 < (1 - 0) / (INR n - 1)) by (apply Rdiv_lt_0_compat; lra). nra.
Qed.
Lemma valid_linspace n : (2 <= n)%nat -> valid_locs (linspace 0 1 n) = true.
Proof.
  intros Hn. pose proof (linspace_first 0 1 n ltac:(lia)) as Hf. pose proof (linspace_last 0 1 n Hn) as Hl.
  pose proof (linspace_step n) as St. pose proof (linspace_length 0 1 n) as Ln.
  unfold valid_locs. destruct (linspace 0 1 n) as [|x l] eqn:E; [discriminate|]. rewrite <- E in *.
  rewrite E in Hf. cbn in Hf. injection Hf as ->.
  rewrite (proj2 (Reqb_true 0 0) eq_refl). cbn [andb].
  assert (La : last (linspace 0 1 n) 0 = 1).
  { pose proof (last_nth (linspace 0 1 n) 0 ltac:(rewrite E; discriminate)) as H. rewrite Ln, Hl in H. congruence. }
  rewrite La, (proj2 (Reqb_true 1 1) eq_refl). cbn [andb]. apply forallb_forall. intros [a b] Hab.
  apply Rleb_true. apply In_nth_error in Hab as (i & Hi).
  assert (G : nth_error (linspace 0 1 n) i = Some a /\ nth_error (skipn 1 (linspace 0 1 n)) i = Some b).
  { revert Hi. generalize (linspace 0 1 n), (skipn 1 (linspace 0 1 n)). intros u v. revert i v.
    induction u as [|p u IH]; intros i [|q v] H; destruct i; cbn in *; try discriminate; [injection H as -> ->; auto|auto]. }
  destruct G as [G1 G2]. rewrite E in G2. cbn [skipn] in G2.
  apply Rlt_le. apply (St i); auto. rewrite E. exact G2.
Qed.
Lemma linspace_increasing n ys : (2 <= n)%nat -> length ys = n -> increasing_x (combine (linspace 0 1 n) ys).
Proof.
  intros Hn L. unfold increasing_x. apply Sorted_StronglySorted; [intros a b c; lra|].
  pose proof (linspace_step n) as St. revert St. pose proof (linspace_length 0 1 n) as Ln. revert Ln L.
  generalize (linspace 0 1 n). intros l L1 L2 St.
  assert (St' : forall i x y, nth_error l i = Some x -> nth_error l (S i) = Some y -> x < y) by (intros; eapply St; eauto).
  clear St Hn. assert (L : length l = length ys) by lia. clear L1 L2. revert ys L St'.
  induction l as [|x l IH]; intros [|y ys] L St; try discriminate; cbn [combine]; constructor.
  - apply IH; [cbn in L; lia|]. intros i u v Hu Hv. exact (St (S i) u v Hu Hv).
  - destruct l as [|x' l], ys as [|y' ys]; cbn [combine]; constructor. exact (St O x x' eq_refl eq_refl).
Qed.

Lemma chan_range cols codes j : Forall2 (fun s '(r, g, b) => six_digits s r g b) codes cols ->
  Forall (fun y => 0 <= y <= 255 / 256) (map (chan j) cols).
Proof.
  induction 1 as [|s [[r g] b] codes cols H _ IH]; constructor; auto.
  destruct (six_rgb _ _ _ _ H) as [_ (Hr & Hg & Hb)].
  assert (G : forall n, (n < 256)%nat -> 0 <= INR n / 256 <= 255 / 256).
  { intros n Hn. pose proof (pos_INR n). assert (INR n <= INR 255) by (apply le_INR; lia).
    replace (INR 255) with 255 in * by (rewrite INR_IZR_INZ; reflexivity). lra. }
  destruct j as [|[|j]]; cbn [chan fst snd]; auto.
Qed.

Lemma combine_nth {A B} (a : list A) (b : list B) i x y : nth_error a i = Some x -> nth_error b i = Some y ->
  nth_error (combine a b) i = Some (x, y).
Proof. revert a b. induction i as [|i IH]; intros [|? a] [|? b] Ha Hb; try discriminate; cbn in *; [congruence|auto]. Qed.

(** Entry [k] lies on the line between two neighbouring colours. *)
Lemma lut_linear codes cols j k i a b :
  Forall2 (fun s '(r, g, b) => six_digits s r g b) codes cols ->
  nth_error cols i = Some a -> nth_error cols (S i) = Some b ->
  let w := INR k / 255 * (INR (length cols) - 1) - INR i in 0 <= w <= 1 ->
  lut_entry (seg cols j) k = Ok ((1 - w) * chan j a + w * chan j b).
Proof.
  intros F Ha Hb w W. assert (L : (S i < length cols)%nat) by (apply nth_error_Some; congruence).
  set (n := length cols) in *. assert (N1 : 1 < INR n) by (apply (lt_INR 1); lia).
  unfold lut_entry, seg. fold n. rewrite map_fst_combine by now rewrite linspace_length, map_length.
  rewrite valid_linspace by lia.
  assert (Inc : increasing_x (combine (linspace 0 1 n) (map (chan j) cols))) by (apply linspace_increasing; [lia|apply map_length]).
  pose proof (interp_linear _ i (0 + INR i * ((1 - 0) / (INR n - 1))) (chan j a) (0 + INR (S i) * ((1 - 0) / (INR n - 1))) (chan j b) w Inc) as I.
  rewrite (combine_nth _ _ i (0 + INR i * ((1 - 0) / (INR n - 1))) (chan j a)) in I; [|apply linspace_nth; lia|exact (map_nth_error _ _ _ Ha)].
  rewrite (combine_nth _ _ (S i) (0 + INR (S i) * ((1 - 0) / (INR n - 1))) (chan j b)) in I; [|apply linspace_nth; lia|exact (map_nth_error _ _ _ Hb)].
  specialize (I eq_refl eq_refl W).
  replace ((1 - w) * (0 + INR i * ((1 - 0) / (INR n - 1))) + w * (0 + INR (S i) * ((1 - 0) / (INR n - 1)))) with (INR k / 255) in I.
  - rewrite I. cbn [bind].
    pose proof (interp_in_range _ _ _ 0 (255 / 256) Inc I) as B.
    assert (HF : Forall (fun p => 0 <= snd p <= 255 / 256) (combine (linspace 0 1 n) (map (chan j) cols))).
    { pose proof (chan_range cols codes j F) as C. rewrite Forall_forall in C |- *. intros [x y] Hxy.
      apply C. exact (in_combine_r _ _ _ _ Hxy). }
    specialize (B HF). f_equal. rewrite Rmin_right by lra. apply Rmax_right. lra.
  - rewrite S_INR. unfold w. field. lra.
Qed.

Lemma index_le x : (lut_index x <= 255)%nat.
Proof.
  unfold lut_index. rcase (x * 256) 0 A; [lia|]. destruct (Rleb 256 (x * 256)) eqn:E; [lia|]. apply Rleb_false in E.
  destruct (base_Int_part (x * 256)) as [B C]. assert (IZR (Int_part (x * 256)) < 256) by lra.
  apply lt_IZR in H. lia.
Qed.
Lemma index_spec x : 0 <= x < 1 -> 256 * x - 1 < INR (lut_index x) <= 256 * x.
Proof.
  intros H. unfold lut_index. rewrite (proj2 (Rltb_false _ _)) by lra. rewrite (proj2 (Rleb_false _ _)) by lra.
  destruct (base_Int_part (x * 256)) as [B C].
  assert (0 <= Int_part (x * 256))%Z.
  { assert (IZR (-1) < IZR (Int_part (x * 256))) by lra. apply lt_IZR in H0. lia. }
  rewrite INR_IZR_INZ, Z2Nat.id by lia. lra.
Qed.
Lemma index_high x : 1 <= x -> lut_index x = 255%nat.
Proof. intros H. unfold lut_index. rewrite (proj2 (Rltb_false _ _)) by lra. now rewrite (proj2 (Rleb_true _ _)) by lra. Qed.
Lemma index_low x : x <= 0 -> lut_index x = 0%nat.
Proof.
  intros H. unfold lut_index. rcase (x * 256) 0 A; [reflexivity|]. assert (x = 0) by lra. subst x.
  rewrite (proj2 (Rleb_false _ _)) by lra. rewrite Rmult_0_l. 
  assert (Int_part 0 = 0%Z).
  { destruct (base_Int_part 0) as [B C]. assert (IZR (Int_part 0) < 1) by lra. assert (IZR (-1) < IZR (Int_part 0)) by lra.
    apply lt_IZR in H0, H1. lia. }
  rewrite H0. reflexivity.
Qed.
