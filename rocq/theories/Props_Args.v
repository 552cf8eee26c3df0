(** C102: how the arguments of the command may be spelt. *)
From Coq Require Import ZArith Bool Ascii String List Lia.
From Verif Require Import Base Model_Path Model_Cfg Model_Save Model_Cmd Model_Args.
Import ListNotations.
Open Scope string_scope.

(** A text that is no option: not longer than a dash, or not beginning with one. *)
Definition no_dash (t : string) : Prop :=
  match t with String a (String _ _) => a <> "-"%char | _ => True end.
(** A seed: a number, if negative with no letter of an option after the dash. *)
Definition seed_text (int : string -> option Z) (t : string) (z : Z) : Prop :=
  int t = Some z /\
  match t with String a (String b _) => a = "-"%char -> ~ In b ["-"; "c"; "h"; "v"]%char | _ => True end.
(** The spellings of --resume and of --cfg. *)
Definition resume_words : list string := ["--r"; "--re"; "--res"; "--resu"; "--resum"; "--resume"].
Definition cfg_words : list string := ["--c"; "--cf"; "--cfg"; "-c"].

(** What a user says: a seed, a file or to resume, each in one of its spellings. *)
Inductive said (int : string -> option Z) : list string -> option Z -> option string -> bool -> Prop :=
| said_nothing : said int [] None None false
| said_seed : forall t z, seed_text int t z -> said int [t] (Some z) None false
| said_resume : forall w, In w resume_words -> said int [w] None None true
| said_apart : forall w p, In w cfg_words -> no_dash p -> said int [w; p] None (Some p) false
| said_equals : forall w p, In w cfg_words -> said int [w ++ "=" ++ p] None (Some p) false
| said_joined : forall a p, a <> "="%char -> said int ["-c" ++ String a p] None (Some (String a p)) false.

Lemma plain int p : no_dash p -> classify int p = Positional.
Proof.
  destruct p as [|a [|b r]]; try reflexivity. intros H. cbn in H. unfold classify.
  destruct (Ascii.eqb_spec a "-"); [contradiction|reflexivity].
Qed.
Lemma plain_seed int t z : seed_text int t z -> classify int t = Positional.
Proof.
  intros [I H]. destruct t as [|a [|b r]]; try reflexivity. unfold classify.
  destruct (Ascii.eqb_spec a "-") as [->|]; [|reflexivity]. specialize (H eq_refl).
  assert (N : forall x, In x ["-"; "c"; "h"; "v"]%char -> Ascii.eqb x b = false /\ Ascii.eqb b x = false).
  { intros x X. split; apply Ascii.eqb_neq; intros ->; auto. }
  assert (Nd := N "-"%char ltac:(cbn; auto)). assert (Nc := N "c"%char ltac:(cbn; auto)).
  assert (Nh := N "h"%char ltac:(cbn; auto)). assert (Nv := N "v"%char ltac:(cbn; auto)).
  destruct Nd as [Nd Nd'], Nc as [Nc Nc'], Nh as [Nh Nh'], Nv as [Nv Nv'].
  assert (EX : forall q, exact (String "-" (String b q)) = None).
  { intros q. unfold exact, option_strings. cbn [find fst String.eqb].
    change (Ascii.eqb "-" "-") with true. cbv iota. rewrite Nd, Nc, Nh, Nv. reflexivity. }
  assert (PX : forall x q, In x ["-"; "c"; "h"; "v"]%char -> forall q', prefix (String "-" (String b q)) (String "-" (String x q')) = false).
  { intros x q X q'. cbn [prefix]. destruct (ascii_dec "-" "-") as [_|C]; [|contradiction].
    destruct (ascii_dec b x) as [->|]; [contradiction|reflexivity]. }
  rewrite EX.
  assert (SX : match split_eq (String "-" (String b r)) with Some (n, v) => option_map (fun o => (o, v)) (exact n) | None => None end = None).
  { cbn [split_eq]. change (Ascii.eqb "-" "=") with false. cbv iota. destruct (Ascii.eqb b "="); [reflexivity|].
    destruct (split_eq r) as [[n v]|]; [|reflexivity]. now rewrite EX. }
  rewrite SX.
  assert (AX : abbreviates (String "-" (String b r)) = []).
  { unfold abbreviates. rewrite Nd'. unfold option_strings. cbn [flat_map fst snd String.eqb].
    change (Ascii.eqb "-" "-") with true. cbv iota. rewrite Nd, Nc, Nh, Nv.
    rewrite !PX by (cbn; auto). reflexivity. }
  rewrite AX. unfold negative_number. rewrite I. reflexivity.
Qed.
Lemma resume_kind int w : In w resume_words -> classify int w = Option OResume None.
Proof. intros H. cbn in H. repeat (destruct H as [<-|H]; [reflexivity|]). destruct H. Qed.
Lemma cfg_kind int w : In w cfg_words -> classify int w = Option OCfg None.
Proof. intros H. cbn in H. repeat (destruct H as [<-|H]; [reflexivity|]). destruct H. Qed.
Lemma equals_kind int w p : In w cfg_words -> classify int (w ++ "=" ++ p) = Option OCfg (Some p).
Proof. intros H. cbn in H. repeat (destruct H as [<-|H]; [destruct p; reflexivity|]). destruct H. Qed.
Lemma joined_kind int a p : a <> "="%char -> classify int ("-c" ++ String a p) = Option OCfg (Some (String a p)).
Proof.
  intros N. apply Ascii.eqb_neq in N. cbn [append]. unfold classify. change (Ascii.eqb "-" "-") with true. cbv iota.
  assert (EX : forall q, exact (String "-" (String "c" (String a q))) = None) by reflexivity. rewrite EX.
  cbn [split_eq]. change (Ascii.eqb "-" "=") with false. change (Ascii.eqb "c" "=") with false. cbv iota. rewrite N.
  destruct (split_eq p) as [[n v]|]; [rewrite EX|]; cbn [option_map]; reflexivity.
Qed.

(** What was said later wins for the file; the seed is said once. *)
Definition later {A} (a b : option A) : option A := match b with Some _ => b | None => a end.

Lemma one_said int ws z f r rest seed cfg_file resume : said int ws z f r -> (z = None \/ seed = None) ->
  parse_full int (ws ++ rest) seed cfg_file resume = parse_full int rest (later seed z) (later cfg_file f) (resume || r).
Proof.
  intros S O. destruct S as [|t z' T|w W|w p W N|w p W|a p N]; cbn [app].
  - cbn [later]. now rewrite orb_false_r.
  - cbn [parse_full]. rewrite (plain_seed int t z' T). destruct O as [O|O]; [discriminate|]. rewrite O, (proj1 T). cbn [later]. now rewrite orb_false_r.
  - cbn [parse_full]. rewrite (resume_kind int w W). cbn [later]. now rewrite orb_true_r.
  - cbn [parse_full]. rewrite (cfg_kind int w W), (plain int p N). cbn [later]. now rewrite orb_false_r.
  - cbn [parse_full]. rewrite (equals_kind int w p W). cbn [later]. now rewrite orb_false_r.
  - cbn [parse_full]. rewrite (joined_kind int a p N). cbn [later]. now rewrite orb_false_r.
Qed.

(** The seed of a list of sayings, their last file, and whether one of them says to resume. *)
Definition saying : Type := (list string * option Z * option string * bool)%type.
Definition valid (int : string -> option Z) (s : saying) : Prop := let '(ws, z, f, r) := s in said int ws z f r.
Definition seeds_of (l : list saying) : list Z := flat_map (fun '(_, z, _, _) => match z with Some x => [x] | None => [] end) l.
Definition files_of (l : list saying) : list string := flat_map (fun '(_, _, f, _) => match f with Some x => [x] | None => [] end) l.
Definition words_of (l : list saying) : list string := flat_map (fun '(ws, _, _, _) => ws) l.
Definition last_of (l : list string) : option string := match rev l with [] => None | x :: _ => Some x end.

Lemma last_app f l : last_of (f :: l) = later (Some f) (last_of l).
Proof. unfold last_of. cbn [rev]. destruct (rev l); reflexivity. Qed.
Lemma all_said int : forall l seed cfg_file resume, Forall (valid int) l ->
  match seed, seeds_of l with None, [] | Some _, [] | None, [_] => True | _, _ => False end ->
  parse_full int (words_of l) seed cfg_file resume =
    Args (match seeds_of l with z :: _ => Some z | [] => seed end) (later cfg_file (last_of (files_of l))) (resume || existsb snd l).
Proof.
  induction l as [|[[[ws z] f] r] l IH]; intros seed cfg_file resume V O.
  - cbn. now rewrite orb_false_r.
  - inversion V as [|? ? V1 V2]. subst. cbn [valid] in V1. unfold words_of. cbn [flat_map]. fold (words_of l).
    assert (Z0 : z = None \/ seed = None).
    { destruct z; [right|left; reflexivity]. unfold seeds_of in O. cbn [flat_map app] in O. destruct seed; [contradiction|reflexivity]. }
    rewrite (one_said int ws z f r _ _ _ _ V1 Z0). rewrite IH; [|exact V2|].
    + assert (SD : (match seeds_of l with z' :: _ => Some z' | [] => later seed z end) = (match seeds_of ((ws, z, f, r) :: l) with z' :: _ => Some z' | [] => seed end)).
      { unfold seeds_of at 2. cbn [flat_map]. fold (seeds_of l). unfold seeds_of in O. cbn [flat_map] in O. fold (seeds_of l) in O.
        destruct z as [z|]; cbn [app later] in *; [|reflexivity].
        destruct seed; [contradiction|]. destruct (seeds_of l); [reflexivity|contradiction]. }
      rewrite SD. f_equal.
      * unfold files_of at 2. cbn [flat_map]. fold (files_of l). destruct f as [f|]; cbn [app]; [rewrite last_app|]; destruct (last_of (files_of l)); reflexivity.
      * cbn [existsb snd]. now rewrite orb_assoc.
    + unfold seeds_of in O. cbn [flat_map] in O. fold (seeds_of l) in O.
      destruct z as [z|]; cbn [app later] in *; [|exact O]. destruct seed; [contradiction|]. destruct (seeds_of l); [exact I|contradiction].
Qed.

(** In any order and any spelling, the program gets the one seed, the last file and whether
    to resume. *)
Theorem C102_spelling : forall int l, Forall (valid int) l -> (List.length (seeds_of l) <= 1)%nat ->
  parse_full int (words_of l) None None false = Args (hd_error (seeds_of l)) (last_of (files_of l)) (existsb snd l).
Proof.
  intros int l V O. rewrite all_said; [|exact V|].
  - f_equal; destruct (last_of (files_of l)); reflexivity.
  - destruct (seeds_of l) as [|z [|z' q]]; cbn in O; [exact I|exact I|lia].
Qed.

(** A second seed ends the program. *)
Theorem C102_two_seeds : forall int l t z rest, Forall (valid int) l -> List.length (seeds_of l) = 1%nat -> seed_text int t z ->
  parse_full int (words_of l ++ t :: rest) None None false = Exit.
Proof.
  intros int l t z rest V O T.
  assert (G : forall l seed cfg_file resume, Forall (valid int) l ->
    match seed, seeds_of l with Some _, [] | None, [_] => True | _, _ => False end ->
    parse_full int (words_of l ++ t :: rest) seed cfg_file resume = Exit).
  { clear l V O. induction l as [|[[[ws z0] f] r] l IH]; intros seed cfg_file resume V O.
    - cbn [words_of flat_map app]. cbn [seeds_of flat_map] in O. destruct seed; [|contradiction].
      cbn [parse_full]. rewrite (plain_seed int t z T). reflexivity.
    - inversion V as [|? ? V1 V2]. subst. cbn [valid] in V1. unfold words_of. cbn [flat_map]. fold (words_of l). rewrite <- app_assoc.
      unfold seeds_of in O. cbn [flat_map] in O. fold (seeds_of l) in O.
      rewrite (one_said int ws z0 f r); [|exact V1|destruct z0; [right; cbn [app] in O; destruct seed; [contradiction|reflexivity]|now left]].
      apply IH; [exact V2|]. destruct z0; cbn [app later] in *; [|exact O]. destruct seed; [contradiction|]. destruct (seeds_of l); [exact I|contradiction]. }
  apply G; [exact V|]. destruct (seeds_of l) as [|? [|? ?]]; cbn in O; try discriminate. exact I.
Qed.

(** With options written out, as in the campaigns of C85, nothing changes. *)
Theorem C102_written_out : forall int argv,
  (forall t, In t argv -> In t ["--resume"; "--cfg"; "-c"] \/ (no_dash t) \/ exists z, seed_text int t z) ->
  (forall t, In t ["--resume"; "--cfg"; "-c"] -> int t = None) ->
  parse_full int argv None None false = parse_args int argv None None false.
Proof.
  intros int argv H0 HI.
  assert (K : forall t, In t ["--resume"; "--cfg"; "-c"] \/ (no_dash t) \/ (exists z, seed_text int t z) ->
    (is_option int t = false /\ classify int t = Positional) \/
    (is_option int t = true /\ ((t = "--resume" /\ classify int t = Option OResume None) \/
      (((t =? "--cfg") || (t =? "-c")) = true /\ (t =? "--resume") = false /\ classify int t = Option OCfg None)))).
  { intros t [D|[D|(z & D)]].
    - right. pose proof (HI t D) as X. cbn in D. destruct D as [<-|[<-|[<-|[]]]]; (split; [unfold is_option, negative_number; rewrite X; reflexivity|]); auto.
    - left. split; [|now apply plain]. destruct t as [|a [|b r]]; try reflexivity. cbn in D. unfold is_option.
      destruct (Ascii.eqb_spec a "-"); [contradiction|reflexivity].
    - left. split; [|eapply plain_seed; eauto]. destruct D as [D _]. destruct t as [|a [|b r]]; try reflexivity.
      unfold is_option, negative_number. rewrite D. apply andb_false_r. }
  enough (G : forall n argv seed cfg_file resume, (List.length argv <= n)%nat ->
    (forall t, In t argv -> In t ["--resume"; "--cfg"; "-c"] \/ (no_dash t) \/ exists z, seed_text int t z) ->
    parse_full int argv seed cfg_file resume = parse_args int argv seed cfg_file resume) by (apply (G (List.length argv)); auto).
  clear argv H0. induction n as [|n IH]; intros argv seed cfg_file resume L H.
  - destruct argv; [reflexivity|cbn in L; lia].
  - destruct argv as [|t r]; [reflexivity|]. cbn [List.length] in L. cbn [parse_full parse_args].
    assert (Hr : forall t, In t r -> In t ["--resume"; "--cfg"; "-c"] \/ (no_dash t) \/ exists z, seed_text int t z) by (intros; apply H; now right).
    destruct (K t (H t (or_introl eq_refl))) as [[-> ->]|[-> [[-> ->]|[C [C' ->]]]]].
    + destruct seed; [reflexivity|]. destruct (int t); [|reflexivity]. apply IH; [lia|exact Hr].
    + cbn [String.eqb]. apply IH; [lia|exact Hr].
    + rewrite C', C. destruct r as [|v r']; [reflexivity|]. cbn [List.length] in L.
      destruct (K v (Hr v (or_introl eq_refl))) as [[-> ->]|[-> [[-> ->]|[_ [_ ->]]]]].
      * apply IH; [lia|]. intros; apply Hr; now right.
      * apply IH; [cbn [List.length]; lia|exact Hr].
      * apply IH; [cbn [List.length]; lia|exact Hr].
Qed.

(** The number after the options is the seed: false if --cfg is the last of them and has no
    file; the number is the file then. *)
Theorem C102_swallowed_refuted : forall int t z, seed_text int t z ->
  parse_full int ["--cfg"; t] None None false = Args None (Some t) false.
Proof. intros int t z T. cbn [parse_full]. change (classify int "--cfg") with (Option OCfg None). cbv iota. now rewrite (plain_seed int t z T). Qed.

(** A value for --resume ends the program, and so does a value for an option of no name, which
    all options begin like. *)
Theorem C102_mistakes : forall int w v rest, In w ("--" :: resume_words) ->
  parse_full int ((w ++ "=" ++ v) :: rest) None None false = Exit.
Proof. intros int w v rest H. cbn in H. repeat (destruct H as [<-|H]; [destruct v; reflexivity|]). destruct H. Qed.

(** So does an option that no option begins like, unless it has a space or is a number. *)
Theorem C102_unknown : forall int l a t rest, Forall (valid int) l -> (List.length (seeds_of l) <= 1)%nat ->
  ~ In a ["c"; "h"; "r"; "v"; "="]%char -> int ("--" ++ String a t) = None -> has_space (String a t) = false ->
  parse_full int (words_of l ++ ("--" ++ String a t) :: rest) None None false = Exit.
Proof.
  intros int l a t rest V O NA I SP.
  assert (K : classify int ("--" ++ String a t) = Mistake).
  { assert (N : forall x, In x ["c"; "h"; "r"; "v"; "="]%char -> Ascii.eqb x a = false /\ Ascii.eqb a x = false).
    { intros x X. split; apply Ascii.eqb_neq; intros ->; auto. }
    destruct (N "c"%char ltac:(cbn; auto)) as [Nc Nc']. destruct (N "h"%char ltac:(cbn; auto)) as [Nh Nh'].
    destruct (N "r"%char ltac:(cbn; auto)) as [Nr Nr']. destruct (N "v"%char ltac:(cbn; auto)) as [Nv Nv'].
    destruct (N "="%char ltac:(cbn; tauto)) as [Ne Ne'].
    cbn [append] in *. unfold classify. change (Ascii.eqb "-" "-") with true. cbv iota.
    assert (EX : forall q, exact (String "-" (String "-" (String a q))) = None).
    { intros q. unfold exact, option_strings. cbn [find fst String.eqb]. change (Ascii.eqb "-" "-") with true.
      change (Ascii.eqb "h" "-") with false. change (Ascii.eqb "v" "-") with false. change (Ascii.eqb "c" "-") with false.
      cbv iota. rewrite Nc, Nh, Nr, Nv. reflexivity. }
    assert (PX : forall n, flat_map (fun x => if prefix (String "-" (String "-" (String a n))) (fst x) then [x] else []) option_strings = []).
    { intros n. unfold option_strings. cbn [flat_map fst prefix].
      repeat (destruct (ascii_dec "-" _) as [Q|_]; [try discriminate Q|]); 
      repeat (destruct (ascii_dec a _) as [->|_]; [exfalso; apply NA; cbn; tauto|]); try reflexivity. }
    assert (PX' : forall n v, flat_map (fun x : string * opt => if prefix (String "-" (String "-" (String a n))) (fst x) then [(snd x, v : option string)] else []) option_strings = []).
    { intros n v. specialize (PX n). revert PX. generalize option_strings. induction l0 as [|x l0 IHl]; [reflexivity|]. cbn [flat_map].
      destruct (prefix (String "-" (String "-" (String a n))) (fst x)); [discriminate|exact IHl]. }
    rewrite EX. unfold abbreviates. change (Ascii.eqb "-" "-") with true. cbv iota.
    cbn [split_eq]. change (Ascii.eqb "-" "=") with false. cbv iota. rewrite Ne'.
    unfold negative_number. rewrite I. cbn [has_space] in SP |- *. rewrite SP.
    destruct (split_eq t) as [[n v]|]; [rewrite EX|]; cbn [option_map]; rewrite PX'; reflexivity. }
  assert (G : forall l seed cfg_file resume, Forall (valid int) l ->
    match seed, seeds_of l with None, [] | Some _, [] | None, [_] => True | _, _ => False end ->
    parse_full int (words_of l ++ ("--" ++ String a t) :: rest) seed cfg_file resume = Exit).
  { clear l V O. induction l as [|[[[ws z0] f] r] l IH]; intros seed cfg_file resume V O.
    - cbn [words_of flat_map app parse_full]. rewrite K. reflexivity.
    - inversion V as [|? ? V1 V2]. subst. cbn [valid] in V1. unfold words_of. cbn [flat_map]. fold (words_of l). rewrite <- app_assoc.
      unfold seeds_of in O. cbn [flat_map] in O. fold (seeds_of l) in O.
      rewrite (one_said int ws z0 f r); [|exact V1|destruct z0; [right; cbn [app] in O; destruct seed; [contradiction|reflexivity]|now left]].
      apply IH; [exact V2|]. destruct z0; cbn [app later] in *; [|exact O]. destruct seed; [contradiction|]. destruct (seeds_of l); [exact Logic.I|contradiction]. }
  apply G; [exact V|]. destruct (seeds_of l) as [|? [|? ?]]; cbn in O; [exact Logic.I|exact Logic.I|lia].
Qed.

Definition int_5 (t : string) : option Z := if t =? "5" then Some 5%Z else if t =? "-5" then Some (-5)%Z else None.
Example C102_case : Forall (valid int_5)
    [(["--cf=a=b"], None, Some "a=b", false); (["--res"], None, None, true); (["-5"], Some (-5)%Z, None, false); (["-cx.py"], None, Some "x.py", false)] /\
  parse_full int_5 ["--cf=a=b"; "--res"; "-5"; "-cx.py"] None None false = Args (Some (-5)%Z) (Some "x.py") true /\
  parse_full int_5 ["5"; "--cfg"] None None false = Args (Some 5%Z) None false /\
  parse_full int_5 ["--cfg"; "5"; "--resume"] None None false = Args None (Some "5") true.
Proof.
  split; [|repeat split; reflexivity]. apply Forall_cons; [|apply Forall_cons; [|apply Forall_cons; [|apply Forall_cons; [|constructor]]]]; cbn [valid].
  - apply (said_equals int_5 "--cf" "a=b"). cbn. auto.
  - apply said_resume. cbn. auto.
  - apply said_seed. split; [reflexivity|]. intros _ H. cbn in H. intuition discriminate.
  - apply (said_joined int_5 "x" ".py"). discriminate.
Qed.

Print Assumptions C102_spelling.
Print Assumptions C102_two_seeds.
Print Assumptions C102_written_out.
Print Assumptions C102_swallowed_refuted.
Print Assumptions C102_mistakes.
Print Assumptions C102_unknown.
