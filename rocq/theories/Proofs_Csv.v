(** Reading data files. *)
From Coq Require Import ZArith QArith Bool Ascii String List Reals Qreals Lia Lra.
From Verif Require Import Base Proofs_Base Model_Csv Spec_Csv.
Import ListNotations.
Open Scope string_scope.

Lemma eqb_no a b : a <> b -> Ascii.eqb a b = false.
Proof. intros H. destruct (Ascii.eqb_spec a b); congruence. Qed.
Lemma ordinary_no a : ordinary a -> Ascii.eqb a lf = false /\ Ascii.eqb a cr = false /\ Ascii.eqb a comma = false /\ Ascii.eqb a quote = false.
Proof. intros (A & B & C & D). repeat split; apply eqb_no; assumption. Qed.

(** What follows a field. *)
Definition field_end (rest : list ascii) : Prop := rest = [] \/ exists a r, rest = a :: r /\ (a = comma \/ a = lf \/ a = cr).
(** What the tokenizer does at the end of a field. *)
Definition finish (rest : list ascii) (fields : list string) : result (list (list string)) :=
  match rest with
  | [] => Ok [rev fields]
  | a :: r =>
    if Ascii.eqb a lf then let* rows := tokenize r StartRecord [] [] in Ok (rev fields :: rows)
    else if Ascii.eqb a cr then let* rows := tokenize r AfterCR [] [] in Ok (rev fields :: rows)
    else tokenize r StartField [] fields
  end.

Lemma tok_plain cs : Forall ordinary cs -> forall rest cur fields,
  tokenize (cs ++ rest) InField cur fields = tokenize rest InField (rev cs ++ cur) fields.
Proof.
  induction 1 as [|a cs H _ IH]; intros rest cur fields; [reflexivity|].
  cbn [app tokenize rev]. destruct (ordinary_no a H) as (-> & -> & -> & _). rewrite IH, <- app_assoc. reflexivity.
Qed.
Lemma tok_quoted cs : forall rest cur fields,
  tokenize (flat_map (fun a => if Ascii.eqb a QUOTE then [QUOTE; QUOTE] else [a]) cs ++ QUOTE :: rest) InQuotes cur fields =
  tokenize rest QuoteInQuotes (rev cs ++ cur) fields.
Proof.
  induction cs as [|a cs IH]; intros rest cur fields; [reflexivity|].
  cbn [flat_map rev]. change QUOTE with quote in *. destruct (Ascii.eqb_spec a quote) as [-> |N].
  - cbn [app tokenize]. rewrite IH, <- app_assoc. reflexivity.
  - cbn [app tokenize]. rewrite (eqb_no _ _ N), IH, <- app_assoc. reflexivity.
Qed.
Lemma rev_back f : string_of_list_ascii (rev (rev (chars f) ++ [])) = f.
Proof. rewrite app_nil_r, rev_involutive. apply string_of_list_ascii_of_string. Qed.

Lemma end_in_field rest cur fields st : field_end rest -> st = InField \/ st = QuoteInQuotes ->
  tokenize rest st cur fields = finish rest (end_field cur fields).
Proof.
  intros [-> |(a & r & -> & A)] S; [destruct S as [-> | ->]; reflexivity|].
  destruct S as [-> | ->]; destruct A as [-> |[-> | ->]]; reflexivity.
Qed.
Lemma tok_field f t rest st fields : field_text f t -> field_end rest ->
  st = StartRecord \/ st = AfterCR \/ st = StartField ->
  st = StartField \/ t <> [] \/ (exists r, rest = comma :: r) ->
  tokenize (t ++ rest) st [] fields = finish rest (f :: fields).
Proof.
  intros T E S N. destruct T as [f F|f].
  - destruct (chars f) as [|a cs] eqn:C.
    + assert (f = "") by (destruct f; [reflexivity|discriminate]). subst f. cbn [app].
      destruct N as [-> |[N|(r & ->)]]; [|congruence|].
      * destruct E as [-> |(a & r & -> & A)]; [reflexivity|]. destruct A as [-> |[-> | ->]]; reflexivity.
      * destruct S as [-> |[-> | ->]]; reflexivity.
    + inversion F as [|? ? Fa Fc]; subst. destruct (ordinary_no a Fa) as (A1 & A2 & A3 & A4).
      assert (X : tokenize ((a :: cs) ++ rest) st [] fields = tokenize (cs ++ rest) InField [a] fields)
        by (cbn [app tokenize]; destruct S as [-> |[-> | ->]]; rewrite A1, A2, A3, A4; reflexivity).
      rewrite X, (tok_plain cs Fc), (end_in_field _ _ _ InField E) by auto. f_equal. unfold end_field. f_equal.
      rewrite <- (rev_back f), C. cbn [rev]. rewrite app_nil_r. reflexivity.
  - cbn [app]. rewrite <- app_assoc. cbn [app]. 
    assert (X : forall r, tokenize (QUOTE :: r) st [] fields = tokenize r InQuotes [] fields)
      by (intros r; destruct S as [-> |[-> | ->]]; reflexivity).
    rewrite X, tok_quoted, (end_in_field _ _ _ QuoteInQuotes E) by auto. f_equal. unfold end_field. f_equal. apply rev_back.
Qed.
Lemma tok_row row s : row_text row s -> forall rest st fields, rest = [] \/ (exists a r, rest = a :: r /\ (a = lf \/ a = cr)) ->
  st = StartField \/ (st = StartRecord \/ st = AfterCR) /\ s <> [] ->
  tokenize (s ++ rest) st [] fields = finish rest (rev row ++ fields)%list.
Proof.
  induction 1 as [f t T|f t row s T R IH]; intros rest st fields E S.
  - rewrite (tok_field f t rest st fields T); auto.
    + destruct E as [E|(a & r & E & A)]; [left; exact E|right; exists a, r; tauto].
    + tauto.
    + tauto.
  - rewrite <- app_assoc. cbn [app].
    rewrite (tok_field f t (COMMA :: s ++ rest) st fields T).
    + cbn [finish]. change (Ascii.eqb COMMA lf) with false. change (Ascii.eqb COMMA cr) with false. cbv iota.
      rewrite IH by auto. f_equal. cbn [rev]. rewrite <- app_assoc. reflexivity.
    + right. exists COMMA, (s ++ rest)%list. auto.
    + tauto.
    + right. right. eexists. reflexivity.
Qed.
Lemma skip_lf t : tokenize (lf :: t) AfterCR [] [] = tokenize t StartRecord [] [].
Proof. reflexivity. Qed.
Lemma tok_file rows t : file_text rows t -> forall st, st = StartRecord \/ st = AfterCR -> tokenize t st [] [] = Ok rows.
Proof.
  induction 1 as [|e t rows E T IH|row s R N|row s e t rows R N E T IH]; intros st S.
  - destruct S as [-> | ->]; reflexivity.
  - destruct E as [-> |[-> | ->]]; destruct S as [-> | ->]; cbn; apply IH; auto.
  - rewrite <- (app_nil_r s). rewrite (tok_row row s R) by tauto. cbn [finish]. now rewrite app_nil_r, rev_involutive.
  - rewrite (tok_row row s R).
    + rewrite app_nil_r. destruct E as [-> |[-> | ->]]; cbn [app finish].
      * change (Ascii.eqb LF lf) with true. cbv iota. rewrite IH, rev_involutive by auto. reflexivity.
      * change (Ascii.eqb CR lf) with false. change (Ascii.eqb CR cr) with true. cbv iota. rewrite IH, rev_involutive by auto. reflexivity.
      * change (Ascii.eqb CR lf) with false. change (Ascii.eqb CR cr) with true. cbv iota.
        change LF with lf. rewrite skip_lf, IH, rev_involutive by auto. reflexivity.
    + right. destruct E as [-> |[-> | ->]]; eexists; eexists; (split; [reflexivity|auto]).
    + tauto.
Qed.
Lemma skip_bom_none t : (forall r, t <> BOM ++ r)%list -> skip_bom t = t.
Proof.
  intros H. destruct t as [|a [|b [|c r]]]; try reflexivity. unfold skip_bom.
  destruct (Nat.eqb (nat_of_ascii a) 239) eqn:A; [|reflexivity].
  destruct (Nat.eqb (nat_of_ascii b) 187) eqn:B; [|reflexivity].
  destruct (Nat.eqb (nat_of_ascii c) 191) eqn:C; [|reflexivity].
  exfalso. apply (H r). apply Nat.eqb_eq in A, B, C.
  rewrite <- (ascii_nat_embedding a), A. rewrite <- (ascii_nat_embedding b), B. rewrite <- (ascii_nat_embedding c), C. reflexivity.
Qed.
Lemma read_rows rows text : csv_of rows text -> csv_rows text = Ok rows.
Proof.
  intros (t & T & H). unfold csv_rows. fold (chars text).
  destruct H as [[-> N]| ->].
  - rewrite skip_bom_none by exact N. apply (tok_file rows t T). auto.
  - change (skip_bom (BOM ++ t)) with t. apply (tok_file rows t T). auto.
Qed.

(** ** Numbers *)

Fixpoint valZ (ds : list nat) : Z :=
  match ds with [] => 0 | d :: r => Z.of_nat d * 10 ^ Z.of_nat (length r) + valZ r end%Z.
Lemma IZR_pow10 n : IZR (10 ^ Z.of_nat n) = (10 ^ n)%R.
Proof. rewrite pow_IZR. f_equal. Qed.
Lemma valZ_value ds : IZR (valZ ds) = value ds.
Proof.
  induction ds as [|d r IH]; [reflexivity|]. cbn [valZ value]. rewrite plus_IZR, mult_IZR, IZR_pow10, IH, <- INR_IZR_INZ. reflexivity.
Qed.
Lemma digit_of d : is_digit d -> digit (ascii_of_nat (48 + d)) = Some (Z.of_nat d).
Proof.
  intros H. unfold is_digit in H. unfold digit. cbv zeta. rewrite nat_ascii_embedding by lia.
  replace (Nat.leb 48 (48 + d)) with true by (symmetry; apply Nat.leb_le; lia).
  replace (Nat.leb (48 + d) 57) with true by (symmetry; apply Nat.leb_le; lia). cbn [andb]. do 2 f_equal. lia.
Qed.
Definition no_digit (rest : list ascii) : Prop := match rest with [] => True | a :: _ => digit a = None end.
Lemma digits_of ds : Forall is_digit ds -> forall rest m n, no_digit rest ->
  digits (figures ds ++ rest) m n = (m * 10 ^ Z.of_nat (length ds) + valZ ds, n + Z.of_nat (length ds), rest)%Z.
Proof.
  induction 1 as [|d ds D F IH]; intros rest m n N.
  - cbn [figures map app length valZ]. replace (m * 10 ^ Z.of_nat 0 + 0)%Z with m by (cbn; lia).
    replace (n + Z.of_nat 0)%Z with n by lia. destruct rest as [|a rest]; [reflexivity|]. cbn [digits no_digit] in *. now rewrite N.
  - cbn [figures map app digits]. rewrite (digit_of d D). fold (figures ds). rewrite IH by exact N.
    cbn [length valZ]. rewrite Nat2Z.inj_succ, Z.pow_succ_r by lia.
    match goal with |- (?a, ?b, _) = (?a', ?b', _) => replace a' with a by lia; replace b' with b by lia end. reflexivity.
Qed.
Lemma scale10_value m e : Q2R (scale10 m e) = (IZR m * Rpower 10 (IZR e))%R.
Proof.
  assert (P : forall z, (0 <= z)%Z -> IZR (10 ^ z) = Rpower 10 (IZR z)).
  { intros z Z0. rewrite <- (Z2Nat.id z Z0) at 1. rewrite IZR_pow10, <- (Rpower_pow _ 10) by lra.
    f_equal. rewrite INR_IZR_INZ. f_equal. now rewrite Z2Nat.id. }
  unfold scale10. destruct (Z.leb_spec 0 e) as [L|L].
  - unfold Q2R, inject_Z. cbn [Qnum Qden]. rewrite mult_IZR, P by exact L. field.
  - unfold Q2R. cbn [Qnum Qden]. f_equal. rewrite Z2Pos.id by (apply Z.pow_pos_nonneg; lia).
    rewrite P by lia. rewrite opp_IZR, Rpower_Ropp, Rinv_inv. reflexivity.
Qed.
Lemma figures_head ds rest a r : Forall is_digit ds -> ds <> [] -> (figures ds ++ rest = a :: r)%list -> digit a <> None.
Proof. intros F N Q. destruct F as [|d ds D F]; [congruence|]. 
  change (figures (d :: ds)) with (ascii_of_nat (48 + d) :: figures ds) in Q. cbn [app] in Q.
  assert (A : a = ascii_of_nat (48 + d)) by congruence. rewrite A, (digit_of d D). discriminate.
Qed.
Lemma sign_of sg s rest : sign_text sg s -> (forall a r, rest = a :: r -> digit a <> None \/ a = "."%char) ->
  exists z, sign (sg ++ rest) = (z, rest) /\ IZR z = s.
Proof.
  intros [| |] R.
  - exists 1%Z. split; [|reflexivity]. cbn [app]. destruct rest as [|a r]; [reflexivity|]. unfold sign.
    destruct (Ascii.eqb_spec a "-"%char) as [-> |_]; [destruct (R _ _ eq_refl) as [X|X]; [exfalso; now apply X|discriminate]|].
    destruct (Ascii.eqb_spec a "+"%char) as [-> |_]; [destruct (R _ _ eq_refl) as [X|X]; [exfalso; now apply X|discriminate]|].
    reflexivity.
  - exists 1%Z. split; reflexivity.
  - exists (-1)%Z. split; reflexivity.
Qed.
Lemma exp_head ex e : exponent_text ex e -> no_digit ex /\ (forall a r, ex = a :: r -> a = "e"%char \/ a = "E"%char).
Proof.
  intros [|c sg ds C S N F|c ds C N F].
  - split; [exact I|discriminate].
  - split; [destruct C as [-> | ->]; reflexivity|]. intros a r Q. injection Q as <- _. exact C.
  - split; [destruct C as [-> | ->]; reflexivity|]. intros a r Q. injection Q as <- _. exact C.
Qed.
(** The part of [decimal] after the digits. *)
Definition tail_of (m places : Z) (s : list ascii) : option Q :=
  match s with
  | [] => Some (scale10 m (- places))
  | a :: r =>
    if Ascii.eqb a "e"%char || Ascii.eqb a "E"%char then
      let '(se, r) := sign r in
      let '(e, k, r) := digits r 0 0 in
      match r with
      | [] => if (k =? 0)%Z then None else Some (scale10 m (se * e - places))
      | _ => None
      end
    else None
  end.
Lemma tail_value m places ex e : exponent_text ex e ->
  exists q, tail_of m places ex = Some q /\ Q2R q = (IZR m * Rpower 10 (- IZR places) * e)%R.
Proof.
  intros [|c sg ds C S N F|c ds C N F].
  - eexists. split; [reflexivity|]. rewrite scale10_value, opp_IZR. lra.
  - assert (X : tail_of m places (c :: sg ++ figures ds) = Some (scale10 m (1 * valZ ds - places))).
    { cbn [tail_of]. replace (Ascii.eqb c "e" || Ascii.eqb c "E")%bool with true by (destruct C as [-> | ->]; reflexivity).
      destruct (sign_of sg 1 (figures ds)) as (z & Sz & Z1).
      - destruct S as [-> | ->]; constructor.
      - intros a r Q. left. rewrite <- (app_nil_r (figures ds)) in Q. exact (figures_head ds [] a r F N Q).
      - apply eq_IZR in Z1. subst z. rewrite Sz.
        rewrite <- (app_nil_r (figures ds)), (digits_of ds F [] 0 0 I).
        destruct (Z.eqb_spec (0 + Z.of_nat (length ds)) 0) as [L|_]; [destruct ds; [congruence|cbn [length] in L; lia]|].
        do 2 f_equal. }
    rewrite X. eexists. split; [reflexivity|]. rewrite scale10_value, minus_IZR, mult_IZR, valZ_value.
    replace (1 * value ds - IZR places)%R with (- IZR places + value ds)%R by lra. rewrite Rpower_plus. lra.
  - assert (X : tail_of m places (c :: "-"%char :: figures ds) = Some (scale10 m (-1 * valZ ds - places))).
    { cbn [tail_of]. replace (Ascii.eqb c "e" || Ascii.eqb c "E")%bool with true by (destruct C as [-> | ->]; reflexivity).
      change (sign ("-"%char :: figures ds)) with ((-1)%Z, figures ds).
      rewrite <- (app_nil_r (figures ds)), (digits_of ds F [] 0 0 I).
      destruct (Z.eqb_spec (0 + Z.of_nat (length ds)) 0) as [L|_]; [destruct ds; [congruence|cbn [length] in L; lia]|].
      do 2 f_equal. }
    rewrite X. eexists. split; [reflexivity|]. rewrite scale10_value, minus_IZR, mult_IZR, valZ_value.
    replace (-1 * value ds - IZR places)%R with (- IZR places + - value ds)%R by lra. rewrite Rpower_plus. lra.
Qed.
Lemma decimal_value t x : decimal_text t x -> exists q, decimal t = Some q /\ Q2R q = x.
Proof.
  intros (sg & s & int & point & frac & ex & e & Sg & Fi & Ff & Ne & P & Ex & T & ->).
  destruct (exp_head ex e Ex) as [Ed Eh].
  destruct (sign_of sg s (figures int ++ point ++ figures frac ++ ex) Sg) as (z & Sz & Zs).
  { intros a r Q. destruct int as [|d int].
    - destruct P as [-> |[-> ->]]; [|destruct Ne; congruence]. cbn in Q. injection Q as <- _. auto.
    - left. apply (figures_head (d :: int) _ a r Fi) in Q; [exact Q|discriminate]. }
  unfold decimal. fold (chars t). rewrite T, Sz.
  assert (N1 : no_digit (point ++ figures frac ++ ex)).
  { destruct P as [-> |[-> ->]]; [reflexivity|]. exact Ed. }
  rewrite (digits_of int Fi _ 0 0 N1).
  assert (X : forall (m n : Z), (match (point ++ figures frac ++ ex)%list with
      | a :: r => if Ascii.eqb a "."%char then let '(m, k, s) := digits r m 0 in (m, n + k, k, s)%Z else (m, n, 0%Z, (point ++ figures frac ++ ex)%list)
      | [] => (m, n, 0%Z, [])
      end) = (m * 10 ^ Z.of_nat (length frac) + valZ frac, n + Z.of_nat (length frac), Z.of_nat (length frac), ex)%Z).
  { intros m n. destruct P as [-> |[-> ->]].
    - cbn [app]. change (Ascii.eqb "." ".") with true. cbv iota. rewrite (digits_of frac Ff ex m 0 Ed). reflexivity.
    - cbn [app figures map length valZ]. replace (m * 10 ^ Z.of_nat 0 + 0)%Z with m by (cbn; lia).
      replace (n + Z.of_nat 0)%Z with n by lia. destruct ex as [|a r]; [reflexivity|].
      destruct (Eh a r eq_refl) as [-> | ->]; reflexivity. }
  set (m0 := (0 * 10 ^ Z.of_nat (length int) + valZ int)%Z). set (n0 := (0 + Z.of_nat (length int))%Z).
  pose proof (X m0 n0) as X'. 
  destruct (tail_value (z * (m0 * 10 ^ Z.of_nat (length frac) + valZ frac)) (Z.of_nat (length frac)) ex e Ex) as (q & Tq & Q).
  exists q. split.
  - replace (match (point ++ figures frac ++ ex)%list with
      | a :: r => if Ascii.eqb a "."%char then let '(m, k, s) := digits r m0 0 in (m, n0 + k, k, s)%Z else (m0, n0, 0%Z, (point ++ figures frac ++ ex)%list)
      | [] => (m0, n0, 0%Z, [])
      end) with (m0 * 10 ^ Z.of_nat (length frac) + valZ frac, n0 + Z.of_nat (length frac), Z.of_nat (length frac), ex)%Z by (symmetry; exact X').
    destruct (Z.eqb_spec (n0 + Z.of_nat (length frac)) 0) as [L|_].
    + exfalso. unfold n0 in L. destruct Ne as [Ne|Ne]; [destruct int; [congruence|cbn [length] in L; lia]|destruct frac; [congruence|cbn [length] in L; lia]].
    + exact Tq.
  - rewrite Q, mult_IZR, plus_IZR, mult_IZR, IZR_pow10, Zs. unfold m0. rewrite plus_IZR, mult_IZR, !valZ_value.
    rewrite Rpower_Ropp, <- INR_IZR_INZ, Rpower_pow by lra.
    assert (10 ^ length frac <> 0)%R by (apply pow_nonzero; lra). cbn [IZR]. field. exact H.
Qed.

Lemma blank_na : number "" = Ok None.
Proof. reflexivity. Qed.
Lemma number_value t x : decimal_text t x -> exists q, number t = Ok (Some q) /\ Q2R q = x.
Proof.
  intros H. apply decimal_value in H as (q & D & Q). exists q. split; [|exact Q]. unfold number. rewrite D.
  assert (F : Forall (fun a => decimal a = None) na_values) by (repeat constructor).
  destruct (existsb (String.eqb t) na_values) eqn:X; [|reflexivity].
  apply existsb_exists in X as (a & I & A). apply String.eqb_eq in A. subst a. rewrite Forall_forall in F. rewrite (F t I) in D. discriminate.
Qed.

(** ** Nothing else is a number *)
Lemma digit_char a z : digit a = Some z -> exists d, is_digit d /\ a = ascii_of_nat (48 + d).
Proof.
  unfold digit. destruct (Nat.leb_spec 48 (nat_of_ascii a)) as [A|_]; [|discriminate].
  destruct (Nat.leb_spec (nat_of_ascii a) 57) as [B|_]; [|discriminate]. intros _.
  exists (nat_of_ascii a - 48)%nat. split; [unfold is_digit; lia|].
  replace (48 + (nat_of_ascii a - 48))%nat with (nat_of_ascii a) by lia. now rewrite ascii_nat_embedding.
Qed.
Lemma digits_split s : forall m n m' n' rest, digits s m n = (m', n', rest) ->
  exists ds, Forall is_digit ds /\ s = (figures ds ++ rest)%list /\ n' = (n + Z.of_nat (length ds))%Z.
Proof.
  induction s as [|a s IH]; intros m n m' n' rest H; cbn [digits] in H.
  - assert (n = n' /\ rest = []) as [-> ->] by (split; congruence). exists []. cbn [length figures map app]. split; [constructor|]. split; [reflexivity|lia].
  - destruct (digit a) as [z|] eqn:D.
    + apply IH in H as (ds & F & -> & L). destruct (digit_char a z D) as (d & I & ->).
      exists (d :: ds). split; [now constructor|]. split; [reflexivity|]. cbn [length]. lia.
    + assert (n = n' /\ rest = a :: s) as [-> ->] by (split; congruence). exists []. split; [constructor|]. split; [reflexivity|]. cbn [length]. lia.
Qed.
Lemma sign_split s z rest : sign s = (z, rest) ->
  exists sg x, sign_text sg x /\ s = (sg ++ rest)%list /\ (sg = ["-"%char] \/ sg = [] \/ sg = ["+"%char]).
Proof.
  destruct s as [|a s]; cbn [sign]; intros H.
  - exists [], 1%R. split; [constructor|]. split; [cbn [app]; congruence|auto].
  - destruct (Ascii.eqb_spec a "-"%char) as [-> |_]; [|destruct (Ascii.eqb_spec a "+"%char) as [-> |_]].
    + exists ["-"%char], (-1)%R. split; [constructor|]. split; [cbn [app]; congruence|auto].
    + exists ["+"%char], 1%R. split; [constructor|]. split; [cbn [app]; congruence|auto].
    + exists [], 1%R. split; [constructor|]. split; [cbn [app]; congruence|auto].
Qed.
Lemma tail_split m places s q : tail_of m places s = Some q -> exists e, exponent_text s e.
Proof.
  destruct s as [|a r]; cbn [tail_of]; intros H; [exists 1%R; constructor|].
  assert (C : a = "e"%char \/ a = "E"%char).
  { destruct (Ascii.eqb_spec a "e"%char) as [|_]; [auto|]. destruct (Ascii.eqb_spec a "E"%char) as [|_]; [auto|discriminate]. }
  destruct (Ascii.eqb a "e" || Ascii.eqb a "E")%bool; [|discriminate].
  destruct (sign r) as [se r'] eqn:S. destruct (digits r' 0 0) as [[e k] rest] eqn:D. destruct rest; [|discriminate].
  apply digits_split in D as (ds & F & -> & K). rewrite app_nil_r in S. apply sign_split in S as (sg & x & T & -> & U).
  assert (N : ds <> []) by (intros ->; cbn [length] in K; replace k with 0%Z in H by lia; discriminate).
  destruct U as [-> |U]; eexists; [now apply ex_down|now apply ex_up].
Qed.
Lemma decimal_shape t q : decimal t = Some q -> exists x, decimal_text t x.
Proof.
  unfold decimal. fold (chars t). destruct (sign (chars t)) as [z s1] eqn:S. apply sign_split in S as (sg & sv & Sg & T & _).
  destruct (digits s1 0 0) as [[m n] s2] eqn:D. apply digits_split in D as (int & Fi & -> & N).
  set (mid := match s2 with
      | a :: r => if Ascii.eqb a "."%char then let '(m, k, s) := digits r m 0 in (m, n + k, k, s)%Z else (m, n, 0%Z, s2)
      | [] => (m, n, 0%Z, [])
      end).
  assert (X : exists point frac ex m', mid = (m', (n + Z.of_nat (length frac))%Z, Z.of_nat (length frac), ex) /\
     Forall is_digit frac /\ (point = ["."%char] \/ point = [] /\ frac = []) /\ s2 = (point ++ figures frac ++ ex)%list).
  { unfold mid. destruct s2 as [|a r].
    - exists [], [], [], m. cbn [length]. replace (n + Z.of_nat 0)%Z with n by lia.
      split; [reflexivity|]. split; [constructor|]. split; [right; now split|reflexivity].
    - destruct (Ascii.eqb_spec a "."%char) as [-> |_].
      + destruct (digits r m 0) as [[m' k] s3] eqn:D. apply digits_split in D as (frac & Ff & -> & K).
        exists ["."%char], frac, s3, m'. replace k with (Z.of_nat (length frac)) by lia. split; [reflexivity|]. auto.
      + exists [], [], (a :: r), m. cbn [length]. replace (n + Z.of_nat 0)%Z with n by lia.
        split; [reflexivity|]. split; [constructor|]. split; [right; now split|reflexivity]. }
  destruct X as (point & frac & ex & m' & -> & Ff & P & ->).
  destruct (Z.eqb_spec (n + Z.of_nat (length frac)) 0) as [|L]; [discriminate|]. intros H.
  apply (tail_split (z * m') (Z.of_nat (length frac)) ex q) in H as (e & Ex).
  eexists. exists sg, sv, int, point, frac, ex, e. split; [exact Sg|]. split; [exact Fi|]. split; [exact Ff|].
  split; [|auto]. destruct int; [|left; discriminate]. destruct frac; [|right; discriminate]. cbn [length] in *. lia.
Qed.
Lemma decimal_only t q : decimal t = Some q -> decimal_text t (Q2R q).
Proof.
  intros H. destruct (decimal_shape t q H) as (x & X). destruct (decimal_value t x X) as (q' & A & <-).
  rewrite A in H. now replace q with q' by congruence.
Qed.
Lemma number_only t q : number t = Ok (Some q) -> decimal_text t (Q2R q).
Proof.
  unfold number. destruct (existsb (String.eqb t) na_values); [discriminate|]. destruct (decimal t) as [q'|] eqn:D; [|discriminate].
  intros H. apply decimal_only. rewrite D. congruence.
Qed.
