(** Lemmas about the text of a configuration file. *)
From Coq Require Import ZArith QArith Lia Bool Ascii String List.
From Coq Require DecimalN.
From Verif Require Import Base Model_Path Model_Cfg Model_Text Spec_Text.
Import ListNotations.
Open Scope nat_scope.
Open Scope list_scope.

(** ** Induction over values *)

Lemma val_ind2 : forall P : val -> Prop,
  P VNone -> (forall b, P (VBool b)) -> (forall z, P (VInt z)) -> (forall x, P (VFloat x)) -> (forall s, P (VStr s)) ->
  (forall l, Forall P l -> P (VTuple l)) -> (forall l, Forall P l -> P (VList l)) ->
  (forall d, Forall (fun e => P (fst e) /\ P (snd e)) d -> P (VDict d)) -> forall v, P v.
Proof.
  intros P Hn Hb Hi Hf Hs Ht Hl Hd. fix IH 1. intros [|b|z|x|s|l|l|d]; [exact Hn|apply Hb|apply Hi|apply Hf|apply Hs| | |].
  - apply Ht. induction l; constructor; auto.
  - apply Hl. induction l; constructor; auto.
  - apply Hd. induction d as [|[a b] d]; constructor; auto.
Qed.

(** ** Tokens *)

Lemma cons_all_app : forall a b r, cons_all a (cons_all b r) = cons_all (a ++ b) r.
Proof. intros a b [r|]; cbn; [now rewrite app_assoc|reflexivity]. Qed.
Lemma cons_all_nil : forall r, cons_all [] r = r.
Proof. now intros [r|]. Qed.

(** What may follow a token. *)
Definition stop (c : ascii) : bool := is c "," || is c ":" || is c ")" || is c "]" || is c "}" || is c " " || is c NL.
Definition ends (t : text) : Prop := match t with [] => True | c :: _ => stop c = true end.

Ltac byte c := destruct c as [[] [] [] [] [] [] [] []].

Lemma stop_facts : forall c, stop c = true ->
  is_digit c = false /\ is_letter c = false /\ is c "." = false /\ is c "+" = false /\ is c "-" = false /\ is c QUOTE = false /\ is c DQUOTE = false.
Proof. intros c. byte c; intros H; try discriminate H; repeat split. Qed.

Lemma lex_start : forall d c r, lex Start d (c :: r) = match step d c with Some (st, l, d) => cons_all l (lex st d r) | None => None end.
Proof. reflexivity. Qed.

Lemma num_end : forall w d rest, ends rest -> lex (InNum w) d rest = cons_all [TNum w] (lex Start d rest).
Proof.
  intros w d [|c r] E; [reflexivity|]. cbn [ends] in E. destruct (stop_facts c E) as (A & B & C & D & G & _).
  rewrite lex_start. cbn [lex]. unfold in_number. rewrite A, B, C, D, G. cbn [orb andb].
  destruct (step d c) as [[[st l] d']|]; [now rewrite cons_all_app|reflexivity].
Qed.
Lemma name_end : forall w d rest, ends rest -> lex (InName w) d rest = cons_all [TName w] (lex Start d rest).
Proof.
  intros w d [|c r] E; [reflexivity|]. cbn [ends] in E. destruct (stop_facts c E) as (A & B & _).
  rewrite lex_start. cbn [lex]. rewrite A, B. cbn [orb].
  destruct (step d c) as [[[st l] d']|]; [now rewrite cons_all_app|reflexivity].
Qed.
Definition a_quote (q : ascii) : Prop := q = QUOTE \/ q = DQUOTE.
Lemma empty_end : forall q d rest, a_quote q -> ends rest -> lex (Empty q) d rest = cons_all [TLit []] (lex Start d rest).
Proof.
  intros q d [|c r] Q E; [reflexivity|]. cbn [ends] in E. destruct (stop_facts c E) as (_ & _ & _ & _ & _ & A & B).
  rewrite lex_start. cbn [lex]. assert (N : is c q = false) by (destruct Q; subst; assumption). rewrite N.
  destruct (step d c) as [[[st l] d']|]; [now rewrite cons_all_app|reflexivity].
Qed.

(** [t] gives the tokens [ts], whatever follows. *)
Definition lexes (d : nat) (t : text) (ts : list token) : Prop :=
  forall rest, ends rest -> lex Start d (t ++ rest) = cons_all ts (lex Start d rest).

(** *** Texts *)

Lemma lex_escape : forall q c w d t, a_quote q -> lex (InStr q w) d (escape q c ++ t) = lex (InStr q (w ++ [c])) d t.
Proof. intros q c w d t [->| ->]; byte c; reflexivity. Qed.
Lemma lex_escapes : forall q s w d t, a_quote q -> lex (InStr q w) d (flat_map (escape q) s ++ t) = lex (InStr q (w ++ s)) d t.
Proof.
  intros q s. induction s as [|c s IH]; intros w d t Q; cbn [flat_map app]; [now rewrite app_nil_r|].
  rewrite <- app_assoc, lex_escape by exact Q. rewrite IH by exact Q. now rewrite <- app_assoc.
Qed.
Lemma quote_of_is : forall s, a_quote (quote_of s).
Proof. intros s. unfold quote_of, a_quote. destruct (existsb (is QUOTE) s && negb (existsb (is DQUOTE) s)); tauto. Qed.
Lemma lexes_str : forall d s, lexes d (repr_str s) [TLit s].
Proof.
  intros d s rest E. unfold repr_str. pose proof (quote_of_is s) as Q. cbv zeta. set (q := quote_of s) in *.
  cbn [app]. rewrite lex_start.
  assert (S : step d q = Some (InStr q [], [], d)) by (destruct Q as [Q|Q]; rewrite Q; reflexivity).
  rewrite S, cons_all_nil, <- app_assoc, lex_escapes by exact Q. cbn [app].
  assert (I : is q q = true) by (unfold is; apply Ascii.eqb_refl). cbn [lex]. rewrite I.
  destruct s; [now apply empty_end|reflexivity].
Qed.

(** *** Numbers *)

Lemma lex_digits : forall t w d rest, only_digits t = true -> lex (InNum w) d (t ++ rest) = lex (InNum (w ++ t)) d rest.
Proof.
  induction t as [|c t IH]; intros w d rest O; cbn [app]; [now rewrite app_nil_r|].
  cbn in O. apply andb_prop in O as (A & O). cbn [lex]. unfold in_number. rewrite A. cbn [orb].
  rewrite IH by exact O. now rewrite <- app_assoc.
Qed.
Lemma digit_step : forall d c, is_digit c = true -> step d c = Some (InNum [c], [], d).
Proof. intros d c. byte c; intros H; try discriminate H; reflexivity. Qed.
Lemma lexes_digits : forall d t, only_digits t = true -> t <> [] -> lexes d t [TNum t].
Proof.
  intros d [|c t] O N rest E; [now elim N|]. cbn in O. apply andb_prop in O as (A & O). cbn [app].
  rewrite lex_start, digit_step, cons_all_nil, lex_digits by assumption. now apply num_end.
Qed.
Lemma is_true : forall a b, is a b = true -> a = b.
Proof. intros a b. unfold is. apply Ascii.eqb_eq. Qed.
Lemma lex_float : forall t st w d rest, float_rest st t = true -> (st = 2 -> exists w', w = w' ++ ["e"%char] \/ w = w' ++ ["E"%char]) ->
  lex (InNum w) d (t ++ rest) = lex (InNum (w ++ t)) d rest.
Proof.
  induction t as [|c t IH]; intros st w d rest O L; cbn [app]; [now rewrite app_nil_r|].
  assert (K : in_number w c = true /\ exists st', float_rest st' t = true /\ (st' = 2 -> c = "e"%char \/ c = "E"%char)).
  { unfold in_number. destruct st as [|[|[|st]]]; cbn [float_rest] in O.
    - destruct (is_digit c); [split; [reflexivity|]; exists 0; split; [exact O|discriminate]|].
      destruct (is c "."); [split; [now rewrite !orb_true_r|]; exists 1; split; [exact O|discriminate]|].
      apply andb_prop in O as (A & O). split; [|exists 2; split; [exact O|]; intros _; apply orb_prop in A as [A|A]; apply is_true in A; tauto].
      apply orb_prop in A as [A|A]; apply is_true in A; subst c; reflexivity.
    - destruct (is_digit c); [split; [reflexivity|]; exists 1; split; [exact O|discriminate]|].
      apply andb_prop in O as (A & O). split; [|exists 2; split; [exact O|]; intros _; apply orb_prop in A as [A|A]; apply is_true in A; tauto].
      apply orb_prop in A as [A|A]; apply is_true in A; subst c; reflexivity.
    - destruct (is_digit c); [split; [reflexivity|]; exists 4; split; [exact O|discriminate]|].
      apply andb_prop in O as (A & O). split; [|exists 3; split; [exact O|discriminate]].
      destruct (L eq_refl) as (w' & [-> | ->]); rewrite rev_app_distr; cbn [rev app]; rewrite A; now rewrite !orb_true_r.
    - apply andb_prop in O as (A & O). rewrite A. split; [reflexivity|]. exists 4. split; [exact O|discriminate]. }
  destruct K as (K & st' & O' & L'). cbn [lex]. rewrite K. rewrite (IH st'); [now rewrite <- app_assoc|exact O'|].
  intros Q. exists w. destruct (L' Q); subst c; tauto.
Qed.
Lemma lexes_float : forall d t, float_text t = true -> lexes d t [TNum t].
Proof.
  intros d [|c [|e t]] O rest E; try discriminate O. cbn [float_text] in O. cbn [app]. rewrite lex_start.
  destruct (is c ".") eqn:P.
  - apply andb_prop in O as (A & O). apply is_true in P. subst c.
    assert (S : step d "." = Some (InNum ["."%char], [], d)) by reflexivity. rewrite S, cons_all_nil.
    change (e :: t ++ rest) with ((e :: t) ++ rest). rewrite (lex_float (e :: t) 1); [now apply num_end| |discriminate].
    cbn [float_rest]. now rewrite A.
  - apply andb_prop in O as (A & O). rewrite digit_step, cons_all_nil by exact A.
    change (e :: t ++ rest) with ((e :: t) ++ rest). rewrite (lex_float (e :: t) 0); [now apply num_end|exact O|discriminate].
Qed.
Lemma float_not_digits : forall t, float_text t = true -> only_digits t = false.
Proof.
  assert (G : forall t st, float_rest st t = true -> (st = 0 -> only_digits t = false)).
  { induction t as [|c t IH]; intros st O Q; subst st; [discriminate O|]. cbn [float_rest] in O. unfold only_digits. cbn [forallb].
    destruct (is_digit c) eqn:D; [|reflexivity]. cbn [andb]. now apply (IH 0). }
  intros [|c [|e t]] O; try discriminate O. cbn [float_text] in O. destruct (is c ".") eqn:P.
  - apply is_true in P. subst c. reflexivity.
  - apply andb_prop in O as (A & O). unfold only_digits. cbn [forallb]. rewrite A. cbn [andb]. now apply (G (e :: t) 0).
Qed.

(** *** Integers *)

Lemma uint_digits : forall u, only_digits (uint_text u) = true.
Proof. induction u; cbn; auto. Qed.
Lemma number_of_acc : forall u p, number_of (Npos p) (uint_text u) = Npos (Pos.of_uint_acc u p).
Proof. induction u; intros p; cbn [uint_text number_of Pos.of_uint_acc]; try reflexivity; rewrite <- IHu; f_equal;
  match goal with |- context [code ?c] => let n := eval vm_compute in (N.of_nat (code c - 48)) in change (N.of_nat (code c - 48)) with n end; lia. Qed.
Lemma number_of_uint : forall u, number_of 0 (uint_text u) = N.of_uint u.
Proof.
  induction u; try reflexivity; try (cbn [uint_text number_of]; unfold N.of_uint; cbn [Pos.of_uint];
    rewrite <- number_of_acc; reflexivity).
  cbn [uint_text number_of]. exact IHu.
Qed.
Lemma nzhead_head : forall u v, Decimal.nzhead u <> Decimal.D0 v.
Proof. induction u; intros v; cbn; try discriminate. apply IHu. Qed.
Lemma to_uint_head : forall n u, N.to_uint n = Decimal.D0 u -> u = Decimal.Nil.
Proof.
  intros n u H. pose proof (DecimalN.Unsigned.of_to n) as A. pose proof (DecimalN.Unsigned.to_of (N.to_uint n)) as B. rewrite A in B.
  rewrite H in B. unfold Decimal.unorm in B. cbn [Decimal.nzhead] in B. destruct (Decimal.nzhead u) eqn:E; try discriminate B.
  - now injection B.
  - now elim (nzhead_head u u0).
Qed.
Lemma to_uint_not_nil : forall n, N.to_uint n <> Decimal.Nil.
Proof.
  intros n H. pose proof (DecimalN.Unsigned.of_to n) as A. pose proof (DecimalN.Unsigned.to_of (N.to_uint n)) as B. rewrite A, H in B. discriminate B.
Qed.
Lemma number_uint : forall read n, number read (uint_text (N.to_uint n)) = Some (VInt (Z.of_N n)).
Proof.
  intros read n. unfold number. rewrite uint_digits, number_of_uint, DecimalN.Unsigned.of_to.
  destruct (N.to_uint n) as [|u|u|u|u|u|u|u|u|u|u] eqn:E; try reflexivity; cbn [uint_text];
    try (destruct (uint_text u); reflexivity).
  apply to_uint_head in E. subst u. reflexivity.
Qed.

(** ** The tokens of a value *)

Definition not_finite (x : fl) : Prop := match x with Fin _ => False | _ => True end.
(** How those are written; a minus sign may be in front. *)
Definition bad_name (x : fl) : text := match x with NaN => txt "nan" | _ => txt "inf" end.

(** [loose] admits infinities and NaN, which have tokens and are no literals. *)
Section Grammar.
  Variable loose : bool.
  Variable read : text -> fl.

  Inductive toks : val -> list token -> Prop :=
  | k_none : toks VNone [TName (txt "None")]
  | k_bool : forall b, toks (VBool b) [TName (txt (if b then "True" else "False"))]
  | k_num : forall v t, number read t = Some v -> ~ Exists not_finite (floats v) -> toks v [TNum t]
  | k_neg : forall v w t, number read t = Some w -> negative w = Some v -> ~ Exists not_finite (floats v) -> toks v [TOp "-"; TNum t]
  | k_bad : forall x, loose = true -> not_finite x -> toks (VFloat x) ((match x with Inf true => [TOp "-"] | _ => [] end) ++ [TName (bad_name x)])
  | k_str : forall s p ps, concat (p :: ps) = txt s -> toks (VStr s) (map TLit (p :: ps))
  | k_paren : forall v ts, toks v ts -> toks v (TOp "(" :: ts ++ [TOp ")"])
  | k_tuple0 : toks (VTuple []) [TOp "("; TOp ")"]
  | k_tuple1 : forall v ts, toks v ts -> toks (VTuple [v]) (TOp "(" :: ts ++ [TOp ","; TOp ")"])
  | k_tuple : forall a b l ts, sequence (a :: b :: l) ts -> toks (VTuple (a :: b :: l)) (TOp "(" :: ts ++ [TOp ")"])
  | k_list0 : toks (VList []) [TOp "["; TOp "]"]
  | k_list : forall l ts, sequence l ts -> toks (VList l) (TOp "[" :: ts ++ [TOp "]"])
  | k_dict0 : toks (VDict []) [TOp "{"; TOp "}"]
  | k_dict : forall d ts, entries d ts -> make_dict d = d -> toks (VDict d) (TOp "{" :: ts ++ [TOp "}"])
  with sequence : list val -> list token -> Prop :=
  | q_one : forall v ts, toks v ts -> sequence [v] ts
  | q_more : forall v ts l us, toks v ts -> sequence l us -> sequence (v :: l) (ts ++ TOp "," :: us)
  with entries : list (val * val) -> list token -> Prop :=
  | e_one : forall k v ts us, hashable k = true -> toks k ts -> toks v us -> entries [(k, v)] (ts ++ TOp ":" :: us)
  | e_more : forall k v ts us d ws, hashable k = true -> toks k ts -> toks v us -> entries d ws ->
      entries ((k, v) :: d) (ts ++ TOp ":" :: us ++ TOp "," :: ws).

  Scheme toks_mind := Induction for toks Sort Prop
    with sequence_mind := Induction for sequence Sort Prop
    with entries_mind := Induction for entries Sort Prop.
  Combined Scheme grammar_ind from toks_mind, sequence_mind, entries_mind.

  (** No value starts with a closing bracket. *)
  Definition opens (ts : list token) : Prop :=
    match ts with [] | TEnd :: _ => False | TOp c :: _ => is c ")" = false /\ is c "]" = false /\ is c "}" = false | _ => True end.
  Lemma opens_app : forall ts us, opens ts -> opens (ts ++ us).
  Proof. intros [|t ts] us H; [now elim H|exact H]. Qed.
  Lemma toks_open : (forall v ts, toks v ts -> opens ts) /\ (forall l ts, sequence l ts -> opens ts) /\ (forall d ts, entries d ts -> opens ts).
  Proof. apply grammar_ind; cbn; auto using opens_app. intros x _ _. now destruct x as [|[]|]; cbn. Qed.

  (** What follows a value is no text, since texts side by side are one. *)
  Definition no_lit (ts : list token) : Prop := match ts with TLit _ :: _ => False | _ => True end.

  Lemma strs_all : forall ps rest, no_lit rest -> strs (map TLit ps ++ rest) = (concat ps, rest).
  Proof.
    induction ps as [|p ps IH]; intros rest N; cbn [map app].
    - destruct rest as [|[] rest]; try reflexivity. now elim N.
    - cbn [strs]. now rewrite IH.
  Qed.
  Lemma string_of_txt : forall s, string_of_list_ascii (txt s) = s.
  Proof. apply string_of_list_ascii_of_string. Qed.

  Lemma expr_paren : forall f r, expr read (S f) (TOp "(" :: r) =
    match items read f ")" r with Some ([v], false, r) => Some (v, r) | Some (l, _, r) => Some (VTuple l, r) | None => None end.
  Proof. reflexivity. Qed.
  Lemma expr_list : forall f r, expr read (S f) (TOp "[" :: r) = match items read f "]" r with Some (l, _, r) => Some (VList l, r) | None => None end.
  Proof. reflexivity. Qed.
  Lemma expr_dict : forall f r, expr read (S f) (TOp "{" :: r) = match pairs read f r with Some (d, r) => Some (VDict (make_dict d), r) | None => None end.
  Proof. reflexivity. Qed.
  Lemma expr_num : forall f t r, expr read (S f) (TNum t :: r) = match number read t with Some v => Some (v, r) | None => None end.
  Proof. reflexivity. Qed.
  Lemma expr_neg : forall f t r, expr read (S f) (TOp "-" :: TNum t :: r) =
    match number read t with Some v => match negative v with Some v => Some (v, r) | None => None end | None => None end.
  Proof. reflexivity. Qed.
  Lemma expr_lit : forall f t r, expr read (S f) (TLit t :: r) = let (s, r) := strs (TLit t :: r) in Some (VStr (string_of_list_ascii s), r).
  Proof. reflexivity. Qed.
  Lemma items_from_S : forall f close ts, items_from read (S f) close ts =
    match expr read f ts with
    | Some (v, TOp c :: r) =>
      if is c close then Some ([v], false, r)
      else if is c "," then match items read f close r with Some ([], _, r) => Some ([v], true, r) | Some (l, b, r) => Some (v :: l, b, r) | None => None end
      else None
    | _ => None
    end.
  Proof. reflexivity. Qed.
  Lemma pairs_from_S : forall f ts, pairs_from read (S f) ts =
    match expr read f ts with
    | Some (k, TOp c :: r) =>
      if is c ":" && hashable k then
        match expr read f r with
        | Some (v, TOp c :: r) =>
          if is c "}" then Some ([(k, v)], r)
          else if is c "," then match pairs read f r with Some (l, r) => Some ((k, v) :: l, r) | None => None end
          else None
        | _ => None
        end
      else None
    | _ => None
    end.
  Proof. reflexivity. Qed.

  Lemma items_open : forall f close ts, (close = ")" \/ close = "]")%char -> opens ts -> items read (S f) close ts = items_from read f close ts.
  Proof.
    intros f close [|[t|t|t|c|] ts] C O; try reflexivity; try now elim O. destruct O as (A & B & _).
    assert (E : is c close = false) by (destruct C; subst close; assumption).
    change (items read (S f) close (TOp c :: ts)) with (if is c close then Some ([], false, ts) else items_from read f close (TOp c :: ts)).
    now rewrite E.
  Qed.
  Lemma pairs_open : forall f ts, opens ts -> pairs read (S f) ts = pairs_from read f ts.
  Proof.
    intros f [|[t|t|t|c|] ts] O; try reflexivity; try now elim O. destruct O as (_ & _ & A).
    change (pairs read (S f) (TOp c :: ts)) with (if is c "}" then Some ([], ts) else pairs_from read f (TOp c :: ts)). now rewrite A.
  Qed.

  Definition parses (v : val) (ts : list token) : Prop := forall f rest, 2 * length ts + 1 <= f -> no_lit rest ->
    expr read f (ts ++ rest) = Some (v, rest).
  Definition parses_seq (l : list val) (ts : list token) : Prop := l <> [] /\ forall f close rest, (close = ")" \/ close = "]")%char ->
    2 * length ts + 3 <= f -> items_from read f close (ts ++ TOp close :: rest) = Some (l, false, rest).
  Definition parses_dict (d : list (val * val)) (ts : list token) : Prop := forall f rest,
    2 * length ts + 3 <= f -> pairs_from read f (ts ++ TOp "}" :: rest) = Some (d, rest).

  Lemma items_seq : forall l ts f close rest, opens ts -> parses_seq l ts -> (close = ")" \/ close = "]")%char -> 2 * length ts + 4 <= f ->
    items read f close (ts ++ TOp close :: rest) = Some (l, false, rest).
  Proof.
    intros l ts [|f] close rest O (_ & P) C L; [lia|]. rewrite items_open by auto using opens_app. apply P; [exact C|lia].
  Qed.
  Lemma pairs_dict : forall d ts f rest, opens ts -> parses_dict d ts -> 2 * length ts + 4 <= f ->
    pairs read f (ts ++ TOp "}" :: rest) = Some (d, rest).
  Proof. intros d ts [|f] rest O P L; [lia|]. rewrite pairs_open by auto using opens_app. apply P. lia. Qed.

  Ltac lens := repeat (rewrite ?app_length, ?map_length in *; cbn [length] in * ).

  Lemma grammar_parses : loose = false -> (forall v ts, toks v ts -> parses v ts) /\ (forall l ts, sequence l ts -> parses_seq l ts) /\ (forall d ts, entries d ts -> parses_dict d ts).
  Proof.
    intros Ls. destruct toks_open as (O1 & O2 & O3).
    apply grammar_ind.
    - intros [|f] rest L N; [lia|reflexivity].
    - intros b [|f] rest L N; [lia|destruct b; reflexivity].
    - intros v t H _ [|f] rest L N; [lens; lia|]. cbn [app]. now rewrite expr_num, H.
    - intros v w t H G _ [|f] rest L N; [lens; lia|]. cbn [app]. now rewrite expr_neg, H, G.
    - intros x L. rewrite Ls in L. discriminate L.
    - intros s p ps H [|f] rest L N; [lens; lia|]. change (map TLit (p :: ps)) with (TLit p :: map TLit ps). cbn [app]. rewrite expr_lit.
      change (TLit p :: map TLit ps ++ rest) with (map TLit (p :: ps) ++ rest). rewrite strs_all, H by exact N. now rewrite string_of_txt.
    - intros v ts T P [|f] rest L N; [lens; lia|]. lens. cbn [app]. rewrite expr_paren.
      assert (Q : items read f ")" (ts ++ TOp ")" :: rest) = Some ([v], false, rest)).
      { apply items_seq; [eauto| |auto|lia]. split; [discriminate|]. intros [|g] close r C L'; [lia|]. rewrite items_from_S.
        rewrite P; [|lia|exact I]. destruct C; subst close; reflexivity. }
      rewrite <- app_assoc. cbn [app]. now rewrite Q.
    - intros [|[|f]] rest L N; [lens; lia|lens; lia|reflexivity].
    - intros v ts T P [|f] rest L N; [lens; lia|]. lens. cbn [app]. rewrite expr_paren. rewrite <- app_assoc. cbn [app].
      destruct f as [|[|[|f]]]; try lia. rewrite items_open by (auto; apply opens_app; eauto). rewrite items_from_S.
      rewrite P; [|lia|exact I]. reflexivity.
    - intros a b l ts Q P [|f] rest L N; [lens; lia|]. lens. cbn [app]. rewrite expr_paren. rewrite <- app_assoc. cbn [app].
      rewrite (items_seq (a :: b :: l)); [reflexivity|eauto|exact P|auto|lia].
    - intros [|[|f]] rest L N; [lens; lia|lens; lia|reflexivity].
    - intros l ts Q P [|f] rest L N; [lens; lia|]. lens. cbn [app]. rewrite expr_list. rewrite <- app_assoc. cbn [app].
      rewrite (items_seq l); [reflexivity|eauto|exact P|auto|lia].
    - intros [|[|f]] rest L N; [lens; lia|lens; lia|reflexivity].
    - intros d ts Q P M [|f] rest L N; [lens; lia|]. lens. cbn [app]. rewrite expr_dict. rewrite <- app_assoc. cbn [app].
      rewrite (pairs_dict d); [now rewrite M|eauto|exact P|lia].
    - intros v ts T P. split; [discriminate|]. intros [|f] close rest C L; [lia|]. rewrite items_from_S.
      rewrite P; [|lia|exact I]. destruct C; subst close; reflexivity.
    - intros v ts l us T P Q (Nl & R). split; [discriminate|]. intros [|f] close rest C L; [lia|]. lens. rewrite <- app_assoc. cbn [app]. rewrite items_from_S.
      rewrite P; [|lia|exact I].
      assert (G : items read f close (us ++ TOp close :: rest) = Some (l, false, rest)) by (apply items_seq; [eauto|split; assumption|exact C|lia]).
      rewrite G. destruct l as [|x l]; [now elim Nl|]. destruct C; subst close; reflexivity.
    - intros k v ts us H Tk Pk Tv Pv [|f] rest L; [lia|]. lens. rewrite <- app_assoc. cbn [app]. rewrite pairs_from_S.
      rewrite Pk; [|lia|exact I]. change (is ":" ":") with true. rewrite H. cbn [andb]. rewrite Pv; [|lia|exact I]. reflexivity.
    - intros k v ts us d ws H Tk Pk Tv Pv E P [|f] rest L; [lia|]. lens. rewrite <- app_assoc. cbn [app]. rewrite pairs_from_S.
      rewrite Pk; [|lia|exact I]. change (is ":" ":") with true. rewrite H. cbn [andb]. rewrite <- app_assoc. cbn [app].
      rewrite Pv; [|lia|exact I]. change (is "," "}") with false. change (is "," ",") with true. cbv iota. rewrite (pairs_dict d); [reflexivity|eauto|exact P|lia].
  Qed.
  Lemma toks_parse : forall v ts f, loose = false -> toks v ts -> 2 * length ts + 1 <= f -> expr read f ts = Some (v, []).
  Proof. intros v ts f Ls T L. destruct (grammar_parses Ls) as (P & _). specialize (P v ts T f [] L I). now rewrite app_nil_r in P. Qed.
End Grammar.

(** ** The tokens of the text of a value *)

Lemma lexes_name : forall d s, In s ["None"; "True"; "False"]%string -> lexes d (txt s) [TName (txt s)].
Proof.
  intros d s H rest E.
  assert (Q : lex Start d (txt s ++ rest) = lex (InName (txt s)) d rest) by (cbn [In] in H; destruct H as [<-|[<-|[<-|[]]]]; exact (cons_all_nil _)).
  rewrite Q. now apply name_end.
Qed.
Lemma ends_cons : forall c r, stop c = true -> ends (c :: r).
Proof. intros c r H. exact H. Qed.

(** A separator: a comma and blanks. *)
Definition separates (d : nat) (s : text) : Prop :=
  (forall t, ends (s ++ t)) /\ forall t, lex Start d (s ++ t) = cons_all [TOp ","] (lex Start d t).
Lemma lex_spaces : forall n d t, lex Start d (spaces n ++ t) = lex Start d t.
Proof. intros n d t. unfold spaces. induction (Z.to_nat n) as [|m IH]; [reflexivity|]. cbn [repeat app]. rewrite lex_start. change (step d " ") with (Some (Start, @nil token, d)). cbv iota beta. now rewrite cons_all_nil. Qed.
Lemma lex_newline : forall n d t, lex Start (S d) (NL :: spaces n ++ t) = lex Start (S d) t.
Proof. intros n d t. rewrite lex_start. change (step (S d) NL) with (Some (Start, @nil token, S d)). cbv iota beta. now rewrite cons_all_nil, lex_spaces. Qed.
Lemma lex_comma : forall d t, lex Start d ("," :: t)%char = cons_all [TOp ","] (lex Start d t).
Proof. intros d t. rewrite lex_start. reflexivity. Qed.
Lemma lex_colon : forall d t, lex Start d (":" :: " " :: t)%char = cons_all [TOp ":"] (lex Start d t).
Proof. intros d t. rewrite lex_start. change (step d ":") with (Some (Start, [TOp ":"], d)). cbv iota beta. f_equal. exact (lex_spaces 1 d t). Qed.
Lemma sep_comma : forall d, separates d (txt ", ").
Proof.
  intros d. split; [intros t; reflexivity|]. intros t. change (txt ", " ++ t) with ("," :: spaces 1 ++ t)%char.
  now rewrite lex_comma, lex_spaces.
Qed.
Lemma sep_newline : forall d n, separates (S d) (txt "," ++ NL :: spaces n).
Proof.
  intros d n. split; [intros t; reflexivity|]. intros t. change ((txt "," ++ NL :: spaces n) ++ t) with ("," :: NL :: spaces n ++ t)%char.
  now rewrite lex_comma, lex_newline.
Qed.

Lemma lexes_open : forall d (o : ascii) (close : ascii) (t : text) ts,
  (o = "(" \/ o = "[" \/ o = "{")%char -> (close = ")" \/ close = "]" \/ close = "}")%char ->
  (forall rest, lex Start (S d) (t ++ close :: rest) = cons_all ts (lex Start (S d) (close :: rest))) ->
  lexes d (o :: t ++ [close]) (TOp o :: ts ++ [TOp close]).
Proof.
  intros d o close t ts O C H rest E. cbn [app]. rewrite <- app_assoc. cbn [app]. rewrite lex_start.
  assert (S1 : step d o = Some (Start, [TOp o], S d)) by (destruct O as [->|[->| ->]]; reflexivity).
  rewrite S1, H, lex_start.
  assert (S2 : step (S d) close = Some (Start, [TOp close], d)) by (destruct C as [->|[->| ->]]; reflexivity).
  rewrite S2, !cons_all_app. reflexivity.
Qed.
Lemma lexes_close : forall d close t ts, (close = ")" \/ close = "]" \/ close = "}" \/ close = ",")%char -> lexes d t ts ->
  forall rest, lex Start d (t ++ close :: rest) = cons_all ts (lex Start d (close :: rest)).
Proof. intros d close t ts C H rest. apply H. destruct C as [->|[->|[->| ->]]]; reflexivity. Qed.

Section Writing.
  Variable loose : bool.
  Variable F : Q -> Prop.
  Variable show : Q -> text.
  Variable read : text -> fl.
  Hypothesis faith : exact F show read.

  (** Tokens of a value, wherever its text stands. *)
  Definition written (d : nat) (v : val) (t : text) : Prop := exists ts, toks loose read v ts /\ lexes d t ts.

  Lemma written_int : forall d z, written d (VInt z) (repr_int z).
  Proof.
    intros d z. unfold repr_int. set (t := uint_text (N.to_uint (Z.abs_N z))).
    assert (O : only_digits t = true) by apply uint_digits.
    assert (N : t <> []). { unfold t. pose proof (to_uint_not_nil (Z.abs_N z)) as H. destruct (N.to_uint (Z.abs_N z)); try discriminate. now elim H. }
    assert (M : number read t = Some (VInt (Z.of_N (Z.abs_N z)))) by apply number_uint.
    destruct (Z.ltb_spec z 0) as [L|L].
    - exists [TOp "-"; TNum t]. split.
      + apply (k_neg loose read _ _ t M); [cbn [negative]; f_equal; f_equal; lia|]. intros H. inversion H.
      + intros rest E. cbn [app]. rewrite lex_start. change (step d "-") with (Some (Start, [TOp "-"], d)). cbv iota beta.
        rewrite (lexes_digits d t O N rest E). now rewrite cons_all_app.
    - exists [TNum t]. split; [apply k_num; [rewrite M; f_equal; f_equal; lia|]; intros H; inversion H|]. cbn [app]. now apply lexes_digits.
  Qed.
  Lemma fin_ok : forall q, ~ Exists not_finite (floats (VFloat (Fin q))).
  Proof. intros q H. inversion H as [? ? X|? ? X]; [exact X|inversion X]. Qed.
  Lemma written_float : forall d x, finite F x -> written d (VFloat x) (repr_float show x).
  Proof.
    intros d [q| |] H; [|now elim H|now elim H]. cbn [finite] in H. cbn [repr_float]. destruct (Z.ltb_spec (Qnum q) 0) as [L|L].
    - destruct (faith _ H) as (A & B); [destruct q; cbn in *; lia|].
      assert (M : number read (show (- q)) = Some (VFloat (Fin (- q)))).
      { unfold number. now rewrite float_not_digits, A, B by exact A. }
      exists [TOp "-"; TNum (show (- q))]. split.
      + apply (k_neg loose read _ _ _ M); [|apply fin_ok]. cbn [negative]. do 3 f_equal. destruct q as [n p]. unfold Qopp. cbn. now rewrite Z.opp_involutive.
      + intros rest E. cbn [app]. rewrite lex_start. change (step d "-") with (Some (Start, [TOp "-"], d)). cbv iota beta.
        rewrite (lexes_float d _ A rest E). now rewrite cons_all_app.
    - destruct (faith _ H L) as (A & B). exists [TNum (show q)]. split; [apply k_num; [unfold number; now rewrite float_not_digits, A, B by exact A|apply fin_ok]|].
      now apply lexes_float.
  Qed.
  Lemma written_bad : forall d x, loose = true -> not_finite x -> written d (VFloat x) (repr_float show x).
  Proof.
    intros d x L N. eexists. split; [now apply k_bad|]. intros rest E.
    assert (B : lex Start d (bad_name x ++ rest) = cons_all [TName (bad_name x)] (lex Start d rest)).
    { rewrite <- (name_end (bad_name x)) by exact E. destruct x as [q| |]; exact (cons_all_nil _). }
    destruct x as [q|[]|]; [now elim N| |exact B|exact B].
    change (repr_float show (Inf true) ++ rest) with ("-" :: bad_name (Inf true) ++ rest)%char. rewrite lex_start.
    change (step d "-") with (Some (Start, [TOp "-"], d)). cbv iota beta. rewrite B. now rewrite cons_all_app.
  Qed.
  Lemma written_str : forall d s, written d (VStr s) (repr_str (txt s)).
  Proof.
    intros d s. exists (map TLit [txt s]). split; [apply k_str; cbn [concat]; apply app_nil_r|]. apply lexes_str.
  Qed.

  (** *** Items *)

  (** Items with any separators between them. *)
  Inductive laid (d : nat) : list val -> text -> Prop :=
  | laid_one : forall v t, written d v t -> laid d [v] t
  | laid_more : forall v t s l u, written d v t -> separates d s -> laid d l u -> laid d (v :: l) (t ++ s ++ u).
  Lemma laid_lexes : forall d l t, laid d l t -> exists ts, sequence loose read l ts /\ lexes d t ts.
  Proof.
    intros d l t H. induction H as [v t (ts & T & L)|v t s l u (ts & T & L) (S1 & S2) H (us & U & M)].
    - exists ts. split; [now apply q_one|exact L].
    - exists (ts ++ TOp "," :: us). split; [now apply q_more|]. intros rest E. rewrite <- !app_assoc.
      rewrite L by apply S1. rewrite S2, M by exact E. now rewrite !cons_all_app, <- app_assoc.
  Qed.
  Lemma laid_tuple : forall d a b l t, laid (S d) (a :: b :: l) t -> written d (VTuple (a :: b :: l)) ("(" :: t ++ [")"])%char.
  Proof.
    intros d a b l t H. apply laid_lexes in H as (ts & S & L). exists (TOp "(" :: ts ++ [TOp ")"]). split; [now apply k_tuple|].
    apply lexes_open; auto. apply lexes_close; auto.
  Qed.
  Lemma laid_list : forall d l t, laid (S d) l t -> written d (VList l) ("[" :: t ++ ["]"])%char.
  Proof.
    intros d l t H. apply laid_lexes in H as (ts & S & L). exists (TOp "[" :: ts ++ [TOp "]"]). split; [now apply k_list|].
    apply lexes_open; auto. apply lexes_close; auto.
  Qed.
  Lemma written_tuple1 : forall d v t, written (S d) v t -> written d (VTuple [v]) ("(" :: t ++ [","; ")"])%char.
  Proof.
    intros d v t (ts & T & L). exists (TOp "(" :: ts ++ [TOp ","; TOp ")"]). split; [now apply k_tuple1|].
    change [","; ")"]%char with ([","] ++ [")"])%char. change [TOp ","; TOp ")"] with ([TOp ","] ++ [TOp ")"]). rewrite !app_assoc.
    apply lexes_open; auto. intros rest. rewrite <- app_assoc. cbn [app]. rewrite (lexes_close (S d) ","%char t ts); auto.
    rewrite lex_comma. now rewrite cons_all_app.
  Qed.
  Lemma written_empty : forall d, written d (VTuple []) (txt "()") /\ written d (VList []) (txt "[]") /\ written d (VDict []) (txt "{}").
  Proof.
    intros d. split; [|split].
    - exists [TOp "("; TOp ")"]. split; [apply k_tuple0|]. apply (lexes_open d "(" ")" [] []); auto. intros rest. now rewrite cons_all_nil.
    - exists [TOp "["; TOp "]"]. split; [apply k_list0|]. apply (lexes_open d "[" "]" [] []); auto. intros rest. now rewrite cons_all_nil.
    - exists [TOp "{"; TOp "}"]. split; [apply k_dict0|]. apply (lexes_open d "{" "}" [] []); auto. intros rest. now rewrite cons_all_nil.
  Qed.

  (** The same for dicts. *)
  Inductive laid_dict (d : nat) : list (val * val) -> text -> Prop :=
  | ld_one : forall k v t u, hashable k = true -> written d k t -> written d v u -> laid_dict d [(k, v)] (t ++ txt ": " ++ u)
  | ld_more : forall k v t u s l w, hashable k = true -> written d k t -> written d v u -> separates d s -> laid_dict d l w ->
      laid_dict d ((k, v) :: l) (t ++ txt ": " ++ u ++ s ++ w).
  Lemma laid_dict_lexes : forall d l t, laid_dict d l t -> exists ts, entries loose read l ts /\ lexes d t ts.
  Proof.
    intros d l t H. induction H as [k v t u Hk (ts & T & L) (us & U & M)|k v t u s l w Hk (ts & T & L) (us & U & M) (S1 & S2) H (ws & W & N)].
    - exists (ts ++ TOp ":" :: us). split; [now apply e_one|]. intros rest E. rewrite <- !app_assoc. rewrite L by reflexivity.
      change (txt ": " ++ u ++ rest) with (":" :: " " :: u ++ rest)%char. rewrite lex_colon, M by exact E. now rewrite !cons_all_app, <- app_assoc.
    - exists (ts ++ TOp ":" :: us ++ TOp "," :: ws). split; [now apply e_more|]. intros rest E. rewrite <- !app_assoc. rewrite L by reflexivity.
      change (txt ": " ++ u ++ s ++ w ++ rest) with (":" :: " " :: u ++ s ++ w ++ rest)%char. rewrite lex_colon, M by apply S1.
      rewrite S2, N by exact E. rewrite !cons_all_app. f_equal. repeat (rewrite <- !app_assoc; cbn [app]). reflexivity.
  Qed.
  Lemma laid_written : forall d l t, laid_dict (S d) l t -> make_dict l = l -> written d (VDict l) ("{" :: t ++ ["}"])%char.
  Proof.
    intros d l t H M. apply laid_dict_lexes in H as (ts & S & L). exists (TOp "{" :: ts ++ [TOp "}"]). split; [now apply k_dict|].
    apply lexes_open; auto. apply lexes_close; auto.
  Qed.

  (** *** On one line *)

  Definition a_float (x : fl) : Prop := finite F x \/ loose = true /\ not_finite x.
  Definition good (v : val) : Prop := Forall a_float (floats v) /\ well_keyed v = true.
  Lemma good_seq : forall l, Forall a_float (flat_map floats l) -> forallb well_keyed l = true -> Forall good l.
  Proof.
    induction l as [|v l IH]; intros A B; constructor; cbn in A, B; apply Forall_app in A as (A1 & A2); apply andb_prop in B as (B1 & B2).
    - now split.
    - now apply IH.
  Qed.
  Lemma put_new : forall k v d, (forall s, k = VStr s -> existsb (String.eqb s) (text_keys d) = false) -> put_item k v d = d ++ [(k, v)].
  Proof.
    induction d as [|[a x] d IH]; intros H; [reflexivity|]. destruct a; cbn [put_item app]; try (rewrite IH; [reflexivity|exact H]).
    destruct k; try (rewrite IH; [reflexivity|discriminate]). specialize (H _ eq_refl) as G. cbn [text_keys existsb] in G. apply orb_false_elim in G as (G1 & G2).
    rewrite String.eqb_sym in G1. rewrite G1, IH; [reflexivity|]. intros t Q. injection Q as <-. exact G2.
  Qed.
  Lemma text_keys_app : forall a b, text_keys (a ++ b) = text_keys a ++ text_keys b.
  Proof. induction a as [|[k v] a IH]; intros b; [reflexivity|]. destruct k; cbn [text_keys app]; rewrite ?IH; reflexivity. Qed.
  Lemma distinct_app : forall a s b, distinct (a ++ s :: b) = true -> existsb (String.eqb s) a = false.
  Proof.
    induction a as [|x a IH]; intros s b H; [reflexivity|]. cbn [app distinct] in H. apply andb_prop in H as (A & B). cbn [existsb].
    rewrite (IH s b B), orb_false_r. rewrite existsb_app in A. apply negb_true_iff, orb_false_elim in A as (_ & A). cbn in A.
    apply orb_false_elim in A as (A & _). now rewrite String.eqb_sym.
  Qed.
  Lemma make_dict_same : forall d, distinct (text_keys d) = true -> make_dict d = d.
  Proof.
    unfold make_dict. intros d. assert (G : forall l acc, distinct (text_keys (acc ++ l)) = true ->
      fold_left (fun d e => put_item (fst e) (snd e) d) l acc = acc ++ l).
    { induction l as [|[k v] l IH]; intros acc D; cbn [fold_left fst snd]; [now rewrite app_nil_r|].
      rewrite put_new. - rewrite IH; rewrite <- app_assoc; [reflexivity|exact D].
      - intros s Q. subst k. rewrite text_keys_app in D. cbn [text_keys] in D. now apply distinct_app in D. }
    intros H. now apply (G d []).
  Qed.
  Lemma good_dict : forall d, good (VDict d) -> Forall (fun e => hashable (fst e) = true /\ good (fst e) /\ good (snd e)) d /\ make_dict d = d.
  Proof.
    intros d (A & B). cbn [floats well_keyed] in A, B. apply andb_prop in B as (B & D). split; [|now apply make_dict_same]. clear D.
    induction d as [|[k v] d IH]; constructor; cbn in A, B; apply Forall_app in A as (A1 & A2); apply andb_prop in B as (B1 & B2).
    - apply Forall_app in A1 as (A1 & A3). apply andb_prop in B1 as (B1 & B3). apply andb_prop in B1 as (B1 & B4). cbn. repeat split; assumption.
    - now apply IH.
  Qed.

  Lemma joined_cons : forall sep a b l, joined sep (a :: b :: l) = a ++ sep ++ joined sep (b :: l).
  Proof. reflexivity. Qed.
  Lemma joined_laid : forall d l (f : val -> text), Forall (fun v => written d v (f v)) l -> l <> [] -> laid d l (joined (txt ", ") (map f l)).
  Proof.
    intros d l f H N. induction H as [|v l W H IH]; [now elim N|]. destruct l as [|w l].
    - now apply laid_one.
    - cbn [map] in *. rewrite joined_cons. apply laid_more; [exact W|apply sep_comma|]. apply IH. discriminate.
  Qed.
  Lemma joined_dict : forall d l (f g : val -> text),
    Forall (fun e => hashable (fst e) = true /\ written d (fst e) (f (fst e)) /\ written d (snd e) (g (snd e))) l -> l <> [] ->
    laid_dict d l (joined (txt ", ") (map (fun e => f (fst e) ++ txt ": " ++ g (snd e)) l)).
  Proof.
    intros d l f g H N. induction H as [|[k v] l (K & A & B) H IH]; [now elim N|]. cbn [fst snd] in *. destruct l as [|w l].
    - now apply ld_one.
    - cbn [map] in *. rewrite joined_cons. cbn [fst snd]. rewrite <- !app_assoc. apply ld_more; auto; [apply sep_comma|]. apply IH. discriminate.
  Qed.

  Lemma repr_tuple : forall a b l, safe_repr show (VTuple (a :: b :: l)) = txt "(" ++ joined (txt ", ") (map (safe_repr show) (a :: b :: l)) ++ txt ")".
  Proof. reflexivity. Qed.
  Lemma repr_list : forall l, safe_repr show (VList l) = txt "[" ++ joined (txt ", ") (map (safe_repr show) l) ++ txt "]".
  Proof. reflexivity. Qed.
  Lemma repr_dict : forall d, safe_repr show (VDict d) =
    txt "{" ++ joined (txt ", ") (map (fun e => safe_repr show (fst e) ++ txt ": " ++ safe_repr show (snd e)) d) ++ txt "}".
  Proof. reflexivity. Qed.

  Lemma written_repr : forall v, good v -> forall d, written d v (safe_repr show v).
  Proof.
    intros v. induction v as [|b|z|x|s|l IH|l IH|l IH] using val_ind2; intros G d.
    - exists [TName (txt "None")]. split; [apply k_none|]. apply lexes_name. cbn; tauto.
    - exists [TName (txt (if b then "True" else "False"))]. split; [apply k_bool|]. destruct b; apply lexes_name; cbn; tauto.
    - apply written_int.
    - destruct G as (G & _). inversion G as [|? ? [H|(L & H)]]; [now apply written_float|now apply written_bad].
    - apply written_str.
    - destruct G as (A & B). cbn [floats well_keyed] in A, B. pose proof (good_seq l A B) as G.
      destruct l as [|a [|b l]].
      + apply written_empty.
      + apply written_tuple1. inversion IH; inversion G; subst; auto.
      + rewrite repr_tuple. apply laid_tuple. apply joined_laid; [|discriminate]. rewrite Forall_forall in *. intros v I. now apply IH, G.
    - destruct G as (A & B). cbn [floats well_keyed] in A, B. pose proof (good_seq l A B) as G. rewrite repr_list. destruct l as [|a l].
      + apply written_empty.
      + apply laid_list, joined_laid; [|discriminate]. rewrite Forall_forall in *. intros v I. now apply IH, G.
    - apply good_dict in G as (G & M). rewrite repr_dict. destruct l as [|e l].
      + apply written_empty.
      + apply laid_written; [|exact M]. apply joined_dict; [|discriminate]. rewrite Forall_forall in *. intros w I.
        destruct (G w I) as (H & K & V). destruct (IH w I) as (P & Q). auto.
  Qed.

  (** *** Long texts *)

  Lemma concat_splitlines : forall s, concat (splitlines s) = s /\ Forall (fun l => l <> []) (splitlines s).
  Proof.
    induction s as [|c s (IH & N)]; [split; [reflexivity|constructor]|]. cbn [splitlines]. destruct (ends_line c s).
    - cbn [concat app]. rewrite IH. split; [reflexivity|]. constructor; [discriminate|exact N].
    - destruct (splitlines s) as [|l ls]; cbn in *.
      + subst s. split; [reflexivity|]. repeat constructor. discriminate.
      + rewrite IH. split; [reflexivity|]. inversion N; subst. constructor; [discriminate|assumption].
  Qed.
  Lemma concat_words : forall s, concat (words s) = s.
  Proof.
    induction s as [|c s IH]; [reflexivity|]. cbn [words]. destruct (words s) as [|w ws]; [cbn in *; now subst s|].
    destruct (is_space c && _); cbn [concat app] in *; now rewrite IH.
  Qed.
  Lemma fill_parts : forall parts w a cur, exists ps, fill w a cur parts = map repr_str ps /\ concat ps = cur ++ concat parts.
  Proof.
    induction parts as [|p parts IH]; intros w a cur; cbn [fill concat].
    - destruct cur as [|c cur]; [exists []; split; reflexivity|]. exists [c :: cur]. split; reflexivity.
    - destruct (_ <? len (repr_str (cur ++ p)))%Z.
      + destruct (IH (match parts with [] => (w - a)%Z | _ => w end) a p) as (ps & A & B). rewrite A. destruct cur as [|c cur].
        * exists ps. split; [reflexivity|exact B].
        * exists ((c :: cur) :: ps). split; [reflexivity|]. cbn [concat]. now rewrite B.
      + destruct (IH (match parts with [] => (w - a)%Z | _ => w end) a (cur ++ p)) as (ps & A & B). exists ps. split; [exact A|]. now rewrite B, <- app_assoc.
  Qed.
  Lemma chunk_parts : forall (lines : list text) w a, Forall (fun l => l <> []) lines ->
    exists ps, chunks w a lines = map repr_str ps /\ concat ps = concat lines /\ length lines <= length ps.
  Proof.
    induction lines as [|l lines IH]; intros w a N; cbn [chunks concat length]; [exists []; repeat split; auto|].
    inversion N as [|? ? N1 N2]; subst. destruct (IH w a N2) as (ps & A & B & C). rewrite A.
    destruct (_ <=? _)%Z.
    - exists (l :: ps). cbn [map concat app length]. rewrite B. repeat split. lia.
    - destruct (fill_parts (words l) w (match lines with [] => a | _ => 0%Z end) []) as (qs & D & E). rewrite concat_words in E. cbn [app] in E.
      exists (qs ++ ps). rewrite D, map_app, concat_app, E, B, app_length. repeat split. destruct qs; [cbn in E; subst l; now elim N1|cbn [length]; lia].
  Qed.
  Lemma lexes_chunks : forall d n ps p, lexes (S d) (joined (NL :: spaces n) (map repr_str (p :: ps))) (map TLit (p :: ps)).
  Proof.
    intros d n. induction ps as [|q ps IH]; intros p.
    - apply lexes_str.
    - cbn [map]. rewrite joined_cons. intros rest E. rewrite <- !app_assoc. rewrite lexes_str by reflexivity.
      change ((NL :: spaces n) ++ joined (NL :: spaces n) (repr_str q :: map repr_str ps) ++ rest) with
        (NL :: spaces n ++ joined (NL :: spaces n) (map repr_str (q :: ps)) ++ rest).
      rewrite lex_newline, IH by exact E. now rewrite cons_all_app.
  Qed.
  Lemma written_pprint_str : forall s i a level d, level = 0 \/ 0 < d -> written d (VStr s) (pprint_str (txt s) i a (S level)).
  Proof.
    intros s i a level d D. unfold pprint_str. destruct (txt s) as [|c r] eqn:T; [rewrite <- T; apply written_str|]. rewrite <- T.
    destruct (concat_splitlines (txt s)) as (C1 & C2). cbv zeta.
    change (S level =? 1) with (level =? 0).
    destruct (chunk_parts (splitlines (txt s)) (WIDTH - (if (level =? 0)%nat then i + 1 else i)) (if (level =? 0)%nat then a + 1 else a)%Z C2) as (ps & A & B & C).
    rewrite A. rewrite C1 in B. destruct ps as [|p [|q ps]]; [rewrite T in B; discriminate B| |].
    - cbn [map]. assert (L : splitlines (txt s) = [txt s]).
      { destruct (splitlines (txt s)) as [|l [|m ls]]; [rewrite T in C1; discriminate C1|cbn in C1; rewrite app_nil_r in C1; now subst|cbn in C; lia]. }
      rewrite L. cbn [last]. apply written_str.
    - change (map repr_str (p :: q :: ps)) with (repr_str p :: repr_str q :: map repr_str ps). cbv iota.
      change (repr_str p :: repr_str q :: map repr_str ps) with (map repr_str (p :: q :: ps)).
      destruct level as [|level].
      + change (0 =? 0) with true. cbv iota. exists (TOp "(" :: map TLit (p :: q :: ps) ++ [TOp ")"]). split.
        * apply k_paren. now apply k_str.
        * apply lexes_open; auto. apply lexes_close; auto. apply lexes_chunks.
      + change (S level =? 0) with false. cbv iota. cbn [app]. rewrite app_nil_r. destruct D as [D|D]; [discriminate D|]. destruct d as [|d]; [lia|].
        exists (map TLit (p :: q :: ps)). split; [now apply k_str|]. apply lexes_chunks.
  Qed.

  (** *** On several lines *)

  Section Fmt.
    Variable d : nat.
    Variable fmt : val -> Z -> Z -> text.
    Definition fine (v : val) : Prop := good v /\ forall i a, written (S d) v (fmt v i a).

    Lemma seq_laid : forall l i a delim w mw, Forall fine l -> l <> [] ->
      exists delim' t, seq_items show fmt l i a delim w mw = delim' ++ t /\ laid (S d) l t /\
        (delim = [] -> delim' = []) /\ (separates (S d) delim -> separates (S d) delim').
    Proof.
      intros l i a. induction l as [|v l IH]; intros delim w mw H N; [now elim N|]. inversion H as [|? ? (G & W) H']; subst. cbn [seq_items].
      set (w1 := (if match l with [] => true | _ => false end then w - a else w)%Z). set (m1 := (if match l with [] => true | _ => false end then mw - a else mw)%Z).
      set (narrow := (w1 <? len (safe_repr show v) + 2)%Z). set (w2 := if narrow then m1 else w1).
      set (d' := if narrow then match delim with [] => [] | _ => txt "," ++ NL :: spaces i end else delim).
      assert (D1 : delim = [] -> d' = []) by (intros ->; unfold d'; now destruct narrow).
      assert (D2 : separates (S d) delim -> separates (S d) d').
      { intros S. unfold d'. destruct narrow; [|exact S]. destruct delim; [exact S|apply sep_newline]. }
      assert (K : forall t s r, written (S d) v t -> separates (S d) s -> (l = [] -> r = []) -> (l <> [] -> exists s' u, r = s' ++ u /\ laid (S d) l u /\ (separates (S d) s -> separates (S d) s')) ->
        laid (S d) (v :: l) (t ++ r)).
      { intros t s r T S E1 E2. destruct l as [|x l]; [rewrite E1, app_nil_r by reflexivity; now apply laid_one|].
        destruct E2 as (s' & u & -> & U & S'); [discriminate|]. apply laid_more; auto. }
      destruct (_ <=? w2)%Z.
      - exists d', (safe_repr show v ++ seq_items show fmt l i a (txt ", ") (w2 - (len (safe_repr show v) + 2))%Z m1). split; [reflexivity|]. split; [|split; assumption].
        apply (K _ (txt ", ")); [now apply written_repr|apply sep_comma|intros ->; reflexivity|].
        intros Nl. destruct (IH (txt ", ") (w2 - (len (safe_repr show v) + 2))%Z m1 H' Nl) as (s' & u & E1 & E2 & _ & E3). exists s', u. auto.
      - exists d', (fmt v i (if match l with [] => true | _ => false end then a else 1%Z) ++ seq_items show fmt l i a (txt "," ++ NL :: spaces i) w2 m1). split; [reflexivity|]. split; [|split; assumption].
        apply (K _ (txt "," ++ NL :: spaces i)); [apply W|apply sep_newline|intros ->; reflexivity|].
        intros Nl. destruct (IH (txt "," ++ NL :: spaces i) w2 m1 H' Nl) as (s' & u & E1 & E2 & _ & E3). exists s', u. auto.
    Qed.
    Lemma seq_first : forall l i a w mw, Forall fine l -> l <> [] -> laid (S d) l (seq_items show fmt l i a [] w mw).
    Proof.
      intros l i a w mw H N. destruct (seq_laid l i a [] w mw H N) as (d' & t & A & B & C & _). rewrite A, C by reflexivity. exact B.
    Qed.
    Lemma dict_laid : forall l i a, Forall (fun e => hashable (fst e) = true /\ good (fst e) /\ fine (snd e)) l -> l <> [] ->
      laid_dict (S d) l (dict_items show fmt l i a).
    Proof.
      intros l i a. induction l as [|[k v] l IH]; intros H N; [now elim N|]. inversion H as [|? ? (K & G & (_ & W)) H']; subst. cbn [fst snd] in *.
      cbn [dict_items]. destruct l as [|e l].
      - rewrite app_nil_r. apply ld_one; auto. now apply written_repr.
      - pose proof (ld_more (S d) k v (safe_repr show k) (fmt v (i + len (safe_repr show k) + 2)%Z 1%Z) (txt "," ++ NL :: spaces i) (e :: l) (dict_items show fmt (e :: l) i a) K
          (written_repr k G (S d)) (W _ _) (sep_newline d i) (IH H' ltac:(discriminate))) as X.
        rewrite <- (app_assoc (txt ",")) in X. exact X.
    Qed.
  End Fmt.

  Lemma written_format : forall v, good v -> forall i a level d, level = 0 \/ 0 < d -> written d v (format show v i a level).
  Proof.
    intros v. induction v as [|b|z|x|s|l IH|l IH|l IH] using val_ind2; intros G i a level d D; cbn [format];
      (destruct (_ <=? _)%Z; [now apply written_repr|]); try (now apply written_repr).
    - now apply written_pprint_str.
    - destruct G as (A & B). cbn [floats well_keyed] in A, B. pose proof (good_seq l A B) as G.
      assert (H : Forall (fine d (fun e i a => format show e i a (S level))) l).
      { rewrite Forall_forall in *. intros v I. split; [now apply G|]. intros j b. apply IH; auto. right. lia. }
      unfold seq_text. cbv zeta. destruct l as [|v [|w l]].
      + apply written_empty.
      + apply written_tuple1. pose proof (seq_first d _ [v] (i + 1) (a + len (txt ",)")) (WIDTH - (i + 1) + 1) (WIDTH - (i + 1) + 1) H ltac:(discriminate)) as X.
        inversion X as [? ? Y|]; [exact Y|]. subst. match goal with Z : laid _ [] _ |- _ => inversion Z end.
      + apply laid_tuple. apply seq_first; [exact H|discriminate].
    - destruct G as (A & B). cbn [floats well_keyed] in A, B. pose proof (good_seq l A B) as G.
      assert (H : Forall (fine d (fun e i a => format show e i a (S level))) l).
      { rewrite Forall_forall in *. intros v I. split; [now apply G|]. intros j b. apply IH; auto. right. lia. }
      unfold seq_text. cbv zeta. destruct l as [|v l]; [apply written_empty|]. apply laid_list, seq_first; [exact H|discriminate].
    - apply good_dict in G as (G & M). destruct l as [|e l]; [apply written_empty|]. apply laid_written; [|exact M]. apply dict_laid; [|discriminate].
      rewrite Forall_forall in *. intros w I. destruct (G w I) as (H & K & V). destruct (IH w I) as (P & Q). split; [exact H|]. split; [exact K|]. split; [exact V|].
      intros j b. apply Q; auto. right. lia.
  Qed.

  (** *** Reading it back *)

  Lemma written_eval : forall v t, loose = false -> written 0 v t -> literal_eval read t = Some v.
  Proof.
    intros v t Ls (ts & T & L). unfold literal_eval. specialize (L [] I). rewrite app_nil_r in L. rewrite L. cbn [lex cons_all]. rewrite app_nil_r.
    pose proof (proj1 (toks_open loose read) v ts T) as O.
    assert (S : skip_ends ts = ts) by (destruct ts as [|[] ts]; try reflexivity; now elim O).
    rewrite S. rewrite (toks_parse loose read v ts); [reflexivity|exact Ls|exact T|lia].
  Qed.
End Writing.

Lemma good_strict : forall F v, Forall (finite F) (floats v) -> well_keyed v = true -> good false F v.
Proof. intros F v A B. split; [|exact B]. eapply Forall_impl; [|exact A]. intros x H. now left. Qed.
Lemma pformat_eval : forall F show read v, exact F show read -> Forall (finite F) (floats v) -> well_keyed v = true ->
  literal_eval read (pformat show v) = Some v.
Proof. intros F show read v E A B. apply (written_eval false); [reflexivity|]. apply (written_format false F); auto. now apply good_strict. Qed.
Lemma repr_eval : forall F show read v, exact F show read -> Forall (finite F) (floats v) -> well_keyed v = true ->
  literal_eval read (safe_repr show v) = Some v.
Proof. intros F show read v E A B. apply (written_eval false); [reflexivity|]. apply (written_repr false F); auto. now apply good_strict. Qed.

(** ** What cannot be read *)

Definition bad (t : token) : Prop := exists x, not_finite x /\ t = TName (bad_name x).
Lemma Exists_mid : forall (A : Type) (P : A -> Prop) l x r, Exists P l \/ Exists P r -> Exists P (l ++ x :: r).
Proof. intros A P l x r [H|H]; apply Exists_app; [now left|right; now apply Exists_cons_tl]. Qed.
Lemma Exists_flat : forall (A B : Type) (P : B -> Prop) (f : A -> list B) l, Exists P (flat_map f l) -> Exists (fun a => Exists P (f a)) l.
Proof. intros A B P f l. induction l as [|a l IH]; cbn; intros H; [inversion H|]. apply Exists_app in H as [H|H]; [now left|right; auto]. Qed.
Lemma toks_bad : forall read,
  (forall v ts, toks true read v ts -> Exists not_finite (floats v) -> Exists bad ts) /\
  (forall l ts, sequence true read l ts -> Exists (fun v => Exists not_finite (floats v)) l -> Exists bad ts) /\
  (forall d ts, entries true read d ts -> Exists (fun e => Exists not_finite (floats (fst e) ++ floats (snd e))) d -> Exists bad ts).
Proof.
  intros read.
  assert (W : forall o c ts, Exists bad ts -> Exists bad (TOp o :: ts ++ c)) by (intros o c ts H; right; apply Exists_app; now left).
  apply grammar_ind.
  - intros H. inversion H.
  - intros b H. inversion H.
  - intros v t _ N H. now elim N.
  - intros v w t _ _ N H. now elim N.
  - intros x _ N _. apply Exists_app. right. left. exists x. now split.
  - intros s p ps _ H. inversion H.
  - intros v ts _ IH H. auto.
  - intros H. inversion H.
  - intros v ts _ IH H. cbn [floats flat_map] in H. rewrite app_nil_r in H. auto.
  - intros a b l ts _ IH H. apply W, IH. cbn [floats] in H. now apply Exists_flat in H.
  - intros H. inversion H.
  - intros l ts _ IH H. apply W, IH. cbn [floats] in H. now apply Exists_flat in H.
  - intros H. inversion H.
  - intros d ts _ IH _ H. apply W, IH. cbn [floats] in H. now apply Exists_flat in H.
  - intros v ts _ IH H. inversion H as [? ? X|? ? X]; subst; [auto|inversion X].
  - intros v ts l us _ IH _ IH' H. apply Exists_mid. inversion H; subst; auto.
  - intros k v ts us _ _ IH _ IH' H. inversion H as [? ? X|? ? X]; subst; [|inversion X]. cbn [fst snd] in X. apply Exists_app in X.
    apply Exists_mid. destruct X; auto.
  - intros k v ts us d ws _ _ IH _ IH' _ IH3 H. apply Exists_mid. inversion H as [? ? X|? ? X]; subst; [|right; apply Exists_mid; auto]. cbn [fst snd] in X.
    apply Exists_app in X. destruct X; auto. right. apply Exists_mid. auto.
Qed.

(** The parser accepts none of those names. *)
Definition known (t : token) : Prop := match t with TName w => name w <> None | _ => True end.
Definition used (ts r : list token) : Prop := exists u, ts = u ++ r /\ Forall known u.
Lemma used_cons : forall t ts r, known t -> used ts r -> used (t :: ts) r.
Proof. intros t ts r K (u & -> & H). exists (t :: u). split; [reflexivity|now constructor]. Qed.
Lemma used_trans : forall a b c, used a b -> used b c -> used a c.
Proof. intros a b c (u & -> & H) (w & -> & K). exists (u ++ w). split; [apply app_assoc|now apply Forall_app]. Qed.
Lemma used_same : forall a, used a a.
Proof. intros a. exists []. split; [reflexivity|constructor]. Qed.
Lemma strs_used : forall ts s r, strs ts = (s, r) -> used ts r.
Proof.
  induction ts as [|t ts IH]; intros s r H; cbn in H; [injection H as <- <-; apply used_same|].
  destruct t; try (injection H as <- <-; apply used_same). destruct (strs ts) as [s' r'] eqn:E. injection H as <- <-.
  apply used_cons; [exact I|now apply (IH s')].
Qed.
Lemma parse_used : forall read f,
  (forall ts v r, expr read f ts = Some (v, r) -> used ts r) /\
  (forall c ts l b r, items read f c ts = Some (l, b, r) -> used ts r) /\
  (forall c ts l b r, items_from read f c ts = Some (l, b, r) -> used ts r) /\
  (forall ts l r, pairs read f ts = Some (l, r) -> used ts r) /\
  (forall ts l r, pairs_from read f ts = Some (l, r) -> used ts r).
Proof.
  intros read. induction f as [|f (E & IT & IF & PA & PF)]; [repeat split; intros; discriminate|].
  assert (C : forall t ts r, known t -> used ts r -> used (t :: ts) r) by apply used_cons.
  assert (KO : forall c, known (TOp c)) by (intros; exact I).
  assert (KN : forall c, known (TNum c)) by (intros; exact I).
  assert (SM := used_same).
  split; [|split; [|split; [|split]]].
  - intros ts v r H. destruct ts as [|[t|t|t|c|] ts]; try discriminate H.
    + rewrite expr_num in H. destruct (number read t); [|discriminate]. injection H as <- <-. auto.
    + rewrite expr_lit in H. destruct (strs (TLit t :: ts)) as [s r'] eqn:S. injection H as <- <-. now apply strs_used in S.
    + change (match name t with Some v => Some (v, ts) | None => None end = Some (v, r)) in H.
      destruct (name t) eqn:N; [|discriminate]. injection H as <- <-. apply C; [|apply SM]. cbn. rewrite N. discriminate.
    + cbn [expr] in H. fold (items read) (items_from read) (expr read) (pairs read) (pairs_from read) in H.
      destruct (is c "-"); [destruct ts as [|[t| | | |] ts]; try discriminate; destruct (number read t) as [w|]; [|discriminate]; destruct (negative w); [|discriminate]; injection H as <- <-; auto|].
      destruct (is c "+"); [destruct ts as [|[t| | | |] ts]; try discriminate; destruct (number read t) as [w|]; [|discriminate]; injection H as <- <-; auto|].
      destruct (is c "("); [|destruct (is c "["); [|destruct (is c "{"); [|discriminate]]].
      * destruct (items read f ")" ts) as [[[l b] r']|] eqn:X; [|discriminate]. apply IT in X.
        assert (r' = r) by (destruct l as [|? [|]]; [|destruct b|]; now injection H). subst. auto.
      * destruct (items read f "]" ts) as [[[l b] r']|] eqn:X; [|discriminate]. apply IT in X. injection H as <- <-. auto.
      * destruct (pairs read f ts) as [[l r']|] eqn:X; [|discriminate]. apply PA in X. injection H as <- <-. auto.
  - intros c ts l b r H. destruct ts as [|[t|t|t|o|] ts]; try (now apply IF in H).
    change ((if is o c then Some ([], false, ts) else items_from read f c (TOp o :: ts)) = Some (l, b, r)) in H.
    destruct (is o c); [injection H as <- <- <-; auto|now apply IF in H].
  - intros c ts l b r H. rewrite items_from_S in H. destruct (expr read f ts) as [[v [|[t|t|t|o|] r']]|] eqn:X; try discriminate. apply E in X.
    apply (used_trans _ _ _ X). destruct (is o c); [injection H as <- <- <-; auto|]. destruct (is o ","); [|discriminate].
    destruct (items read f c r') as [[[l' b'] r2]|] eqn:Y; [|discriminate]. apply IT in Y.
    assert (r2 = r) by (destruct l'; now injection H). subst. auto.
  - intros ts l r H. destruct ts as [|[t|t|t|o|] ts]; try (now apply PF in H).
    change ((if is o "}" then Some ([], ts) else pairs_from read f (TOp o :: ts)) = Some (l, r)) in H.
    destruct (is o "}"); [injection H as <- <-; auto|now apply PF in H].
  - intros ts l r H. rewrite pairs_from_S in H. destruct (expr read f ts) as [[k [|[t|t|t|o|] r']]|] eqn:X; try discriminate. apply E in X.
    apply (used_trans _ _ _ X). destruct (is o ":" && hashable k); [|discriminate].
    destruct (expr read f r') as [[v [|[t|t|t|o'|] r2]]|] eqn:Y; try discriminate. apply E in Y. apply C; [exact I|]. apply (used_trans _ _ _ Y).
    destruct (is o' "}"); [injection H as <- <-; auto|]. destruct (is o' ","); [|discriminate].
    destruct (pairs read f r2) as [[l' r3]|] eqn:Z; [|discriminate]. apply PA in Z. injection H as <- <-. auto.
Qed.
Lemma bad_unknown : forall t, bad t -> ~ known t.
Proof. intros t (x & N & ->) K. destruct x; [now elim N| |]; now apply K. Qed.
Lemma skip_bad : forall ts, Exists bad ts -> Exists bad (skip_ends ts).
Proof. induction ts as [|t ts IH]; intros H; [exact H|]. destruct t; try exact H. apply IH. inversion H as [? ? (x & _ & X)|]; [discriminate|assumption]. Qed.

Lemma bad_eval : forall F show read v t, exact F show read -> written true read 0 v t -> Exists not_finite (floats v) -> literal_eval read t = None.
Proof.
  intros F show read v t X (ts & T & L) N. apply (proj1 (toks_bad read) v ts T) in N. unfold literal_eval. specialize (L [] I). rewrite app_nil_r in L.
  rewrite L. cbn [lex cons_all]. rewrite app_nil_r. apply skip_bad in N.
  destruct (expr read (4 * length ts + 4) (skip_ends ts)) as [[w r]|] eqn:E; [|reflexivity].
  destruct (skip_ends r) eqn:R; [|reflexivity]. exfalso. apply (proj1 (parse_used read _)) in E as (u & Q & K). rewrite Q in N.
  apply Exists_app in N as [N|N].
  - rewrite Forall_forall in K. apply Exists_exists in N as (b & I & B). exact (bad_unknown b B (K b I)).
  - apply skip_bad in N. rewrite R in N. inversion N.
Qed.
Lemma pformat_bad : forall F show read v, exact F show read -> Forall (fun x => finite F x \/ not_finite x) (floats v) -> well_keyed v = true ->
  Exists not_finite (floats v) -> literal_eval read (pformat show v) = None.
Proof.
  intros F show read v X A B N. apply (bad_eval F show read v); auto. apply (written_format true F); auto. split; [|exact B].
  eapply Forall_impl; [|exact A]. intros x [H|H]; [now left|right; now split].
Qed.

(** ** Which characters a text is made of *)

Section Chars.
  Variable P : ascii -> Prop.
  Variable show : Q -> text.
  Hypothesis plain : forall c, printable c = true -> is_ascii c = true -> P c.
  Hypothesis newline : P NL.
  Hypothesis shown : forall q, Forall P (show q).
  (** Characters whose escapes are fine. *)
  Definition fits (c : ascii) : Prop := forall q, a_quote q -> Forall P (escape q c).

  Lemma plain_text : forall s, forallb (fun c => printable c && is_ascii c) (txt s) = true -> Forall P (txt s).
  Proof. intros s H. rewrite forallb_forall in H. apply Forall_forall. intros c I. apply H, andb_prop in I as (A & B). auto. Qed.
  Ltac plain := apply plain_text; reflexivity.
  Lemma P_spaces : forall n, Forall P (spaces n).
  Proof. intros n. unfold spaces. apply Forall_forall. intros c I. apply repeat_spec in I. subst c. now apply plain. Qed.
  Lemma P_quote : forall s, P (quote_of s).
  Proof. intros s. destruct (quote_of_is s) as [-> | ->]; now apply plain. Qed.
  Lemma P_repr_str : forall s, Forall fits s -> Forall P (repr_str s).
  Proof.
    intros s H. unfold repr_str. constructor; [apply P_quote|]. apply Forall_app. split; [|constructor; [apply P_quote|constructor]].
    apply Forall_flat_map. eapply Forall_impl; [|exact H]. intros c K. apply K, quote_of_is.
  Qed.
  Lemma P_int : forall z, Forall P (repr_int z).
  Proof.
    intros z. unfold repr_int. apply Forall_app. split; [destruct (z <? 0)%Z; repeat constructor; now apply plain|].
    induction (N.to_uint (Z.abs_N z)); cbn [uint_text]; constructor; auto.
  Qed.
  Lemma P_float : forall x, Forall P (repr_float show x).
  Proof.
    intros [q|[]|]; cbn [repr_float]; [|plain..]. destruct (Qnum q <? 0)%Z; auto.
  Qed.
  Lemma P_joined : forall sep l, Forall P sep -> Forall (Forall P) l -> Forall P (joined sep l).
  Proof.
    intros sep l S H. induction H as [|a l A H IH]; [constructor|]. destruct l as [|b l]; [exact A|]. rewrite joined_cons.
    apply Forall_app. split; [exact A|]. apply Forall_app. split; [exact S|exact IH].
  Qed.
  Lemma fits_texts : forall (A : Type) (f : A -> list string) l, Forall (fun s => Forall fits (txt s)) (flat_map f l) ->
    Forall (fun a => Forall (fun s => Forall fits (txt s)) (f a)) l.
  Proof. intros A f l H. induction l as [|a l IH]; constructor; cbn in H; apply Forall_app in H as (H1 & H2); auto. Qed.

  Definition fit (v : val) : Prop := Forall (fun s => Forall fits (txt s)) (texts v).
  Lemma P_repr : forall v, fit v -> Forall P (safe_repr show v).
  Proof.
    intros v. induction v as [|b|z|x|s|l IH|l IH|l IH] using val_ind2; intros H; cbn [safe_repr].
    - plain.
    - destruct b; plain.
    - apply P_int.
    - apply P_float.
    - apply P_repr_str. now inversion H.
    - apply fits_texts in H. assert (Q : Forall (Forall P) (map (safe_repr show) l)).
      { apply Forall_map. rewrite Forall_forall in *. intros v I. apply IH; [exact I|]. now apply H. }
      assert (G : Forall P (txt "(" ++ joined (txt ", ") (map (safe_repr show) l) ++ txt ")")).
      { apply Forall_app. split; [plain|]. apply Forall_app. split; [apply P_joined; [plain|exact Q]|plain]. }
      destruct l as [|a [|b l]]; [exact G| |exact G]. apply Forall_app. split; [plain|]. apply Forall_app. split; [|plain]. now inversion Q.
    - apply fits_texts in H. apply Forall_app. split; [plain|]. apply Forall_app. split; [|plain]. apply P_joined; [plain|].
      apply Forall_map. rewrite Forall_forall in *. intros v I. apply IH; [exact I|]. now apply H.
    - apply fits_texts in H. apply Forall_app. split; [plain|]. apply Forall_app. split; [|plain]. apply P_joined; [plain|].
      apply Forall_map. rewrite Forall_forall in *. intros e I. specialize (H e I). apply Forall_app in H as (H1 & H2). destruct (IH e I) as (A & B).
      apply Forall_app. split; [auto|]. apply Forall_app. split; [plain|auto].
  Qed.
  Lemma fits_concat : forall ps s, concat ps = s -> Forall fits s -> Forall (Forall fits) ps.
  Proof. intros ps s <- H. induction ps as [|p ps IH]; constructor; cbn in H; apply Forall_app in H as (A & B); auto. Qed.
  Lemma P_pprint_str : forall s i a level, Forall fits s -> Forall P (pprint_str s i a level).
  Proof.
    intros s i a level H. unfold pprint_str. destruct s as [|c r] eqn:T; [now apply P_repr_str|]. rewrite <- T in *. clear c r T. cbv zeta.
    destruct (concat_splitlines s) as (C1 & C2).
    match goal with |- context [chunks ?w ?a ?l] => destruct (chunk_parts l w a C2) as (ps & A & B & _) end. rewrite A. rewrite C1 in B.
    pose proof (fits_concat ps s B H) as K.
    assert (G : forall o c n, Forall P o -> Forall P c -> Forall P (o ++ joined (NL :: spaces n) (map repr_str ps) ++ c)).
    { intros o c n O C. apply Forall_app. split; [exact O|]. apply Forall_app. split; [|exact C]. apply P_joined; [constructor; [exact newline|apply P_spaces]|].
      apply Forall_map. eapply Forall_impl; [|exact K]. intros p. apply P_repr_str. }
    assert (L : Forall P (repr_str (last (splitlines s) []))).
    { apply P_repr_str. pose proof (fits_concat _ _ C1 H) as M. clear - M. induction M as [|x l A M IH]; [constructor|]. cbn. destruct l; [exact A|exact IH]. }
    assert (G' : Forall P ((if level =? 1 then txt "(" else []) ++ joined (NL :: spaces (if level =? 1 then (i + 1)%Z else i)) (map repr_str ps) ++ (if level =? 1 then txt ")" else []))).
    { destruct (level =? 1); apply G; try plain; constructor. }
    destruct ps as [|p [|q ps]]; [exact G'|exact L|exact G'].
  Qed.
  Section Fmt.
    Variable fmt : val -> Z -> Z -> text.
    Lemma P_nl : forall i, Forall P (txt "," ++ NL :: spaces i).
    Proof. intros i. apply Forall_app. split; [plain|]. constructor; [exact newline|apply P_spaces]. Qed.
    Lemma P_seq : forall l i a delim w mw, Forall (fun v => fit v /\ forall i a, Forall P (fmt v i a)) l -> Forall P delim ->
      Forall P (seq_items show fmt l i a delim w mw).
    Proof.
      intros l i a. induction l as [|v l IH]; intros delim w mw H D; cbn [seq_items]; [constructor|]. inversion H as [|? ? (A & B) H']; subst.
      assert (D' : forall b : bool, Forall P (if b then match delim with [] => [] | _ => txt "," ++ NL :: spaces i end else delim)).
      { intros [|]; [|exact D]. destruct delim; [exact D|apply P_nl]. }
      destruct (_ <=? _)%Z; (apply Forall_app; split; [apply D'|]; apply Forall_app; split).
      - now apply P_repr.
      - apply IH; [exact H'|plain].
      - apply B.
      - apply IH; [exact H'|apply P_nl].
    Qed.
    Lemma P_dict : forall l i a, Forall (fun e => fit (fst e) /\ forall i a, Forall P (fmt (snd e) i a)) l -> Forall P (dict_items show fmt l i a).
    Proof.
      intros l i a. induction l as [|[k v] l IH]; intros H; cbn [dict_items]; [constructor|]. inversion H as [|? ? (A & B) H']; subst. cbn [fst snd] in *.
      apply Forall_app. split; [now apply P_repr|]. apply Forall_app. split; [plain|]. apply Forall_app. split; [apply B|].
      destruct l as [|e l]; [constructor|]. pose proof (P_nl i) as N. apply Forall_app in N as (N1 & N2). inversion N2; subst. apply Forall_app. split; [exact N1|]. constructor; [exact newline|].
      apply Forall_app. split; [apply P_spaces|]. now apply IH.
    Qed.
  End Fmt.
  Lemma P_format : forall v, fit v -> forall i a level, Forall P (format show v i a level).
  Proof.
    intros v. induction v as [|b|z|x|s|l IH|l IH|l IH] using val_ind2; intros H i a level; cbn [format];
      (destruct (_ <=? _)%Z; [apply P_repr; exact H|]); try (apply P_repr; exact H).
    - apply P_pprint_str. now inversion H.
    - apply fits_texts in H. apply Forall_app. split; [plain|]. unfold seq_text. apply Forall_app. split; [|destruct l as [|? [|]]; plain].
      apply P_seq; [|constructor]. rewrite Forall_forall in *. intros v I. split; [now apply H|]. intros j b. apply IH; [exact I|now apply H].
    - apply fits_texts in H. apply Forall_app. split; [plain|]. unfold seq_text. apply Forall_app. split; [|plain].
      apply P_seq; [|constructor]. rewrite Forall_forall in *. intros v I. split; [now apply H|]. intros j b. apply IH; [exact I|now apply H].
    - apply fits_texts in H. apply Forall_app. split; [plain|]. apply Forall_app. split; [|plain]. apply P_dict.
      rewrite Forall_forall in *. intros e I. specialize (H e I). apply Forall_app in H as (H1 & H2). destruct (IH e I) as (A & B). split; [exact H1|].
      intros j b. now apply B.
  Qed.
End Chars.

(** ** Configurations *)

Definition as_dict (c : cfg) : val := VDict (map (fun e => (VStr (fst e), snd e)) c).
Lemma names_back : forall c, names (map (fun e => (VStr (fst e), snd e)) c) = Some c.
Proof. induction c as [|[k v] c IH]; [reflexivity|]. cbn. now rewrite IH. Qed.
Lemma keys_back : forall c, text_keys (map (fun e => (VStr (fst e), snd e)) c) = map fst c.
Proof. induction c as [|[k v] c IH]; [reflexivity|]. cbn. now rewrite IH. Qed.
Lemma floats_back : forall c, floats (as_dict c) = flat_map (fun e => floats (snd e)) c.
Proof. unfold as_dict. cbn [floats]. induction c as [|[k v] c IH]; [reflexivity|]. cbn. now rewrite IH. Qed.
Lemma keyed_back : forall c, distinct (map fst c) = true -> forallb (fun e => well_keyed (snd e)) c = true -> well_keyed (as_dict c) = true.
Proof.
  intros c D H. unfold as_dict. cbn [well_keyed]. rewrite keys_back, D, andb_true_r. clear D. induction c as [|[k v] c IH]; [reflexivity|]. cbn in *.
  apply andb_prop in H as (A & B). rewrite A. now apply IH.
Qed.
Lemma file_back : forall F show read c, exact F show read -> Forall (finite F) (flat_map (fun e => floats (snd e)) c) ->
  distinct (map fst c) = true -> forallb (fun e => well_keyed (snd e)) c = true -> file_dict read (to_py show c) = Some c.
Proof.
  intros F show read c X A D K. unfold file_dict, to_py. fold (as_dict c). rewrite (pformat_eval F).
  - unfold as_dict. apply names_back.
  - exact X.
  - now rewrite floats_back.
  - now apply keyed_back.
Qed.
Lemma file_bad : forall F show read c, exact F show read -> Forall (fun x => finite F x \/ not_finite x) (flat_map (fun e => floats (snd e)) c) ->
  distinct (map fst c) = true -> forallb (fun e => well_keyed (snd e)) c = true ->
  Exists not_finite (flat_map (fun e => floats (snd e)) c) -> file_dict read (to_py show c) = None.
Proof.
  intros F show read c X A D K N. unfold file_dict, to_py. fold (as_dict c). rewrite (pformat_bad F); auto.
  - now rewrite floats_back.
  - now apply keyed_back.
  - now rewrite floats_back.
Qed.

(** ** Options that are written twice *)

Lemma dict_eval : forall F show read l, exact F show read ->
  Forall (fun e => hashable (fst e) = true /\ good false F (fst e) /\ good false F (snd e)) l ->
  literal_eval read (safe_repr show (VDict l)) = Some (VDict (make_dict l)).
Proof.
  intros F show read l X G. destruct l as [|e l]; [reflexivity|]. set (d := e :: l) in *.
  assert (H : laid_dict false read 1 d (joined (txt ", ") (map (fun e => safe_repr show (fst e) ++ txt ": " ++ safe_repr show (snd e)) d))).
  { apply joined_dict; [|discriminate]. eapply Forall_impl; [|exact G]. intros w (A & B & C). split; [exact A|]. split; now apply (written_repr false F). }
  apply laid_dict_lexes in H as (ts & T & L). rewrite repr_dict.
  assert (W : lexes 0 (txt "{" ++ joined (txt ", ") (map (fun e => safe_repr show (fst e) ++ txt ": " ++ safe_repr show (snd e)) d) ++ txt "}") (TOp "{" :: ts ++ [TOp "}"])).
  { apply lexes_open; auto. apply lexes_close; auto. }
  unfold literal_eval. specialize (W [] I). rewrite app_nil_r in W. rewrite W. cbn [lex cons_all]. rewrite app_nil_r.
  change (skip_ends (TOp "{" :: ts ++ [TOp "}"])) with (TOp "{" :: ts ++ [TOp "}"]).
  rewrite Nat.add_comm. cbn [plus]. rewrite expr_dict.
  rewrite (pairs_dict read d ts); [reflexivity| | |].
  - now apply (proj2 (proj2 (toks_open false read)) d).
  - now apply (proj2 (proj2 (grammar_parses false read eq_refl))).
  - cbn [length]. rewrite app_length. cbn [length]. lia.
Qed.
Lemma put_items : forall c e, NoDup (map fst c) ->
  exists c', put_item (VStr (fst e)) (snd e) (map (fun e => (VStr (fst e), snd e)) c) = map (fun e => (VStr (fst e), snd e)) c' /\
    NoDup (map fst c') /\ (forall k, In k (map fst c') -> In k (map fst c) \/ k = fst e) /\
    (forall k, lookup k c' = if String.eqb k (fst e) then Some (snd e) else lookup k c).
Proof.
  intros c [k v]. cbn [fst snd]. induction c as [|[a x] c IH]; intros N.
  - exists [(k, v)]. split; [reflexivity|]. split; [repeat constructor; auto|]. split; [cbn; intuition|].
    intros j. unfold lookup. cbn. rewrite String.eqb_sym. destruct (String.eqb j k); reflexivity.
  - cbn [map fst snd put_item]. inversion N as [|? ? Ni N']; subst. destruct (String.eqb_spec a k) as [->|D].
    + exists ((k, v) :: c). split; [reflexivity|]. split; [exact N|]. split; [cbn; intuition|].
      intros j. unfold lookup. cbn. rewrite (String.eqb_sym k j). destruct (String.eqb j k); reflexivity.
    + destruct (IH N') as (c' & E & N2 & K & L). exists ((a, x) :: c'). rewrite E. split; [reflexivity|]. split; [|split].
      * cbn. constructor; [|exact N2]. intros J. apply K in J as [J|J]; auto.
      * intros j [J|J]; [left; now left|]. apply K in J as [J|J]; [left; now right|now right].
      * intros j. specialize (L j). unfold lookup in *. cbn. destruct (String.eqb_spec a j) as [->|Q]; [|exact L].
        destruct (String.eqb_spec j k); [contradiction|reflexivity].
Qed.
Lemma lookup_app : forall k (a b : cfg), lookup k (a ++ b) = match lookup k a with Some v => Some v | None => lookup k b end.
Proof.
  intros k a b. unfold lookup. induction a as [|[j v] a IH]; [reflexivity|]. cbn [app find fst]. destruct (String.eqb j k); [reflexivity|exact IH].
Qed.
Lemma make_items : forall l, exists c, make_dict (map (fun e => (VStr (fst e), snd e)) l) = map (fun e => (VStr (fst e), snd e)) c /\
  NoDup (map fst c) /\ forall k, lookup k c = lookup k (rev l).
Proof.
  unfold make_dict. intros l.
  assert (G : forall l c, NoDup (map fst c) -> exists c', fold_left (fun d e => put_item (fst e) (snd e) d) (map (fun e => (VStr (fst e), snd e)) l) (map (fun e => (VStr (fst e), snd e)) c)
      = map (fun e => (VStr (fst e), snd e)) c' /\ NoDup (map fst c') /\ forall k, lookup k c' = match lookup k (rev l) with Some v => Some v | None => lookup k c end).
  { clear l. induction l as [|e l IH]; intros c N; [exists c; auto|]. cbn [map fold_left fst snd rev].
    destruct (put_items c e N) as (c1 & E & N1 & _ & L). rewrite E. destruct (IH c1 N1) as (c' & E' & N' & L'). exists c'. split; [exact E'|]. split; [exact N'|].
    intros k. rewrite L', lookup_app. destruct (lookup k (rev l)); [reflexivity|]. rewrite L. unfold lookup at 2. destruct e as [a v]. cbn. rewrite (String.eqb_sym a k).
    now destruct (String.eqb k a). }
  destruct (G l [] (NoDup_nil _)) as (c & E & N & L). exists c. split; [exact E|]. split; [exact N|]. intros k. rewrite L. now destruct (lookup k (rev l)).
Qed.

(** ** Comments *)

Lemma lex_comment : forall note d r, ~ In NL note -> lex Start d ("#" :: note ++ NL :: r)%char = lex Start d (NL :: r).
Proof.
  intros note d r N. rewrite lex_start. change (step d "#") with (Some (Comment, @nil token, d)). cbv iota beta. rewrite cons_all_nil.
  induction note as [|c note IH]; [reflexivity|]. cbn [app].
  change (lex Comment d (c :: note ++ NL :: r)) with (if is c NL then match step d c with Some (st, l', d) => cons_all l' (lex st d (note ++ NL :: r)) | None => None end else lex Comment d (note ++ NL :: r)).
  assert (E : is c NL = false). { destruct (is c NL) eqn:E; [|reflexivity]. elim N. left. now apply Ascii.eqb_eq in E. }
  rewrite E. apply IH. intros H. apply N. now right.
Qed.
Lemma lex_line : forall d r, lex Start (S d) (NL :: r) = lex Start (S d) r.
Proof. intros d r. exact (lex_newline 0 d r). Qed.
Lemma lex_head : forall head r, Forall (fun note => ~ In NL note) head ->
  lex Start 0 (flat_map (fun note => txt "#" ++ note ++ [NL]) head ++ r) = cons_all (repeat TEnd (length head)) (lex Start 0 r).
Proof.
  intros head r H. induction H as [|note head N H IH]; [now rewrite cons_all_nil|]. cbn [flat_map length repeat]. rewrite <- !app_assoc.
  change (txt "#" ++ note ++ [NL] ++ ?x) with ("#" :: note ++ NL :: x)%char. rewrite lex_comment by exact N.
  rewrite lex_start. change (step 0 NL) with (Some (Start, [TEnd], 0)). cbv iota beta. rewrite IH, cons_all_app. reflexivity.
Qed.
Lemma skip_all : forall n ts, skip_ends (repeat TEnd n ++ ts) = skip_ends ts.
Proof. induction n as [|n IH]; intros ts; [reflexivity|apply IH]. Qed.
Lemma lines_read : forall F show read lines, exact F show read -> Forall (fun '(n, e, note) => ~ In NL note /\ good false F (snd e)) lines ->
  exists ts, (forall r, lex Start 1 (flat_map (fun '(n, e, note) => option_line show n e note) lines ++ r) = cons_all ts (lex Start 1 r)) /\
    forall f rest, 2 * length ts + 4 <= f -> pairs read f (ts ++ TOp "}" :: rest) = Some (map (fun '(_, e, _) => (VStr (fst e), snd e)) lines, rest).
Proof.
  intros F show read lines X H. induction H as [|[[n e] note] lines (N & G) H (us & L & P)].
  - exists []. split; [intros r; now rewrite cons_all_nil|]. intros [|f] rest Q; [cbn in Q; lia|]. reflexivity.
  - destruct e as [k v]. cbn [fst snd] in *.
    destruct (written_str false read 1 k) as (ks & K1 & K2).
    destruct (written_repr false F show read X v G 1) as (vs & V1 & V2).
    exists (ks ++ TOp ":" :: vs ++ TOp "," :: us). split.
    + intros r. cbn [flat_map]. unfold option_line at 1. cbn [fst snd]. rewrite <- !app_assoc.
      pose proof (lex_spaces (Z.of_nat n) 1) as SP. unfold spaces in SP. rewrite Nat2Z.id in SP. rewrite SP. clear SP.
      rewrite K2 by reflexivity. change (txt ": " ++ ?x) with (":" :: " " :: x)%char. rewrite lex_colon.
      rewrite V2 by reflexivity. change (txt ",#" ++ note ++ [NL] ++ ?x) with ("," :: "#" :: note ++ NL :: x)%char.
      rewrite lex_comma, lex_comment, lex_line, L by exact N. rewrite !cons_all_app. f_equal. repeat (rewrite <- !app_assoc; cbn [app]). reflexivity.
    + intros f rest Q. repeat (rewrite ?app_length in Q; cbn [length] in Q). destruct f as [|[|f]]; try lia.
      repeat (rewrite <- !app_assoc; cbn [app]).
      pose proof (proj1 (toks_open false read) _ _ K1) as O. rewrite pairs_open by (now apply opens_app). rewrite pairs_from_S.
      destruct (grammar_parses false read eq_refl) as (PP & _). rewrite (PP _ _ K1); [|lia|exact I].
      change (is ":" ":") with true. cbn [andb hashable]. rewrite (PP _ _ V1); [|lia|exact I].
      change (is "," "}") with false. change (is "," ",") with true. cbv iota. rewrite P by lia. reflexivity.
Qed.
Lemma commented_eval : forall F show read head lines, exact F show read -> Forall (fun note => ~ In NL note) head ->
  Forall (fun '(n, e, note) => ~ In NL note /\ good false F (snd e)) lines ->
  literal_eval read (commented show head lines) = Some (VDict (make_dict (map (fun '(_, e, _) => (VStr (fst e), snd e)) lines))).
Proof.
  intros F show read head lines X H G. destruct (lines_read F show read lines X G) as (ts & L & P).
  unfold literal_eval, commented. rewrite lex_head by exact H.
  set (body := flat_map (fun '(n, e, note) => option_line show n e note) lines) in *.
  assert (E : lex Start 0 (txt "{" ++ [NL] ++ body ++ txt "}" ++ [NL]) = Some (TOp "{" :: ts ++ [TOp "}"; TEnd])).
  { change (txt "{" ++ [NL] ++ ?x) with ("{" :: NL :: x)%char. rewrite lex_start. change (step 0 "{") with (Some (Start, [TOp "{"], 1)). cbv iota beta.
    rewrite lex_line, L. reflexivity. }
  rewrite E. cbn [cons_all]. rewrite skip_all. cbn [skip_ends]. rewrite Nat.add_comm. cbn [plus]. rewrite expr_dict.
  rewrite (P _ [TEnd]); [reflexivity|]. rewrite app_length. cbn [length]. rewrite app_length. cbn [length]. lia.
Qed.
