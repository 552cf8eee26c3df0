(** The text of a configuration file: /repo/moonpies/config.py:358-365 [to_string], [to_py],
    420-429 [_dict2str], [_str2py] and 437-440 [read_custom_cfg], with the parts of Python's
    library they call: pprint.pformat(d, compact=True, sort_dicts=False) and
    ast.literal_eval.

    A text is a list of bytes; bytes from 128 on are parts of printable characters.  Floats
    are as in Model_Cfg; how a finite one that is not negative is written and what a literal
    denotes are parameters, for Python's shortest decimals and its rounding.  Widths count
    bytes, where Python counts characters. *)
From Coq Require Import ZArith QArith Bool Ascii String List.
From Verif Require Import Base Model_Path Model_Cfg.
Import ListNotations.
Open Scope nat_scope.
Open Scope list_scope.

Definition text := list ascii.
Definition txt (s : string) : text := list_ascii_of_string s.
Definition code (c : ascii) : nat := nat_of_ascii c.
Definition NL : ascii := ascii_of_nat 10.
Definition CR : ascii := ascii_of_nat 13.
Definition TAB : ascii := ascii_of_nat 9.
Definition BS : ascii := ascii_of_nat 92.
Definition QUOTE : ascii := ascii_of_nat 39.
Definition DQUOTE : ascii := ascii_of_nat 34.
Definition is (c : ascii) (d : ascii) : bool := Ascii.eqb c d.
Definition is_letter (c : ascii) : bool :=
  (65 <=? code c)%nat && (code c <=? 90)%nat || (97 <=? code c)%nat && (code c <=? 122)%nat || is c "_".
Definition spaces (n : Z) : text := repeat " "%char (Z.to_nat n).

(** ** repr *)

(** One hexadecimal digit. *)
Definition hex (n : nat) : ascii := ascii_of_nat (if (n <? 10)%nat then 48 + n else 87 + n).

(** repr(str): single quotes unless the text has some and has no double ones; escapes for
    the quote, the backslash and what is not printable. *)
Definition escape (q c : ascii) : text :=
  if is c q || is c BS then [BS; c]
  else if is c TAB then [BS; "t"%char]
  else if is c NL then [BS; "n"%char]
  else if is c CR then [BS; "r"%char]
  else if (code c <? 32)%nat || (code c =? 127)%nat then [BS; "x"%char; hex (code c / 16); hex (code c mod 16)]
  else [c].
Definition quote_of (s : text) : ascii := if existsb (is QUOTE) s && negb (existsb (is DQUOTE) s) then DQUOTE else QUOTE.
Definition repr_str (s : text) : text := let q := quote_of s in q :: flat_map (escape q) s ++ [q].

(** repr(int). *)
Fixpoint uint_text (u : Decimal.uint) : text :=
  match u with
  | Decimal.Nil => []
  | Decimal.D0 u => "0"%char :: uint_text u | Decimal.D1 u => "1"%char :: uint_text u | Decimal.D2 u => "2"%char :: uint_text u | Decimal.D3 u => "3"%char :: uint_text u
  | Decimal.D4 u => "4"%char :: uint_text u | Decimal.D5 u => "5"%char :: uint_text u | Decimal.D6 u => "6"%char :: uint_text u | Decimal.D7 u => "7"%char :: uint_text u
  | Decimal.D8 u => "8"%char :: uint_text u | Decimal.D9 u => "9"%char :: uint_text u
  end.
Definition repr_int (z : Z) : text := (if (z <? 0)%Z then ["-"%char] else []) ++ uint_text (N.to_uint (Z.abs_N z)).

(** Texts with a separator between them. *)
Fixpoint joined (sep : text) (l : list text) : text :=
  match l with
  | [] => []
  | [t] => t
  | t :: r => t ++ sep ++ joined sep r
  end.

Section Show.
  Variable show : Q -> text.

  (** repr(float). *)
  Definition repr_float (x : fl) : text :=
    match x with
    | Fin q => if (Qnum q <? 0)%Z then "-"%char :: show (- q) else show q
    | Inf true => txt "-inf"
    | Inf false => txt "inf"
    | NaN => txt "nan"
    end.

  (** pprint's [_safe_repr]: everything on one line, dicts in their own order. *)
  Fixpoint safe_repr (v : val) : text :=
    match v with
    | VNone => txt "None"
    | VBool b => txt (if b then "True" else "False")
    | VInt z => repr_int z
    | VFloat x => repr_float x
    | VStr s => repr_str (txt s)
    | VTuple [x] => txt "(" ++ safe_repr x ++ txt ",)"
    | VTuple l => txt "(" ++ joined (txt ", ") (map safe_repr l) ++ txt ")"
    | VList l => txt "[" ++ joined (txt ", ") (map safe_repr l) ++ txt "]"
    | VDict d => txt "{" ++ joined (txt ", ") (map (fun e => safe_repr (fst e) ++ txt ": " ++ safe_repr (snd e)) d) ++ txt "}"
    end.

  Definition len (t : text) : Z := Z.of_nat (length t).
  Definition WIDTH : Z := 80.

  (** str.splitlines(True); its separators beyond ASCII are left out. *)
  Definition ends_line (c : ascii) (next : text) : bool :=
    is c NL || (11 <=? code c) && (code c <=? 12) || (28 <=? code c) && (code c <=? 30)
    || is c CR && negb (match next with d :: _ => is d NL | [] => false end).
  Fixpoint splitlines (s : text) : list text :=
    match s with
    | [] => []
    | c :: r =>
      if ends_line c r then [c] :: splitlines r
      else match splitlines r with
           | [] => [[c]]
           | l :: ls => (c :: l) :: ls
           end
    end.

  (** re.findall(r'\S*\s*', line) without the empty match at the end. *)
  Definition is_space (c : ascii) : bool := (9 <=? code c)%nat && (code c <=? 13)%nat || (28 <=? code c)%nat && (code c <=? 32)%nat.
  Fixpoint words (s : text) : list text :=
    match s with
    | [] => []
    | c :: r =>
      match words r with
      | [] => [[c]]
      | w :: ws =>
        if is_space c && negb (match w with d :: _ => is_space d | [] => false end) then [c] :: w :: ws
        else (c :: w) :: ws
      end
    end.

  (** The loop over the words of one line in [_pprint_str]: the chunks it appends;
      [w] is max_width2, [last_allowance] what is taken from it for the last word of the
      last line. *)
  Fixpoint fill (w last_allowance : Z) (current : text) (parts : list text) : list text :=
    match parts with
    | [] => match current with [] => [] | _ => [repr_str current] end
    | p :: r =>
      let w := match r with [] => (w - last_allowance)%Z | _ => w end in
      if (w <? len (repr_str (current ++ p)))%Z
      then match current with [] => [] | _ => [repr_str current] end ++ fill w last_allowance p r
      else fill w last_allowance (current ++ p) r
    end.
  (** The loop over the lines. *)
  Fixpoint chunks (w allowance : Z) (lines : list text) : list text :=
    match lines with
    | [] => []
    | l :: r =>
      let a := match r with [] => allowance | _ => 0%Z end in
      (if (len (repr_str l) <=? w - a)%Z then [repr_str l] else fill w a [] (words l)) ++ chunks w allowance r
    end.
  (** pprint's [_pprint_str].  A single chunk is the representation of the text. *)
  Definition pprint_str (s : text) (indent allowance : Z) (level : nat) : text :=
    match s with
    | [] => repr_str s
    | _ =>
      let top := (level =? 1)%nat in
      let indent := (if top then indent + 1 else indent)%Z in
      let allowance := (if top then allowance + 1 else allowance)%Z in
      match chunks (WIDTH - indent) allowance (splitlines s) with
      | [_] => repr_str (last (splitlines s) [])
      | cs => (if top then txt "(" else []) ++ joined (NL :: spaces indent) cs ++ (if top then txt ")" else [])
      end
    end.

  (** pprint's [_format_dict_items]; [fmt] is [_format] at the next level.  [indent] is
      that of the items. *)
  Section Items.
    Variable fmt : val -> Z -> Z -> text.
    Fixpoint dict_items (d : list (val * val)) (indent allowance : Z) : text :=
      match d with
      | [] => []
      | (k, e) :: r =>
        let rep := safe_repr k in
        rep ++ txt ": " ++ fmt e (indent + len rep + 2)%Z (match r with [] => allowance | _ => 1%Z end)
        ++ match r with [] => [] | _ => txt "," ++ NL :: spaces indent ++ dict_items r indent allowance end
      end.
    (** pprint's [_format_items] for compact. *)
    Fixpoint seq_items (l : list val) (indent allowance : Z) (delim : text) (width max_width : Z) : text :=
      match l with
      | [] => []
      | e :: r =>
        let last := match r with [] => true | _ => false end in
        let max_width := (if last then max_width - allowance else max_width)%Z in
        let width := (if last then width - allowance else width)%Z in
        let nl := txt "," ++ NL :: spaces indent in
        let rep := safe_repr e in
        let w := (len rep + 2)%Z in
        let narrow := (width <? w)%Z in
        let width := if narrow then max_width else width in
        let delim := if narrow then match delim with [] => [] | _ => nl end else delim in
        if (w <=? width)%Z then delim ++ rep ++ seq_items r indent allowance (txt ", ") (width - w)%Z max_width
        else delim ++ fmt e indent (if last then allowance else 1%Z) ++ seq_items r indent allowance nl width max_width
      end.
    (** [_pprint_list] and [_pprint_tuple] after the bracket. *)
    Definition seq_text (l : list val) (indent allowance : Z) (close : text) : text :=
      let i := (indent + 1)%Z in
      seq_items l i (allowance + len close)%Z [] (WIDTH - i + 1)%Z (WIDTH - i + 1)%Z ++ close.
  End Items.

  (** pprint's [_format] with [_pprint_dict], [_pprint_list], [_pprint_tuple] and
      [_pprint_str], for a width of 80 and an indent of 1. *)
  Fixpoint format (v : val) (indent allowance : Z) (level : nat) {struct v} : text :=
    let rep := safe_repr v in
    if (len rep <=? WIDTH - indent - allowance)%Z then rep else
    let fmt e i a := format e i a (S level) in
    match v with
    | VDict d => txt "{" ++ dict_items fmt d (indent + 1)%Z (allowance + 1)%Z ++ txt "}"
    | VList l => txt "[" ++ seq_text fmt l indent allowance (txt "]")
    | VTuple l => txt "(" ++ seq_text fmt l indent allowance (match l with [_] => txt ",)" | _ => txt ")" end)
    | VStr s => pprint_str (txt s) indent allowance (S level)
    | _ => rep
    end.
  Definition pformat (v : val) : text := format v 0 0 0.

  (** config.py:358-365 and 420-429: what [to_py] writes. *)
  Definition to_py (c : cfg) : text := pformat (VDict (map (fun e => (VStr (fst e), snd e)) c)).
End Show.

(** ** ast.literal_eval *)

Inductive token := TNum (t : text) | TLit (t : text) | TName (t : text) | TOp (c : ascii) | TEnd.

(** Where the tokenizer is: between tokens, in a number or a name, in a text (its quote and
    what was read so far), after its backslash or in the digits of an escape, after an empty
    text, or in a comment. *)
Inductive state :=
| Start | InNum (t : text) | InName (t : text)
| InStr (q : ascii) (t : text) | Esc (q : ascii) (t : text) | Hex (q : ascii) (t : text) (high : option nat) | Oct (q : ascii) (t : text) (n value : nat)
| Empty (q : ascii) | Comment.

Definition hex_value (c : ascii) : option nat :=
  if is_digit c then Some (code c - 48)
  else if (97 <=? code c)%nat && (code c <=? 102)%nat then Some (code c - 87)
  else if (65 <=? code c)%nat && (code c <=? 70)%nat then Some (code c - 55)
  else None.
Definition is_octal (c : ascii) : bool := (48 <=? code c)%nat && (code c <=? 55)%nat.

(** The character an escape of one letter stands for; others stay as they are written. *)
Definition unescape (c : ascii) : text :=
  if is c NL then []
  else if is c BS || is c QUOTE || is c DQUOTE then [c]
  else if is c "a" then [ascii_of_nat 7] else if is c "b" then [ascii_of_nat 8] else if is c "f" then [ascii_of_nat 12]
  else if is c "n" then [NL] else if is c "r" then [CR] else if is c "t" then [TAB] else if is c "v" then [ascii_of_nat 11]
  else [BS; c].

(** A sign after the e of an exponent belongs to the number. *)
Definition in_number (t : text) (c : ascii) : bool :=
  is_digit c || is_letter c || is c "." || ((is c "+" || is c "-") && match rev t with e :: _ => is e "e" || is e "E" | [] => false end).

(** One character between tokens: the next state, the tokens and the new depth of
    brackets.  Outside brackets a line feed ends the expression. *)
Definition step (depth : nat) (c : ascii) : option (state * list token * nat) :=
  if is c " " || is c TAB || is c (ascii_of_nat 12) || is c CR then Some (Start, [], depth)
  else if is c NL then Some (Start, match depth with O => [TEnd] | _ => [] end, depth)
  else if is c "#" then Some (Comment, [], depth)
  else if is c QUOTE || is c DQUOTE then Some (InStr c [], [], depth)
  else if is_digit c || is c "." then Some (InNum [c], [], depth)
  else if is_letter c then Some (InName [c], [], depth)
  else if is c "(" || is c "[" || is c "{" then Some (Start, [TOp c], S depth)
  else if is c ")" || is c "]" || is c "}" then Some (Start, [TOp c], pred depth)
  else if is c "," || is c ":" || is c "+" || is c "-" then Some (Start, [TOp c], depth)
  else None.

(** The tokens of a text.  [None]: no literal, or outside this model (triple quotes,
    prefixes of texts, \u, \U and \N escapes, backslashes at the end of a line outside
    texts, other operators). *)
Definition cons_all (l : list token) (r : option (list token)) : option (list token) := match r with Some r => Some (l ++ r) | None => None end.
Fixpoint lex (st : state) (depth : nat) (t : text) : option (list token) :=
  match t with
  | [] =>
    match st with
    | Start | Comment => Some []
    | InNum w => Some [TNum w]
    | InName w => Some [TName w]
    | Empty _ => Some [TLit []]
    | _ => None
    end
  | c :: r =>
    let between (l : list token) := match step depth c with Some (st, l', depth) => cons_all (l ++ l') (lex st depth r) | None => None end in
    match st with
    | Start => between []
    | InNum w => if in_number w c then lex (InNum (w ++ [c])) depth r else between [TNum w]
    | InName w => if is_digit c || is_letter c then lex (InName (w ++ [c])) depth r else between [TName w]
    | InStr q w =>
      if is c q then match w with [] => lex (Empty q) depth r | _ => cons_all [TLit w] (lex Start depth r) end
      else if is c BS then lex (Esc q w) depth r
      else if is c NL || is c CR then None
      else lex (InStr q (w ++ [c])) depth r
    | Esc q w =>
      if is c "x" then lex (Hex q w None) depth r
      else if is c "u" || is c "U" || is c "N" then None
      else if is_octal c then lex (Oct q w 1 (code c - 48)) depth r
      else lex (InStr q (w ++ unescape c)) depth r
    | Hex q w h =>
      match hex_value c, h with
      | None, _ => None
      | Some n, None => lex (Hex q w (Some n)) depth r
      | Some n, Some m => lex (InStr q (w ++ [ascii_of_nat (16 * m + n)])) depth r
      end
    | Oct q w n value =>
      if is_octal c && (n <? 3)%nat then lex (Oct q w (S n) (8 * value + (code c - 48))) depth r
      else
        let w := w ++ [ascii_of_nat value] in
        if is c q then cons_all [TLit w] (lex Start depth r)
        else if is c BS then lex (Esc q w) depth r
        else if is c NL || is c CR then None
        else lex (InStr q (w ++ [c])) depth r
    | Empty q => if is c q then None else between [TLit []]
    | Comment => if is c NL then between [] else lex Comment depth r
    end
  end.

(** Decimal literals: with a point or an exponent they are floats. *)
Fixpoint number_of (acc : N) (t : text) : N :=
  match t with
  | [] => acc
  | c :: r => number_of (10 * acc + N.of_nat (code c - 48)) r
  end.
Definition only_digits (t : text) : bool := forallb is_digit t.
(** Digits before the point (0), after it (1), after the e (2), after its sign (3), of the
    exponent (4). *)
Fixpoint float_rest (st : nat) (t : text) : bool :=
  match t with
  | [] => (st =? 1)%nat || (st =? 4)%nat
  | c :: r =>
    match st with
    | 0%nat => if is_digit c then float_rest 0 r else if is c "." then float_rest 1 r else (is c "e" || is c "E") && float_rest 2 r
    | 1%nat => if is_digit c then float_rest 1 r else (is c "e" || is c "E") && float_rest 2 r
    | 2%nat => if is_digit c then float_rest 4 r else (is c "+" || is c "-") && float_rest 3 r
    | _ => is_digit c && float_rest 4 r
    end
  end.
Definition float_text (t : text) : bool := 
  match t with
  | c :: d :: r => if is c "." then is_digit d && float_rest 1 r else is_digit c && float_rest 0 (d :: r)
  | _ => false
  end.

(** The items of a dict in its order; a text that is there already gets the new value. *)
Fixpoint put_item (k v : val) (d : list (val * val)) : list (val * val) :=
  match d with
  | [] => [(k, v)]
  | (VStr a, x) :: r =>
    match k with
    | VStr b => if String.eqb a b then (VStr a, v) :: r else (VStr a, x) :: put_item k v r
    | _ => (VStr a, x) :: put_item k v r
    end
  | e :: r => e :: put_item k v r
  end.
Definition make_dict (l : list (val * val)) : list (val * val) := fold_left (fun d e => put_item (fst e) (snd e) d) l [].

Section Read.
  (** What the literal of a float denotes. *)
  Variable read : text -> fl.

  (** Decimal numbers only; integers have no zeros in front. *)
  Definition number (t : text) : option val :=
    if only_digits t then
      match t with
      | z :: _ :: _ => if is z "0" && negb (forallb (fun c => is c "0") t) then None else Some (VInt (Z.of_N (number_of 0 t)))
      | _ => Some (VInt (Z.of_N (number_of 0 t)))
      end
    else if float_text t then Some (VFloat (read t)) else None.
  Definition negative (v : val) : option val :=
    match v with
    | VInt z => Some (VInt (- z))
    | VFloat (Fin q) => Some (VFloat (Fin (- q)))
    | VFloat (Inf b) => Some (VFloat (Inf (negb b)))
    | VFloat NaN => Some (VFloat NaN)
    | _ => None
    end.
  Definition name (t : text) : option val :=
    if list_eq_dec ascii_dec t (txt "None") then Some VNone
    else if list_eq_dec ascii_dec t (txt "True") then Some (VBool true)
    else if list_eq_dec ascii_dec t (txt "False") then Some (VBool false)
    else None.
  (** Texts side by side are one. *)
  Fixpoint strs (ts : list token) : text * list token :=
    match ts with
    | TLit s :: r => let (s', r) := strs r in (s ++ s', r)
    | _ => ([], ts)
    end.

  (** The parser; [fuel] is a bound for the depth of the calls.  [None]: a SyntaxError, a
      ValueError or, for a dict with a list or dict as key, a TypeError. *)
  Fixpoint expr (fuel : nat) (ts : list token) : option (val * list token) :=
    match fuel with
    | O => None
    | S f =>
      match ts with
      | TLit _ :: _ => let (s, r) := strs ts in Some (VStr (string_of_list_ascii s), r)
      | TNum t :: r => match number t with Some v => Some (v, r) | None => None end
      | TName t :: r => match name t with Some v => Some (v, r) | None => None end
      | TOp c :: r =>
        if is c "-" then
          match r with
          | TNum t :: r => match number t with Some v => match negative v with Some v => Some (v, r) | None => None end | None => None end
          | _ => None
          end
        else if is c "+" then
          match r with
          | TNum t :: r => match number t with Some v => Some (v, r) | None => None end
          | _ => None
          end
        else if is c "(" then
          match items f ")" r with
          | Some ([v], false, r) => Some (v, r)
          | Some (l, _, r) => Some (VTuple l, r)
          | None => None
          end
        else if is c "[" then match items f "]" r with Some (l, _, r) => Some (VList l, r) | None => None end
        else if is c "{" then match pairs f r with Some (d, r) => Some (VDict (make_dict d), r) | None => None end
        else None
      | _ => None
      end
    end
  (** Items up to a bracket, and whether there was a comma after the last one. *)
  with items (fuel : nat) (close : ascii) (ts : list token) : option (list val * bool * list token) :=
    match fuel with
    | O => None
    | S f =>
      match ts with
      | TOp c :: r =>
        if is c close then Some ([], false, r) else items_from f close ts
      | _ => items_from f close ts
      end
    end
  with items_from (fuel : nat) (close : ascii) (ts : list token) : option (list val * bool * list token) :=
    match fuel with
    | O => None
    | S f =>
      match expr f ts with
      | Some (v, TOp c :: r) =>
        if is c close then Some ([v], false, r)
        else if is c "," then
          match items f close r with
          | Some ([], _, r) => Some ([v], true, r)
          | Some (l, b, r) => Some (v :: l, b, r)
          | None => None
          end
        else None
      | _ => None
      end
    end
  with pairs (fuel : nat) (ts : list token) : option (list (val * val) * list token) :=
    match fuel with
    | O => None
    | S f =>
      match ts with
      | TOp c :: r => if is c "}" then Some ([], r) else pairs_from f ts
      | _ => pairs_from f ts
      end
    end
  with pairs_from (fuel : nat) (ts : list token) : option (list (val * val) * list token) :=
    match fuel with
    | O => None
    | S f =>
      match expr f ts with
      | Some (k, TOp c :: r) =>
        if is c ":" && hashable k then
          match expr f r with
          | Some (v, TOp c :: r) =>
            if is c "}" then Some ([(k, v)], r)
            else if is c "," then match pairs f r with Some (l, r) => Some ((k, v) :: l, r) | None => None end
            else None
          | _ => None
          end
        else None
      | _ => None
      end
    end.

  (** ast.literal_eval(text): blanks in front are dropped, and so are empty lines around;
      items without brackets at the top are not modelled. *)
  Fixpoint skip_ends (ts : list token) : list token := match ts with TEnd :: r => skip_ends r | _ => ts end.
  Definition literal_eval (t : text) : option val :=
    match lex Start 0 t with
    | None => None
    | Some ts =>
      match expr (4 * length ts + 4) (skip_ends ts) with
      | Some (v, r) => match skip_ends r with [] => Some v | _ => None end
      | None => None
      end
    end.

  (** config.py:437-443: the dict of a configuration file; [Cfg( **d )] wants names. *)
  Fixpoint names (d : list (val * val)) : option cfg :=
    match d with
    | [] => Some []
    | (VStr k, v) :: r => match names r with Some c => Some ((k, v) :: c) | None => None end
    | _ => None
    end.
  Definition file_dict (t : text) : option cfg := match literal_eval t with Some (VDict d) => names d | _ => None end.
End Read.
