(** Data files: the part of [pandas.read_csv] that /repo/moonpies/moonpies.py:299-462 and
    1760-1764 use.

    A file is its text.  Read with the default options: fields separated by commas, quoted
    by double quotes, lines ended by LF, CR or CRLF, empty lines skipped.  Left out: lines
    of blanks only, names that look like infinities or truth values, blanks around numbers,
    infinities, lines with more fields than columns (pandas makes the first ones row
    labels), columns with the same header (pandas numbers them). *)
From Coq Require Import ZArith QArith Bool Ascii String List.
From Verif Require Import Base.
Import ListNotations.
Open Scope string_scope.

Definition comma : ascii := ","%char.
Definition quote : ascii := """"%char.
Definition lf : ascii := ascii_of_nat 10.
Definition cr : ascii := ascii_of_nat 13.

(** Where the tokenizer of pandas is.  After CR it is at the start of a line and skips LF. *)
Inductive state := StartRecord | AfterCR | StartField | InField | InQuotes | QuoteInQuotes.

(** [cur]: the characters of the current field in reverse; [fields]: the finished fields of
    the current line in reverse. *)
Definition end_field (cur : list ascii) (fields : list string) : list string :=
  string_of_list_ascii (rev cur) :: fields.
Definition end_line (cur : list ascii) (fields : list string) : list string :=
  rev (end_field cur fields).

(** The tokenizer of pandas (pandas/_libs/src/parser/tokenizer.c, tokenize_bytes).  A text
    that ends inside quotes is a ParserError, a kind of ValueError. *)
Fixpoint tokenize (s : list ascii) (st : state) (cur : list ascii) (fields : list string)
  : result (list (list string)) :=
  match s with
  | [] =>
    match st with
    | StartRecord | AfterCR => Ok []
    | InQuotes => Err ValueError
    | _ => Ok [end_line cur fields]
    end
  | a :: r =>
    (* a line that ends here, with the state the next one starts in *)
    let close st' := let* rows := tokenize r st' [] [] in Ok (end_line cur fields :: rows) in
    let field_start :=
      if Ascii.eqb a lf then close StartRecord
      else if Ascii.eqb a cr then close AfterCR
      else if Ascii.eqb a comma then tokenize r StartField [] (end_field cur fields)
      else if Ascii.eqb a quote then tokenize r InQuotes [] fields
      else tokenize r InField [a] fields in
    match st with
    | StartRecord | AfterCR =>
      if Ascii.eqb a lf then tokenize r StartRecord [] []
      else if Ascii.eqb a cr then tokenize r AfterCR [] []
      else field_start
    | StartField => field_start
    | InField =>
      if Ascii.eqb a lf then close StartRecord
      else if Ascii.eqb a cr then close AfterCR
      else if Ascii.eqb a comma then tokenize r StartField [] (end_field cur fields)
      else tokenize r InField (a :: cur) fields
    | InQuotes =>
      if Ascii.eqb a quote then tokenize r QuoteInQuotes cur fields
      else tokenize r InQuotes (a :: cur) fields
    | QuoteInQuotes =>
      if Ascii.eqb a lf then close StartRecord
      else if Ascii.eqb a cr then close AfterCR
      else if Ascii.eqb a comma then tokenize r StartField [] (end_field cur fields)
      else if Ascii.eqb a quote then tokenize r InQuotes (a :: cur) fields
      else tokenize r InField (a :: cur) fields
    end
  end.

(** A byte order mark at the start of the text is skipped. *)
Definition skip_bom (s : list ascii) : list ascii :=
  match s with
  | a :: b :: c :: r =>
    if Nat.eqb (nat_of_ascii a) 239 && Nat.eqb (nat_of_ascii b) 187 && Nat.eqb (nat_of_ascii c) 191
    then r else s
  | _ => s
  end.
Definition csv_rows (text : string) : result (list (list string)) :=
  tokenize (skip_bom (list_ascii_of_string text)) StartRecord [] [].

(** ** Numbers *)

(** The digits at the start of the text, put behind the number [m], how many there are, and
    the rest. *)
Definition digit (a : ascii) : option Z :=
  let n := nat_of_ascii a in
  if Nat.leb 48 n && Nat.leb n 57 then Some (Z.of_nat (n - 48)) else None.
Fixpoint digits (s : list ascii) (m : Z) (n : Z) : Z * Z * list ascii :=
  match s with
  | a :: r => match digit a with Some d => digits r (10 * m + d)%Z (n + 1)%Z | None => (m, n, s) end
  | [] => (m, n, [])
  end.
Definition sign (s : list ascii) : Z * list ascii :=
  match s with
  | a :: r => if Ascii.eqb a "-"%char then (-1, r)%Z else if Ascii.eqb a "+"%char then (1, r)%Z else (1, s)%Z
  | [] => (1, [])%Z
  end.
(** [m * 10 ** e]. *)
Definition scale10 (m e : Z) : Q :=
  if (0 <=? e)%Z then inject_Z (m * 10 ^ e) else Qmake m (Z.to_pos (10 ^ (- e))).
(** A decimal number: sign, digits with at most one point, exponent.  The value is exact. *)
Definition decimal (t : string) : option Q :=
  let '(sg, s) := sign (list_ascii_of_string t) in
  let '(m, n, s) := digits s 0 0 in
  let '(m, n, places, s) :=
    match s with
    | a :: r => if Ascii.eqb a "."%char then let '(m, k, s) := digits r m 0 in (m, n + k, k, s)%Z
                else (m, n, 0%Z, s)
    | [] => (m, n, 0%Z, [])
    end in
  if (n =? 0)%Z then None else
  match s with
  | [] => Some (scale10 (sg * m) (- places))
  | a :: r =>
    if Ascii.eqb a "e"%char || Ascii.eqb a "E"%char then
      let '(se, r) := sign r in
      let '(e, k, r) := digits r 0 0 in
      match r with
      | [] => if (k =? 0)%Z then None else Some (scale10 (sg * m) (se * e - places))
      | _ => None
      end
    else None
  end.

(** The texts that mean NaN. *)
Definition na_values : list string :=
  [""; "#N/A"; "#N/A N/A"; "#NA"; "-1.#IND"; "-1.#QNAN"; "-NaN"; "-nan"; "1.#IND"; "1.#QNAN";
   "<NA>"; "N/A"; "NA"; "NULL"; "NaN"; "None"; "n/a"; "nan"; "null"].
(** A cell of a column of numbers.  Another text makes the column a column of texts, which
    fails with a TypeError where the column is first used as numbers. *)
Definition number (t : string) : result (option Q) :=
  if existsb (String.eqb t) na_values then Ok None
  else match decimal t with Some q => Ok (Some q) | None => Err TypeError end.
(** A number that must be there.  The code goes on with NaN; here it is a ValueError. *)
Definition need (o : option Q) : result Q :=
  match o with Some q => Ok q | None => Err ValueError end.

(** ** Tables *)

(** [pd.read_csv(text, names=cols, header=h)]: the lines after line [h]; EmptyDataError and
    a header line that is not there are kinds of ValueError. *)
Definition read_csv (text : string) (h : nat) : result (list (list string)) :=
  let* rows := csv_rows text in
  if Nat.leb (length rows) h then Err ValueError else Ok (skipn (S h) rows).

(** Position of the column [k]; [e] if there is none. *)
Fixpoint col_index (k : string) (cols : list string) : option nat :=
  match cols with
  | [] => None
  | x :: r => if String.eqb x k then Some O else option_map S (col_index k r)
  end.
(** The cell of a line in the column [k]; a line that is too short ends in NaN. *)
Definition text_cell (cols : list string) (k : string) (e : exn) (row : list string) : result string :=
  match col_index k cols with Some i => Ok (nth i row "") | None => Err e end.
Definition num_cell (cols : list string) (k : string) (e : exn) (row : list string) : result (option Q) :=
  let* t := text_cell cols k e row in number t.
