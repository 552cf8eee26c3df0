(** Vocabulary of the properties of data files. *)
From Coq Require Import Ascii String List Reals.
From Verif Require Import Base Model_Main.
Import ListNotations.
Open Scope R_scope.

(** ** Texts of tables

    A text is a list of characters (bytes). *)
Definition chars : string -> list ascii := list_ascii_of_string.
Definition COMMA : ascii := ","%char.
Definition QUOTE : ascii := """"%char.
Definition LF : ascii := ascii_of_nat 10.
Definition CR : ascii := ascii_of_nat 13.

(** A field is written as it is, if it has no comma, quote or line end, or in quotes with
    its own quotes doubled. *)
Definition ordinary (a : ascii) : Prop := a <> COMMA /\ a <> QUOTE /\ a <> LF /\ a <> CR.
Inductive field_text : string -> list ascii -> Prop :=
| ft_plain f : Forall ordinary (chars f) -> field_text f (chars f)
| ft_quoted f : field_text f
    (QUOTE :: flat_map (fun a => if Ascii.eqb a QUOTE then [QUOTE; QUOTE] else [a]) (chars f) ++ [QUOTE]).
(** A row is its fields with commas between them. *)
Inductive row_text : list string -> list ascii -> Prop :=
| rt_last f t : field_text f t -> row_text [f] t
| rt_more f t row s : field_text f t -> row_text row s -> row_text (f :: row) (t ++ COMMA :: s).
(** A line ends with LF, CR or both. *)
Definition line_end (e : list ascii) : Prop := e = [LF] \/ e = [CR] \/ e = [CR; LF].
(** A file is a line for each row, empty lines anywhere, and the last line may lack its
    end. *)
Inductive file_text : list (list string) -> list ascii -> Prop :=
| fl_end : file_text [] []
| fl_blank e t rows : line_end e -> file_text rows t -> file_text rows (e ++ t)
| fl_last row s : row_text row s -> s <> [] -> file_text [row] s
| fl_line row s e t rows : row_text row s -> s <> [] -> line_end e -> file_text rows t ->
    file_text (row :: rows) (s ++ e ++ t).
(** The text is a file with these rows, with or without a byte order mark in front. *)
Definition BOM : list ascii := map ascii_of_nat [239; 187; 191]%nat.
Definition csv_of (rows : list (list string)) (text : string) : Prop :=
  exists t, file_text rows t /\ (chars text = t /\ (forall r, t <> BOM ++ r) \/ chars text = BOM ++ t).

(** ** Numbers *)

(** The digits [ds] as characters, and the number they write. *)
Definition figures (ds : list nat) : list ascii := map (fun d => ascii_of_nat (48 + d)) ds.
Fixpoint value (ds : list nat) : R :=
  match ds with [] => 0 | d :: r => INR d * 10 ^ length r + value r end.
Definition is_digit (d : nat) : Prop := (d < 10)%nat.
(** An optional sign and its meaning. *)
Inductive sign_text : list ascii -> R -> Prop :=
| sg_none : sign_text [] 1
| sg_plus : sign_text ["+"%char] 1
| sg_minus : sign_text ["-"%char] (-1).
(** [t] is a decimal number with value [x]: sign, digits with or without a point, and
    possibly a power of ten. *)
Inductive exponent_text : list ascii -> R -> Prop :=
| ex_none : exponent_text [] 1
| ex_up e sg ds : e = "e"%char \/ e = "E"%char -> sg = [] \/ sg = ["+"%char] -> ds <> [] -> Forall is_digit ds ->
    exponent_text (e :: sg ++ figures ds) (Rpower 10 (value ds))
| ex_down e ds : e = "e"%char \/ e = "E"%char -> ds <> [] -> Forall is_digit ds ->
    exponent_text (e :: "-"%char :: figures ds) (Rpower 10 (- value ds)).
Definition decimal_text (t : string) (x : R) : Prop :=
  exists sg s int point frac ex e,
    sign_text sg s /\ Forall is_digit int /\ Forall is_digit frac /\ (int <> [] \/ frac <> []) /\
    (point = ["."%char] \/ point = [] /\ frac = []) /\ exponent_text ex e /\
    chars t = sg ++ figures int ++ point ++ figures frac ++ ex /\
    x = s * (value int + value frac / 10 ^ length frac) * e.

(** ** Rows *)

(** The texts that pandas takes for a missing value. *)
Definition missing : list string :=
  [""; "#N/A"; "#N/A N/A"; "#NA"; "-1.#IND"; "-1.#QNAN"; "-NaN"; "-nan"; "1.#IND"; "1.#QNAN"; "<NA>"; "N/A";
   "NA"; "NULL"; "NaN"; "None"; "n/a"; "nan"; "null"]%string.
(** A text that is not taken for a missing value or a number. *)
Definition a_name (n : string) : Prop := ~ In n missing /\ forall x, ~ decimal_text n x.
(** The row has the text [t] in the column [k]; the number [x]; a number or a missing value
    (then [x] is 0). *)
Definition cell_of (cols row : list string) (k t : string) : Prop :=
  exists i, nth_error cols i = Some k /\ nth_error row i = Some t.
Definition num_of (cols row : list string) (k : string) (x : R) : Prop :=
  exists t, cell_of cols row k t /\ decimal_text t x.
Definition num_or_blank (cols row : list string) (k : string) (x : R) : Prop :=
  num_of cols row k x \/ (exists t, cell_of cols row k t /\ In t missing) /\ x = 0.
(** The row describes the crater or basin [w]. *)
Definition describes (cols row : list string) (w : raw) : Prop :=
  (length row <= length cols)%nat /\
  cell_of cols row "cname" (w_name w) /\ a_name (w_name w) /\
  num_of cols row "lat" (w_lat w) /\ num_of cols row "lon" (w_lon w) /\
  num_of cols row "diam" (w_diam w) /\ num_of cols row "age" (w_age w) /\
  num_of cols row "age_low" (w_low w) /\ num_of cols row "age_upp" (w_upp w).
(** It is a line of the crater list: cold traps need the position of their shadowed area. *)
Definition crater_row (names cols row : list string) (w : raw) : Prop :=
  describes cols row w /\
  num_or_blank cols row "psr_lat" (w_psr_lat w) /\ num_or_blank cols row "psr_lon" (w_psr_lon w) /\
  (In (w_name w) names -> num_of cols row "psr_lat" (w_psr_lat w) /\ num_of cols row "psr_lon" (w_psr_lon w)).
(** It is a line of the basin list, which has no such columns and no cold traps. *)
Definition basin_row (names cols row : list string) (w : raw) : Prop :=
  describes cols row w /\ w_psr_lat w = 0 /\ w_psr_lon w = 0 /\ ~ In (w_name w) names.
(** Lines of the tables of solar luminosity, hop efficiencies and melt fractions. *)
Definition pair_row (row : list string) (xy : R * R) : Prop :=
  exists a b, row = [a; b] /\ decimal_text a (fst xy) /\ decimal_text b (snd xy).
Definition named_row (row : list string) (nx : string * R) : Prop :=
  exists a, row = [fst nx; a] /\ a_name (fst nx) /\ decimal_text a (snd nx).
Definition labelled_row (row : list string) (r : R * list R) : Prop :=
  Forall2 decimal_text row (fst r :: snd r).
