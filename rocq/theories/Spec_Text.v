(** Vocabulary for the text of a configuration file. *)
From Coq Require Import ZArith QArith Bool Ascii String List.
From Verif Require Import Base Model_Path Model_Cfg Model_Text.
Import ListNotations.
Open Scope nat_scope.
Open Scope list_scope.

(** Reading gives back what was written, for the floats in [F] (doubles): what Python
    guarantees of repr and of its literals. *)
Definition exact (F : Q -> Prop) (show : Q -> text) (read : text -> fl) : Prop :=
  forall q, F q -> (0 <= Qnum q)%Z -> float_text (show q) = true /\ read (show q) = Fin q.

(** The floats in a value. *)
Fixpoint floats (v : val) : list fl :=
  match v with
  | VFloat x => [x]
  | VTuple l | VList l => flat_map floats l
  | VDict d => flat_map (fun e => floats (fst e) ++ floats (snd e)) d
  | _ => []
  end.
(** Its texts. *)
Fixpoint texts (v : val) : list string :=
  match v with
  | VStr s => [s]
  | VTuple l | VList l => flat_map texts l
  | VDict d => flat_map (fun e => texts (fst e) ++ texts (snd e)) d
  | _ => []
  end.
(** A finite float among [F] or minus one. *)
Definition finite (F : Q -> Prop) (x : fl) : Prop :=
  match x with Fin q => F (if (Qnum q <? 0)%Z then - q else q)%Q | _ => False end.

(** Every dict of a value has keys that can be hashed, and no text twice. *)
Fixpoint text_keys (d : list (val * val)) : list string :=
  match d with
  | [] => []
  | (VStr s, _) :: r => s :: text_keys r
  | _ :: r => text_keys r
  end.
Fixpoint distinct (l : list string) : bool :=
  match l with [] => true | s :: r => negb (existsb (String.eqb s) r) && distinct r end.
Fixpoint well_keyed (v : val) : bool :=
  match v with
  | VTuple l | VList l => forallb well_keyed l
  | VDict d => forallb (fun e => hashable (fst e) && well_keyed (fst e) && well_keyed (snd e)) d && distinct (text_keys d)
  | _ => true
  end.

(** What a text that Python can print consists of. *)
Definition printable (c : ascii) : bool := (32 <=? code c) && negb (code c =? 127).
(** ASCII. *)
Definition is_ascii (c : ascii) : bool := code c <? 128.

(** The items of a configuration, in this order, on one line. *)
Definition one_line (show : Q -> text) (c : cfg) : text :=
  txt "{" ++ joined (txt ", ") (map (fun e => repr_str (txt (fst e)) ++ txt ": " ++ safe_repr show (snd e)) c) ++ txt "}".
(** One option in each line, from column [n], with a comment after it. *)
Definition option_line (show : Q -> text) (n : nat) (e : string * val) (note : text) : text :=
  repeat " "%char n ++ repr_str (txt (fst e)) ++ txt ": " ++ safe_repr show (snd e) ++ txt ",#" ++ note ++ [NL].
(** A file of such lines, with lines of comment in front. *)
Definition commented (show : Q -> text) (head : list text) (lines : list (nat * (string * val) * text)) : text :=
  flat_map (fun note => txt "#" ++ note ++ [NL]) head ++ txt "{" ++ [NL] ++
  flat_map (fun '(n, e, note) => option_line show n e note) lines ++ txt "}" ++ [NL].
