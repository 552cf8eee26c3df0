(** The arguments of the command, with the spellings that argparse takes: /repo/moonpies/cli.py:27-45
    and argparse's [_parse_optional], [_get_option_tuples] and [consume_optional] (Python 3.8 to 3.11). *)
From Coq Require Import ZArith Bool Ascii String List.
From Verif Require Import Base Model_Path Model_Cfg Model_Save Model_Cmd.
Import ListNotations.
Open Scope string_scope.

(** cli.py:27-44: the options; the help option is argparse's. *)
Inductive opt := OHelp | OVersion | OCfg | OResume.
Definition option_strings : list (string * opt) :=
  [("-h", OHelp); ("--help", OHelp); ("--version", OVersion); ("-v", OVersion); ("--cfg", OCfg); ("-c", OCfg);
   ("--resume", OResume)].
Definition exact (t : string) : option opt := option_map snd (find (fun x => fst x =? t) option_strings).

(** [t.split("=", 1)], if there is a "=". *)
Fixpoint split_eq (t : string) : option (string * string) :=
  match t with
  | EmptyString => None
  | String a r => if Ascii.eqb a "=" then Some (EmptyString, r)
                  else match split_eq r with Some (n, v) => Some (String a n, v) | None => None end
  end.

(** argparse [_get_option_tuples]: the options that a text may abbreviate, with a value
    given in the same text. *)
Definition abbreviates (t : string) : list (opt * option string) :=
  match t with
  | String a (String b r) =>
    if Ascii.eqb b "-" then
      let (n, v) := match split_eq t with Some (n, v) => (n, Some v) | None => (t, None) end in
      flat_map (fun x => if prefix n (fst x) then [(snd x, v)] else []) option_strings
    else
      flat_map (fun x => if fst x =? String a (String b EmptyString) then [(snd x, Some r)]
                         else if prefix t (fst x) then [(snd x, None)] else []) option_strings
  | _ => []
  end.

Fixpoint has_space (t : string) : bool :=
  match t with EmptyString => false | String a r => Ascii.eqb a " " || has_space r end.

(** argparse [_parse_optional]: a plain argument, an option, or a mistake, which ends the
    program.  As in Model_Cmd a negative number is a text that [int] takes.  The argument
    "--", after which nothing is an option, is left out (here a mistake). *)
Inductive kind := Positional | Option (o : opt) (value : option string) | Mistake.
Definition classify (int : string -> option Z) (t : string) : kind :=
  match t with
  | String a (String _ _) =>
    if Ascii.eqb a "-" then
      match exact t with
      | Some o => Option o None
      | None =>
        match (match split_eq t with Some (n, v) => option_map (fun o => (o, v)) (exact n) | None => None end) with
        | Some (o, v) => Option o (Some v)
        | None =>
          match abbreviates t with
          | [(o, v)] => Option o v
          | _ :: _ => Mistake
          | [] => if negative_number int t || has_space t then Positional else Mistake
          end
        end
      end
    else Positional
  | _ => Positional
  end.

(** cli.py:45 [parser.parse_args()]: options and the one plain argument in any order.  The
    option --cfg takes the next argument if it is a plain one, and is [None] otherwise; --resume
    takes no value; --help and --version end the program. *)
Fixpoint parse_full (int : string -> option Z) (argv : list string) (seed : option Z) (cfg_file : option string)
  (resume : bool) : parsed :=
  match argv with
  | [] => Args seed cfg_file resume
  | t :: r =>
    match classify int t with
    | Positional =>
      match seed, int t with
      | None, Some z => parse_full int r (Some z) cfg_file resume
      | _, _ => Exit
      end
    | Option OResume None => parse_full int r seed cfg_file true
    | Option OCfg (Some v) => parse_full int r seed (Some v) resume
    | Option OCfg None =>
      match r with
      | v :: r' => match classify int v with
                   | Positional => parse_full int r' seed (Some v) resume
                   | _ => parse_full int r seed None resume
                   end
      | [] => Args seed None resume
      end
    | _ => Exit
    end
  end.
