(** The command: /repo/moonpies/cli.py with everything that it runs, on one disk. *)
From Coq Require Import ZArith Bool Ascii String List Reals.
From Verif Require Import Base Model_Path Model_Cfg Model_Time Model_Rng Model_Ice Model_Main Model_Run Model_Figure Model_Save Model_Files.
Import ListNotations.
Open Scope string_scope.

(** ** The arguments *)

(** cli.py:27-46 with argparse: what the arguments ask for, or the end of the program (help,
    version, wrong arguments). *)
Inductive parsed := Args (seed : option Z) (cfg_file : option string) (resume : bool) | Exit.
(** argparse: an argument is an option if it begins with a dash, is longer than that, and is
    no negative number, here a text that [int] takes.  (That "-1.5", texts with a space and
    what follows "--" are no options is left out.) *)
Definition negative_number (int : string -> option Z) (t : string) : bool :=
  match int t with Some _ => true | None => false end.
Definition is_option (int : string -> option Z) (t : string) : bool :=
  match t with
  | String a (String _ _) => Ascii.eqb a "-" && negb (negative_number int t)
  | _ => false
  end.
(** Options are spelt out, with their value as the next argument: abbreviations and "=" are
    left out.  [int] is Python's [int] of a text ([None]: ValueError). *)
Fixpoint parse_args (int : string -> option Z) (argv : list string) (seed : option Z) (cfg_file : option string)
  (resume : bool) : parsed :=
  match argv with
  | [] => Args seed cfg_file resume
  | t :: r =>
    if is_option int t then
      if t =? "--resume" then parse_args int r seed cfg_file true
      else if (t =? "--cfg") || (t =? "-c") then
        match r with
        | v :: r' => if is_option int v then parse_args int r seed None resume
                     else parse_args int r' seed (Some v) resume
        | [] => Args seed None resume
        end
      else Exit
    else
      match seed, int t with
      | None, Some z => parse_args int r (Some z) cfg_file resume
      | _, _ => Exit
      end
  end.

(** ** The disk *)

(** The place of a path, from the working directory. *)
Definition place_of (E : env) (p : string) : path := path_parts (abspath (cwd E) p).
(** [os.path.exists(p)]: a path that ends in a slash has to be a directory. *)
Definition on_disk (E : env) (s : fs) (p : string) : bool :=
  if p =? "" then false
  else if ends_slash p then dirs s (place_of E p)
  else Model_Save.exists_ s (place_of E p).
(** The machine with this disk. *)
Definition with_disk (E : env) (s : fs) : env := {|
  cwd := cwd E; home := home E; Model_Cfg.exists_ := on_disk E s; package_data := package_data E;
  date_now := date_now E; time_now := time_now E; draw := draw E; str_of := str_of E;
  parse_int := parse_int E; parse_float := parse_float E |}.
(** The text of a file. *)
Definition text_of (E : env) (s : fs) (p : string) : option string := files s (place_of E p).

(** ** The program *)

(** What the program leaves to libraries: rounding, distributions and sorting (see
    [Model_Main]), the random numbers of a seed, the text of numbers, the text of a
    configuration and its meaning ([ast.literal_eval]), the text of the gridded arrays (C75), and
    the sources of ejecta, whose order is that of Python's sets (C47). *)
Record libraries := mk_libraries {
  p_rnd : R -> R; p_ppf : ppf_fun; p_sort : list (crater info) -> list (crater info);
  p_stream : Z -> tape; p_show : R -> string; p_literal : string -> result cfg; p_pprint : cfg -> string;
  p_grids : cfg -> string * string; p_sources : cfg -> list string }.

(** moonpies.py:24-77 [main(cfg)] as the steps on the disk; numpy has no generator for a
    negative seed. *)
Definition main_ops (P : libraries) (E : env) (c : cfg) (s : fs) : result (list op) :=
  let* z := match getv c "seed" with VInt z => Ok z | _ => Err TypeError end in
  if (z <? 0)%Z then Err ValueError else
  let* (out, _) := run (text_of E s) (p_rnd P) (p_ppf P) (p_sort P) c (p_stream P z) 0%nat in
  let* r := results_of (p_show P) c (p_pprint P c) (p_grids P c) (p_sources P c) out in
  Ok (format_save_ops r s).
(** cli.py:24-56 [run], and config.py:432-443 for the configuration file. *)
Definition command (P : libraries) (E : env) (argv : list string) (s : fs) : result fs :=
  match parse_args (parse_int E) argv None None false with
  | Exit => Ok s
  | Args seed cfg_file resume =>
    let E := with_disk E s in
    let* file := match cfg_file with
                 | None => Ok None
                 | Some p => match text_of E s p with
                             | None => Err FileNotFoundError
                             | Some t => let* d := p_literal P t in Ok (Some d)
                             end
                 end in
    let* c := read_custom_cfg E file (option_map VInt seed) in
    let* o := opt_str (getv c "out_path") in
    if resume && Model_Save.exists_ s (place_of E o) then Ok s
    else let* ops := main_ops P E c s in Ok (exec ops s)
  end.
(** Several commands, one after the other, each with the clock of its own. *)
Fixpoint commands (P : libraries) (l : list (env * list string)) (s : fs) : result fs :=
  match l with
  | [] => Ok s
  | (E, argv) :: r => let* s := command P E argv s in commands P r s
  end.
