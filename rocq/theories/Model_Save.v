(** Writing and resuming: /repo/moonpies/moonpies.py and /repo/moonpies/cli.py. *)
From Coq Require Import String List Bool Arith.
From Verif Require Import Base.
Import ListNotations.

(** A path is the list of its components, from the root.  Symbolic links, [..] and
    letter case are left out. *)
Definition path := list string.
Definition path_eqb (p q : path) : bool := if list_eq_dec string_dec p q then true else false.
Fixpoint is_prefix (p q : path) : bool :=
  match p, q with
  | [], _ => true
  | a :: p', b :: q' => String.eqb a b && is_prefix p' q'
  | _ :: _, [] => false
  end.

(** [os.path.dirname]. *)
Definition dirname (p : path) : path := removelast p.

(** The file system: which directories exist and what the files contain. *)
Record fs := mk_fs { dirs : path -> bool; files : path -> option string }.

(** [os.path.exists], [pathlib.Path.exists]. *)
Definition exists_ (s : fs) (p : path) : bool :=
  dirs s p || match files s p with Some _ => true | None => false end.

(** The steps a run takes on the file system.  Opening for writing empties the file; its
    text then arrives in pieces.  [Mkdir] is [os.makedirs]. *)
Inductive op := Mkdir (p : path) | Create (p : path) | Append (p : path) (s : string).

Definition step (s : fs) (o : op) : fs :=
  match o with
  | Mkdir p => mk_fs (fun q => dirs s q || is_prefix q p) (files s)
  | Create p => mk_fs (dirs s) (fun q => if path_eqb p q then Some EmptyString else files s q)
  | Append p t =>
    mk_fs (dirs s) (fun q => if path_eqb p q
                             then Some (match files s q with Some c => (c ++ t)%string | None => t end)
                             else files s q)
  end.
Definition exec (ops : list op) (s : fs) : fs := fold_left step ops s.

(** What save_outputs is given to write: the kind decides how it is saved (lines
    2695-2700); the pieces are its text. *)
Inductive kind := DataFrame | NdArray | Config | OtherKind.
Record output := mk_output { o_kind : kind; o_pieces : list string }.

(** [np.save] appends ".npy" to a name without it. *)
Fixpoint ends_with (suffix s : string) : bool :=
  String.eqb suffix s || match s with EmptyString => false | String _ r => ends_with suffix r end.
Definition npy_path (p : path) : path :=
  let base := last p EmptyString in
  if ends_with ".npy" base then p else dirname p ++ [(base ++ ".npy")%string].

(** The file an output goes to; [None] if it is not written at all. *)
Definition target (p : path) (o : output) : option path :=
  match o_kind o with
  | DataFrame | Config => Some p
  | NdArray => Some (npy_path p)
  | OtherKind => None
  end.
Definition write_ops (p : path) (o : output) : list op :=
  match target p o with
  | Some q => Create q :: map (Append q) (o_pieces o)
  | None => []
  end.

(** moonpies.py:2686-2700 [save_outputs], as the steps it takes from state [s].  Failing
    system calls are left out. *)
Fixpoint save_ops (s : fs) (outs : list (path * output)) : list op :=
  match outs with
  | [] => []
  | (p, o) :: r =>
    let mk := if exists_ s (dirname p) then [] else [Mkdir (dirname p)] in
    let ops := mk ++ write_ops p o in
    ops ++ save_ops (exec ops s) r
  end.
Definition save_outputs (s : fs) (outputs : list output) (fnames : list path) : list op :=
  save_ops s (combine fnames outputs).

(** What a run has computed when it comes to saving, with the file names of the
    configuration. *)
Record results := mk_results {
  f_write : bool; f_npy : bool; f_out_path : path;
  f_cfg_name : path; f_cfg : list string;
  f_strat : list (string * list string);
  f_ej_name : path; f_ej : list string; f_ice_name : path; f_ice : list string;
  f_age_name : path; f_age : list string; f_mat_name : path; f_mat : list string }.

(** moonpies.py:2651-2683 [format_save_outputs]: the calls of save_outputs in order. *)
Definition format_save_ops (r : results) (s : fs) : list op :=
  let ops1 := if f_write r then
      let a := save_outputs s [mk_output Config (f_cfg r)] [f_cfg_name r] in
      let fnames := map (fun ct => f_out_path r ++ [("strat_" ++ fst ct ++ ".csv")%string]) (f_strat r) in
      let dfs := map (fun ct => mk_output DataFrame (snd ct)) (f_strat r) in
      let b := save_outputs (exec a s) dfs fnames in
      let c := save_outputs (exec (a ++ b) s) [mk_output DataFrame (f_ej r); mk_output DataFrame (f_ice r)]
                            [f_ej_name r; f_ice_name r] in
      a ++ b ++ c
    else [] in
  let ops2 := if f_npy r then
      save_outputs (exec ops1 s) [mk_output NdArray (f_age r); mk_output NdArray (f_mat r)]
                   [f_age_name r; f_mat_name r]
    else [] in
  ops1 ++ ops2.

(** cli.py:49-56: with --resume an existing output path ends the run. *)
Definition cli_ops (resume : bool) (r : results) (s : fs) : list op :=
  if resume && exists_ s (f_out_path r) then [] else format_save_ops r s.
