(** Vocabulary for the properties of the configuration object. *)
From Coq Require Import ZArith QArith Bool Ascii String List.
From Verif Require Import Base Model_Path Model_Cfg.
Import ListNotations.
Open Scope string_scope.

(** The default of an option in the class, and what an option is before [__post_init__]:
    the value given, or the default. *)
Definition default_of (k : string) : val := getv (map (fun f => (fst (fst f), snd f)) FIELDS) k.
Definition start (kw : cfg) (k : string) : val :=
  match lookup k kw with Some v => v | None => default_of k end.

(** The types of a value; a bool is also an int. *)
Definition has_type (v : val) (t : ty) : bool :=
  match v with
  | VNone => false
  | VBool _ => match t with TBool | TInt => true | _ => false end
  | VInt _ => match t with TInt => true | _ => false end
  | VFloat _ => match t with TFloat => true | _ => false end
  | VStr _ => match t with TStr => true | _ => false end
  | VTuple _ => match t with TTuple => true | _ => false end
  | VList _ => false
  | VDict _ => match t with TDict => true | _ => false end
  end.

(** [v] is [w] stored in the option [k]: [w] itself when it has the type of the option,
    [w] converted to that type otherwise. *)
Definition stored (E : env) (k : string) (w v : val) : Prop :=
  if has_type w (type_of k) then v = w else convert E (type_of k) w = Ok v.

(** The integer a seed argument means, if it means one. *)
Definition seed_number (E : env) (v : val) : option Z :=
  match v with
  | VInt z => Some z
  | VBool b => Some (if b then 1 else 0)%Z
  | VFloat (Fin q) => Some (Z.quot (Qnum q) (Zpos (Qden q)))
  | VStr s => parse_int E s
  | _ => None
  end.
(** np.random.randint(1, 99999). *)
Definition fair_draw (E : env) : Prop := (1 <= draw E <= 99998)%Z.

(** Options that hold a path: an input file, an output file, a directory. *)
Definition path_key (k : string) : bool := endswith "_in" k || endswith "_out" k || endswith "_path" k.
(** A path that ends in a file name. *)
Definition names_file (p : string) : Prop := basename p <> "" /\ basename p <> "." /\ basename p <> "..".
(** The path options given are texts, and the file options end in a file name. *)
Definition text_paths (kw : cfg) : Prop :=
  forall k v, lookup k kw = Some v -> path_key k = true ->
  exists s, v = VStr s /\ (endswith "_path" k = true \/ names_file s).
(** The last part of a directory, whether or not it is written with a slash at the end. *)
Definition last_part (p : string) : string := basename (rstrip_slash p).

(** [E'] is the same machine at a later time: paths that existed still do.  The working
    directory is absolute, and a directory written with one more slash at its end is the
    same directory. *)
Record later (E E' : env) : Prop := {
  l_cwd : cwd E' = cwd E;
  l_home : home E' = home E;
  l_abs : starts_slash (cwd E) = true;
  l_exists : forall p, exists_ E p = true -> exists_ E' p = true;
  l_slash : forall p, exists_ E' p = true -> ends_slash p = true -> exists_ E' (p ++ "/") = true
}.

(** Options whose value depends on more than the arguments: the paths and the run's seed
    and clock.  All others are plain. *)
Definition plain_key (k : string) : bool :=
  negb (path_key k || (k =? "seed") || (k =? "run_date") || (k =? "run_time")).
(** The option [k] of the row [r] of a table of defaults. *)
Definition in_table (table : list (string * list (string * val))) (r k : string) : option val :=
  match lookup r table with Some row => lookup k row | None => None end.
(** The names of the options. *)
Definition options : list string := map (fun f => fst (fst f)) FIELDS.
