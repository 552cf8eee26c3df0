(** Paths as text: the parts of Python's posixpath that /repo/moonpies/config.py uses.
    File names are ASCII; Windows paths are left out. *)
From Coq Require Import Decimal DecimalString ZArith Bool Ascii String List.
Import ListNotations.
Open Scope string_scope.

Definition slash : ascii := "/".

(** [s.split("/")]: at least one part. *)
Fixpoint split_path (s : string) : list string :=
  match s with
  | EmptyString => [EmptyString]
  | String a r =>
    if Ascii.eqb a slash then EmptyString :: split_path r
    else match split_path r with
         | [] => [String a EmptyString]
         | p :: ps => String a p :: ps
         end
  end.
(** ["/".join(parts)]. *)
Definition join_path (parts : list string) : string := String.concat "/" parts.

Definition starts_slash (s : string) : bool :=
  match s with String a _ => Ascii.eqb a slash | EmptyString => false end.
Fixpoint ends_slash (s : string) : bool :=
  match s with
  | EmptyString => false
  | String a EmptyString => Ascii.eqb a slash
  | String _ r => ends_slash r
  end.
(** [s.rstrip("/")]. *)
Fixpoint rstrip_slash (s : string) : string :=
  match s with
  | EmptyString => EmptyString
  | String a r =>
    match rstrip_slash r with
    | EmptyString => if Ascii.eqb a slash then EmptyString else String a EmptyString
    | r' => String a r'
    end
  end.

(** [os.path.join(a, b)]. *)
Definition path_join (a b : string) : string :=
  if starts_slash b then b
  else match a with
       | EmptyString => b
       | _ => if ends_slash a then a ++ b else a ++ "/" ++ b
       end.
(** [os.path.basename]. *)
Definition basename (p : string) : string := last (split_path p) EmptyString.
(** [os.path.dirname]: up to the last slash, without slashes at its end unless there is
    nothing else. *)
Definition dirname (p : string) : string :=
  let head := String.concat "" (map (fun x => x ++ "/") (removelast (split_path p))) in
  match rstrip_slash head with EmptyString => head | h => h end.
(** [os.path.normpath]: [norm_step] is the body of its loop, on the reversed list of the
    components so far. *)
Definition norm_step (absolute : bool) (acc : list string) (comp : string) : list string :=
  if (comp =? "") || (comp =? ".") then acc
  else if negb (comp =? "..") then comp :: acc
  else match acc with
       | [] => if absolute then [] else [".."]
       | c :: r => if c =? ".." then ".." :: acc else r
       end.
Definition initial_slashes (p : string) : string :=
  match p with
  | String a r =>
    if Ascii.eqb a slash then
      match r with
      | String b r' => if Ascii.eqb b slash && negb (starts_slash r') then "//" else "/"
      | EmptyString => "/"
      end
    else ""
  | EmptyString => ""
  end.
Definition normpath (p : string) : string :=
  match initial_slashes p ++
        join_path (rev (fold_left (norm_step (starts_slash p)) (split_path p) [])) with
  | EmptyString => "."
  | q => q
  end.
(** [os.path.abspath]. *)
Definition abspath (cwd p : string) : string :=
  normpath (if starts_slash p then p else path_join cwd p).
(** [os.path.expanduser]; the home of another user ("~name") is taken as unknown, which
    leaves the path as it is. *)
Definition expanduser (home p : string) : string :=
  match p with
  | String a r =>
    if Ascii.eqb a "~" && ((r =? "") || starts_slash r)
    then match rstrip_slash home ++ r with EmptyString => "/" | q => q end
    else p
  | EmptyString => p
  end.

(** [str.isnumeric] of ASCII text. *)
Definition is_digit (a : ascii) : bool :=
  let n := nat_of_ascii a in (48 <=? n)%nat && (n <=? 57)%nat.
Fixpoint all_digits (s : string) : bool :=
  match s with EmptyString => true | String a r => is_digit a && all_digits r end.
Definition isnumeric (s : string) : bool := negb (s =? "") && all_digits s.

(** [a in b] of two texts. *)
Fixpoint contains (needle hay : string) : bool :=
  String.prefix needle hay || match hay with EmptyString => false | String _ r => contains needle r end.

(** [f"{z:05d}"]: at least 5 characters, zeros after the sign. *)
Fixpoint pad (n : nat) (d : uint) : uint := match n with O => d | S m => D0 (pad m d) end.
Definition digits (width : nat) (n : N) : string :=
  let d := N.to_uint n in NilZero.string_of_uint (pad (width - nb_digits d) d).
Definition format_05d (z : Z) : string :=
  if (z <? 0)%Z then "-" ++ digits 4 (Z.to_N (- z)) else digits 5 (Z.to_N z).
