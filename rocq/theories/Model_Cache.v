(** functools.lru_cache, as used by /repo/moonpies/moonpies.py:442 (read_ballistic_melt_frac,
    2 entries), 2027 (asteroid_speed_rv, 1), 2038 (comet_speed_rv, 1), 2055 (neukum, 6),
    2139 (get_crater_sfd, 4), 2304 (diam2len_prieur, 1), and cleared by clear_cache
    (2855-2861), which main calls first (53).

    [A] are the argument lists, [key a] is what Python compares of them, [W] what the
    function reads besides its arguments (files).  Results are values: that a caller could
    change a returned array in place is left out. *)
From Coq Require Import List Bool Arith String.
From Verif Require Import Base Model_Cfg.
Import ListNotations.

Section Cache.
Context {A C V W : Type} (ceqb : C -> C -> bool) (key : A -> C).

(** The entries, the most recently used first. *)
Definition cache := list (C * V).
Definition find_entry (k : C) (c : cache) : option (C * V) := find (fun e => ceqb (fst e) k) c.
Definition drop_entry (k : C) (c : cache) : cache := filter (fun e => negb (ceqb (fst e) k)) c.

(** One call of the wrapper: a hit moves its entry to the front; a miss calls the function,
    and an exception is not stored; a new entry pushes the oldest out of a full cache. *)
Definition call (cap : nat) (f : W -> A -> result V) (w : W) (c : cache) (a : A) : result V * cache :=
  match find_entry (key a) c with
  | Some e => (Ok (snd e), e :: drop_entry (key a) c)
  | None =>
    match f w a with
    | Ok v => (Ok v, firstn cap ((key a, v) :: c))
    | Err x => (Err x, c)
    end
  end.

(** What happens over the life of a process. *)
Inductive event := Call (a : A) | Clear | Edit (w : W).
(** The results of the calls, and the cache left. *)
Fixpoint run (cap : nat) (f : W -> A -> result V) (w : W) (c : cache) (h : list event) : list (result V) * cache :=
  match h with
  | [] => ([], c)
  | Call a :: h => let (r, c') := call cap f w c a in let (rs, c'') := run cap f w c' h in (r :: rs, c'')
  | Clear :: h => run cap f w [] h
  | Edit w' :: h => run cap f w' c h
  end.
End Cache.

(** The options of a Cfg that its equality and hash look at: all but those with
    compare=False (config.py:71, 72, 221-228). *)
Definition uncompared : list string := ["run_date"; "run_time"; "impact_regimes"]%string.
Definition cfg_key (c : cfg) : cfg := filter (fun e => negb (existsb (String.eqb (fst e)) uncompared)) c.
