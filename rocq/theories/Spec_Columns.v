(** Vocabulary of the theorems about the figures of columns. *)
From Coq Require Import String List ZArith Reals Bool.
From Verif Require Import Base Model_Strat Model_Plot Model_Figure.
Import ListNotations.
Open Scope R_scope.

(** All keys of a saved table, in order: runs, in each the seeds, in each the cold traps. *)
Definition keys_in_order (runs : list string) (seeds : list Z) (coldtraps : list string)
  : list key :=
  flat_map (fun run => flat_map (fun seed => map (fun ct => (run, seed, ct)) coldtraps) seeds) runs.

(** There is a file for the key. *)
Definition has_file (read : string -> Z -> string -> option (list layer)) (k : key) : bool :=
  let '(run, seed, ct) := k in match read run seed ct with Some _ => true | None => false end.

(** The percentages in the file, from the top, after thin layers were merged. *)
Definition percentages (read : string -> Z -> string -> option (list layer)) (by_depth : list layer -> list layer)
  (m : R) (run : string) (seed : Z) (ct : string) (v : list (option R)) : Prop :=
  exists table t col, read run seed ct = Some table /\ plot_column m table = Ok (t, col) /\
    v = map l_icepct (by_depth col).

(** [y] is [x] to two decimals. *)
Definition hundredths (x y : R) : Prop := (exists k, y = IZR k / 100) /\ Rabs (y - x) <= 1 / 200.

(** A shown column: the numbers of [v] to two decimals, then cells without a number. *)
Definition shows_col (v col : list (option R)) : Prop :=
  (length v <= length col)%nat /\
  forall i x, nth_error col i = Some x ->
    match nth_error v i with
    | Some (Some p) => exists q, x = Some q /\ hundredths p q
    | _ => x = None
    end.
