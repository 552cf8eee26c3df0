(** Vocabulary for memoisation. *)
From Coq Require Import List Bool String.
From Verif Require Import Base Model_Cfg Model_Cache.
Import ListNotations.

Section Spec.
Context {A C V W : Type} (ceqb : C -> C -> bool) (key : A -> C).

(** The results the function gives without a cache. *)
Fixpoint direct (f : W -> A -> result V) (w : W) (h : list (@event A W)) : list (result V) :=
  match h with
  | [] => []
  | Call a :: h => f w a :: direct f w h
  | Clear :: h => direct f w h
  | Edit w' :: h => direct f w' h
  end.
(** The cache is cleared between a change of the files and the next call. *)
Fixpoint clears_after_edits (dirty : bool) (h : list (@event A W)) : Prop :=
  match h with
  | [] => True
  | Call _ :: h => dirty = false /\ clears_after_edits dirty h
  | Clear :: h => clears_after_edits false h
  | Edit _ :: h => clears_after_edits true h
  end.
(** The keys called since the last clear, the last one first. *)
Definition calls (h : list (@event A W)) : list C :=
  fold_left (fun l e => match e with Call a => key a :: l | Clear => [] | Edit _ => l end) h [].
(** The keys of the calls that gave a result since the last clear, the last one first. *)
Fixpoint successes (f : W -> A -> result V) (w : W) (h : list (@event A W)) (l : list C) : list C :=
  match h with
  | [] => l
  | Call a :: h => successes f w h (match f w a with Ok _ => key a :: l | Err _ => l end)
  | Clear :: h => successes f w h []
  | Edit w' :: h => successes f w' h l
  end.
(** The same without repetitions: every key where it was last used. *)
Fixpoint latest (l : list C) : list C :=
  match l with [] => [] | k :: r => k :: filter (fun x => negb (ceqb x k)) (latest r) end.
End Spec.

(** A function of a configuration that looks at the options [ks] only. *)
Definition reads {V} (ks : list string) (f : cfg -> V) : Prop :=
  forall c c', (forall k, In k ks -> lookup k c = lookup k c') -> f c = f c'.
