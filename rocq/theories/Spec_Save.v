(** Vocabulary of the properties of saving. *)
From Coq Require Import String List Bool.
From Verif Require Import Base Model_Save.
Import ListNotations.

(** The files of a run in the order they are written, with their complete text. *)
Definition planned (r : results) : list (path * string) :=
  (if f_write r then
     [(f_cfg_name r, String.concat "" (f_cfg r))] ++
     map (fun ct => (f_out_path r ++ [("strat_" ++ fst ct ++ ".csv")%string], String.concat "" (snd ct)))
         (f_strat r) ++
     [(f_ej_name r, String.concat "" (f_ej r)); (f_ice_name r, String.concat "" (f_ice r))]
   else []) ++
  (if f_npy r then
     [(npy_path (f_age_name r), String.concat "" (f_age r));
      (npy_path (f_mat_name r), String.concat "" (f_mat r))]
   else []).

(** The parents of a directory are directories. *)
Definition tree (s : fs) : Prop :=
  forall p q, is_prefix p q = true -> dirs s q = true -> dirs s p = true.

(** No planned file is a directory, or in the place of a directory that is needed, and no
    file is in the place of such a directory. *)
Definition no_clash (s : fs) (r : results) : Prop :=
  forall p t, In (p, t) (planned r) ->
    files s (dirname p) = None /\ dirs s p = false /\
    forall p' t', In (p', t') (planned r) -> is_prefix p (dirname p') = false.

(** The same directories and the same files with the same text. *)
Definition same_fs (s s' : fs) : Prop :=
  (forall p, dirs s p = dirs s' p) /\ (forall p, files s p = files s' p).

(** A crash after [n] steps of a run. *)
Definition crash (n : nat) (ops : list op) (s : fs) : fs := exec (firstn n ops) s.

Definition text_prefix (a b : string) : Prop := exists c, b = (a ++ c)%string.
