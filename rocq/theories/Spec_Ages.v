(** Vocabulary of the properties of the figures of ages. *)
From Coq Require Import String List ZArith Reals Bool Permutation Sorted.
From Verif Require Import Base Model_Time Model_Geo Model_Crater Model_Ice Model_Rng Model_Main Model_Basin Model_Ages Spec_Time Spec_Ice Spec_Main.
Import ListNotations.
Open Scope R_scope.

(** The basin of the line [w] throws ejecta onto a cold trap; ages do not matter. *)
Definition throws (c : rcfg) (craters basins : list raw) (w : raw) : Prop :=
  exists d, In d (craters ++ basins) /\ In (w_name d) (r_names c) /\
    0 < ejecta_at c (read_row false "no" d) (read_row true "no" w).

(** A random age for the line [w], in Ga: a multiple of the step, at most half a step outside
    the interval of the line. *)
Definition age_for (c : rcfg) (w : raw) (a : R) : Prop :=
  (exists z, a * 1000000000 = IZR z * IZR (r_step c)) /\
  w_age w - w_low w - IZR (r_step c) / 2 / 1000000000 <= a <= w_age w + w_upp w + IZR (r_step c) / 2 / 1000000000.

(** The bar of the line [w]: a random age, with the errors of the line. *)
Record bar_of (c : rcfg) (w : raw) (label : string) (b : bar) : Prop := {
  bo_name : b_name b = label;
  bo_age : age_for c w (b_age b);
  bo_low : b_low b = w_low w;
  bo_upp : b_upp b = w_upp w }.

(** From below: the younger one, or of the same age and with the smaller upper error. *)
Definition below (a b : bar) : Prop := b_age a < b_age b \/ b_age a = b_age b /\ b_upp a <= b_upp b.

(** The age that the random number [u] gives the line [w], in Ga. *)
Definition age_from (c : rcfg) (ppf : ppf_fun) (w : raw) (u : R) : R :=
  let r := read_row false "no" w in new_age (IZR (r_step c)) r (ppf (trunc_a r) (Some (trunc_b r)) u) / 1000000000.

(** What the panels of craters and basins hold: a bar for every line and no other, from the
    youngest to the oldest; exactly the basins that reach a cold trap have a star.  The ages
    are those of the random numbers [u], first for the craters, then for the basins. *)
Record ages_figure (c : rcfg) (ppf : ppf_fun) (craters basins : list raw) (u : tape) (dc db : list bar) : Prop := {
  af_bars : exists cs bs, Permutation dc cs /\ Permutation db bs /\
    Forall2 (fun w => bar_of c w (w_name w)) craters cs /\
    Forall2 (fun w b => throws c craters basins w /\ bar_of c w (append "*" (w_name w)) b \/
                        ~ throws c craters basins w /\ bar_of c w (w_name w) b) basins bs /\
    map b_age (cs ++ bs) = map (fun '(j, w) => age_from c ppf w (u j)) (combine (seq 0 (length (craters ++ basins))) (craters ++ basins));
  af_sorted : StronglySorted below dc /\ StronglySorted below db }.

(** Lines with errors that a truncated normal distribution can have. *)
Definition spread (rows : list raw) : Prop :=
  Forall (fun w => 0 <= w_low w /\ 0 <= w_upp w /\ 0 < w_low w + w_upp w) rows.

(** How many ages lie from [a] to below [b], and how many are exactly [a]. *)
Definition within (a b : R) (x : list R) : nat := length (filter (fun y => Rleb a y && Rltb y b) x).
Definition exactly (a : R) (x : list R) : nat := length (filter (fun y => Reqb y a) x).

(** Settings and data for the figure of ages of craters and basins. *)
Record ages_sane (c : rcfg) (ppf : ppf_fun) (sort : list (crater info) -> list (crater info)) (craters basins : list raw) (entropy : nat -> tape) : Prop := {
  as_sort : sorts_by_age sort; as_ppf : ppf_support ppf; as_draws : forall k, draws (entropy k);
  as_step : (0 < r_step c)%Z; as_spread : spread (craters ++ basins); as_names : NoDup (map w_name (craters ++ basins));
  as_diam : Forall (fun w => 0 <= w_diam w) (craters ++ basins); as_traps : r_names c <> [];
  as_plain : Forall (fun w => forall s, w_name w <> append "*" s) basins }.

(** Counts in 260 bins of 10 Myr from 1.595 to 4.195 Ga; a bin has its left edge, the last
    one both. *)
Definition left_edge (k : nat) : R := (1595 / 10 + INR k) / 100.
Definition counted (x : list R) (counts : list nat) : Prop :=
  length counts = 260%nat /\
  (forall k, (k < 259)%nat -> nth_error counts k = Some (within (left_edge k) (left_edge (S k)) x)) /\
  nth_error counts 259 = Some (length (filter (fun y => Rleb (left_edge 259) y && Rleb y (4195 / 1000)) x)).

(** Settings and data for the figure of random ages. *)
Record random_sane (c : rcfg) (ppf : ppf_fun) (sort : list (crater info) -> list (crater info)) (craters : list raw) (stream : Z -> tape) : Prop := {
  rs_sort : sorts_by_age sort; rs_ppf : ppf_support ppf; rs_draws : forall z, draws (stream z);
  rs_step : (0 < r_step c)%Z; rs_spread : spread craters }.
