(** Vocabulary of the properties of what is done with the outputs of runs. *)
From Coq Require Import ZArith Bool String List Reals.
From Verif Require Import Base Model_Cfg Model_Rng Model_Strat Model_Main Model_Run Spec_Time Spec_Ice Spec_Main Spec_Run.
Import ListNotations.
Open Scope R_scope.

(** [out] comes from a run with the shipped files and numbers, on any machine, with any
    seed, mode and switches, and with tables that start at the age of their cold trap (the
    default); [names] are its cold traps. *)
Definition shipped_run (names : list string) (out : outputs) : Prop :=
  exists E kw c fs rnd ppf sort u k k',
    Cfg E kw = Ok c /\ only_switches kw /\ installed fs c /\ known_traps c names /\
    keeps_order rnd /\ rnd 10000000 = 10000000 /\ ppf_support ppf /\ sorts_by_age sort /\ draws u /\
    getv c "strat_after_age" = VBool true /\ run fs rnd ppf sort c u k = Ok (out, k').

(** What a layer of the cold trap [n] can be called: ice, ejecta without a source of its
    own, or the names of other craters and basins, each once. *)
Definition layer_label (n l : string) : Prop :=
  l = "Ice"%string \/ l = "Minor source(s)"%string \/
  exists ns, ns <> [] /\ NoDup ns /\ incl ns listed /\ ~ In n ns /\ l = String.concat "," ns.

(** [table] is what a run of the shipped model leaves for the cold trap [n]. *)
Definition shipped_table (n : string) (table : list layer) : Prop :=
  exists names out, shipped_run names out /\ In (n, table) (o_strat out).
