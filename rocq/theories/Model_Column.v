(** Stratigraphy column updates: /repo/moonpies/moonpies.py.  Definitions only. *)
From Coq Require Import List ZArith String Bool.
From Verif Require Import Base Arith.
Import ListNotations.

Section Column.
  Context {T : Type} (A : arith T).

  (** moonpies.py:1470-1483, the while loop of [garden_ice_column].
      [n] is [i + 1], so the loop ends at [n = 0], i.e. [i < 0].
      [i // 2] and [i % 2] are [Nat.div2 i] and [Nat.odd i].
      [ice_column[k] -= removed] is a subtraction stored back in the column. *)
  Fixpoint garden_loop (n : nat) (d depth eff : T) (ice ej : list T)
    : result (list T) :=
    match n with
    | O => Ok ice
    | S i =>
      if ltb A d depth then
        if Nat.odd i then
          let* e := get ej (Nat.div2 i) in
          garden_loop i (add A d e) depth eff ice ej
        else
          let* x := get ice (Nat.div2 i) in
          let removed := mul A x eff in
          let removed :=
            if ltb A depth (add A d removed) then sub A depth d else removed in
          let x' := store A (sub A x removed) in
          let* ice' := set ice (Nat.div2 i) x' in
          garden_loop i (add A d x') depth eff ice' ej
      else Ok ice
    end.

  (** moonpies.py:1440-1484 [garden_ice_column]; [i = 2 * t + 1] initially, so the
      number of half-layers to visit is [2 * t + 2] ([0] for [t <= -1]). *)
  Definition garden_ice_column (ice ej : list T) (t : Z) (depth eff : T)
    : result (list T) :=
    garden_loop (Z.to_nat (2 * t + 2)) (zero A) depth eff ice ej.

  (** moonpies.py:1416-1419, index of the last ejecta thickness above [shield] in
      [ej_col[:t+1]], [-1] if there is none. [k] is the index of the head. *)
  Fixpoint last_above (k : Z) (base : Z) (shield : T) (ej : list T) : Z :=
    match ej with
    | [] => base
    | e :: r => last_above (k + 1) (if ltb A shield e then k else base) shield r
    end.

  (** moonpies.py:1423-1436, the while loop of [erode_ice_cannon];
      [n] is [layer + 1]. *)
  Fixpoint erode_loop (n : nat) (t base : Z) (depth : T) (ice : list T)
    : result (list T) :=
    match n with
    | O => Ok ice
    | S layer =>
      if ltb A (zero A) depth then
        if (t >? base)%Z then
          let* x := get ice layer in
          let x' := if ltb A x depth then zero A else store A (sub A x depth) in
          let* ice' := set ice layer x' in
          erode_loop layer t base (sub A depth x) ice'
        else Ok ice
      else Ok ice
    end.

  (** moonpies.py:1384-1437 [erode_ice_cannon], for [t >= -1] (for [t < -1] the
      slice [ej_col[:t+1]] would count from the end; the program never does that). *)
  Definition erode_ice_cannon (ice ej : list T) (t : Z) (depth shield : T)
    : result (list T) :=
    let base := last_above 0 (-1) shield (firstn (Z.to_nat (t + 1)) ej) in
    erode_loop (Z.to_nat (t + 1)) t base depth ice.

  (** moonpies.py:1351-1381 [remove_ice_overturn]; [costello] is
      cfg.impact_gardening_costello and [shield] the default [ej_shield]
      (0.4, line 1384). *)
  Definition remove_ice_overturn (costello : bool) (shield : T)
    (ice ej : list T) (t : Z) (depth : T) : result (list T) :=
    if costello then garden_ice_column ice ej t depth (one A)
    else erode_ice_cannon ice ej t depth shield.

  (** moonpies.py:144-183 [update_ice_col]. *)
  Definition update_ice_col (costello : bool) (shield : T) (ice ej : list T)
    (t : Z) (overturn_d bsed_d bsed_frac : T) : result (list T) :=
    let* ice1 := garden_ice_column ice ej (t - 1) bsed_d bsed_frac in
    remove_ice_overturn costello shield ice1 ej t overturn_d.

  (** One entry of the strat_cols dict (moonpies.py:137-140): [ice, ej, ej_src]. *)
  Record strat := mk_strat { s_ice : list T; s_ej : list T; s_src : list string }.

  (** Python dict as an association list in insertion order. *)
  Definition dict := list (string * strat).

  Fixpoint lookup (d : dict) (k : string) : result strat :=
    match d with
    | [] => Err KeyError
    | (k', v) :: r => if String.eqb k k' then Ok v else lookup r k
    end.

  (** [d[k] = v] for a key that is present: replaced in place. *)
  Fixpoint assign (d : dict) (k : string) (v : strat) : dict :=
    match d with
    | [] => []
    | (k', v') :: r =>
      if String.eqb k k' then (k', v) :: r else (k', v') :: assign r k v
    end.

  (** [m[t, i]] on a 2D array: IndexError outside. *)
  Definition get2 (m : list (list T)) (t i : nat) : result T :=
    let* row := get m t in get row i.

  (** moonpies.py:214-225, inner loop over cold traps at timestep [t];
      [i] is the index of the first name of [names]. *)
  Fixpoint update_coldtraps (costello : bool) (shield : T) (bsed_depth bsed_frac :
    list (list T)) (t : nat) (overturn_t : T) (i : nat) (names : list string)
    (d : dict) : result dict :=
    match names with
    | [] => Ok d
    | c :: r =>
      let* s := lookup d c in
      let* bd := get2 bsed_depth t i in
      let* bf := get2 bsed_frac t i in
      let* ice := update_ice_col costello shield (s_ice s) (s_ej s) (Z.of_nat t)
                    overturn_t bd bf in
      update_coldtraps costello shield bsed_depth bsed_frac t overturn_t (S i) r
        (assign d c (mk_strat ice (s_ej s) (s_src s)))
    end.

  (** moonpies.py:212-226, outer loop over timesteps; [t] is the index of the
      first element of [overturn]. *)
  Fixpoint update_times (costello : bool) (shield : T) (bsed_depth bsed_frac :
    list (list T)) (names : list string) (t : nat) (overturn : list T) (d : dict)
    : result dict :=
    match overturn with
    | [] => Ok d
    | o :: r =>
      let* d' := update_coldtraps costello shield bsed_depth bsed_frac t o 0 names d in
      update_times costello shield bsed_depth bsed_frac names (S t) r d'
    end.

  (** moonpies.py:186-226 [update_strat_cols]; [names] is cfg.coldtrap_names. *)
  Definition update_strat_cols (costello : bool) (shield : T) (names : list string)
    (d : dict) (overturn : list T) (bsed_depth bsed_frac : list (list T))
    : result dict :=
    update_times costello shield bsed_depth bsed_frac names 0 overturn d.
End Column.

Arguments mk_strat {T} _ _ _.
Arguments s_ice {T} _.
Arguments s_ej {T} _.
Arguments s_src {T} _.
