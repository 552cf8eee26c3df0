(** The crater list that the plots use. *)
From Coq Require Import ZArith String List Reals.
From Verif Require Import Base Model_Cfg Model_Time Model_Ice Model_Rng Model_Main Model_Run.
Import ListNotations.
Open Scope R_scope.

(** plotting.py:10-11 [CFG] and [CDF], of which only names and diameters are used; made
    when the module is imported.  The diameter is twice the radius (moonpies.py:329-330 and 371-372).
    The files are those of the configuration object; [rnd], [ppf] and [sort] are as in
    [run]. *)
Definition plotting_cdf (E : env) (fs : disk) (rnd : R -> R) (ppf : ppf_fun)
  (sort : list (crater info) -> list (crater info)) : rand (list (string * R)) :=
  do c <- lift (Cfg E [("seed"%string, VInt 1)]);
  do rc <- lift (rcfg_of fs rnd c);
  do craters <- lift (read_crater_list fs c (r_names rc));
  do basins <- lift (read_basin_list fs c (r_names rc));
  do df <- get_crater_basin_list rc ppf sort craters basins;
  ret (map (fun r => (d_name (c_rest r), 2 * d_rad (c_rest r))) df).
