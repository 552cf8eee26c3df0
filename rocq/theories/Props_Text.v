(** Properties of the text of a configuration file. *)
From Coq Require Import ZArith QArith Lia Bool Ascii String List.
From Verif Require Import Base Model_Path Model_Cfg Spec_Cfg Proofs_Cfg Proofs_Rebuild Proofs_Default Props_Cfg Model_Text Spec_Text Proofs_Text.
Import ListNotations.
Open Scope nat_scope.
Open Scope list_scope.

(** For the examples: how Python writes the floats of the default configuration and reads
    them; a literal beyond the doubles is infinite. *)
Definition reprs : list (Q * string) := [
  (1 # 1000000000, "1e-09"); (89093 # 10000000000000, "8.9093e-09"); (617 # 50000000, "1.234e-05"); 
  (397 # 10000000, "3.97e-05"); (277 # 5000000, "5.54e-05"); (1 # 10000, "0.0001"); 
  (259 # 500000, "0.000518"); (33 # 40000, "0.000825"); (1 # 1000, "0.001"); (11 # 5000, "0.0022"); 
  (369 # 156250, "0.0023616"); (2937 # 500000, "0.005874"); (6809 # 1000000, "0.006809"); 
  (1 # 100, "0.01"); (53 # 5000, "0.0106"); (183 # 10000, "0.0183"); (19977 # 1000000, "0.019977"); 
  (379 # 10000, "0.0379"); (1 # 20, "0.05"); (27 # 500, "0.054"); (7 # 125, "0.056"); (13 # 200, "0.065"); 
  (83 # 1250, "0.0664"); (173 # 2000, "0.0865"); (1737 # 20000, "0.08685"); (9 # 100, "0.09"); 
  (1 # 10, "0.1"); (1 # 8, "0.125"); (39003 # 250000, "0.156012"); (33 # 200, "0.165"); (1 # 5, "0.2"); 
  (1 # 4, "0.25"); (13 # 50, "0.26"); (2649 # 10000, "0.2649"); (33 # 100, "0.33"); (9 # 25, "0.36"); 
  (2183 # 5000, "0.4366"); (222029 # 500000, "0.444058"); (9 # 20, "0.45"); 
  (3333333333333333 # 5000000000000000, "0.6666666666666666"); (17 # 25, "0.68"); (3 # 4, "0.75"); 
  (781027 # 1000000, "0.781027"); (1587 # 2000, "0.7935"); (87 # 100, "0.87"); (7 # 8, "0.875"); 
  (19 # 20, "0.95"); (1 # 1, "1.0"); (1021521 # 1000000, "1.021521"); (196 # 125, "1.568"); 
  (81 # 50, "1.62"); (9 # 5, "1.8"); (27 # 10, "2.7"); (27431 # 10000, "2.7431"); (3 # 1, "3.0"); 
  (1923 # 625, "3.0768"); (7719 # 2500, "3.0876"); (444691 # 125000, "3.557528"); (289 # 80, "3.6125"); 
  (36269 # 10000, "3.6269"); (37 # 10, "3.7"); (191 # 50, "3.82"); (4 # 1, "4.0"); (5 # 1, "5.0"); 
  (51 # 10, "5.1"); (10 # 1, "10.0"); (45 # 2, "22.5"); (45 # 1, "45.0"); (100 # 1, "100.0"); 
  (120 # 1, "120.0"); (140 # 1, "140.0"); (252 # 1, "252.0"); (260 # 1, "260.0"); (273 # 1, "273.0"); 
  (420 # 1, "420.0"); (2381 # 5, "476.2"); (600 # 1, "600.0"); (934 # 1, "934.0"); (1000 # 1, "1000.0"); 
  (1300 # 1, "1300.0"); (1450 # 1, "1450.0"); (1500 # 1, "1500.0"); (2380 # 1, "2380.0"); 
  (2700 # 1, "2700.0"); (3000 # 1, "3000.0"); (5000 # 1, "5000.0"); (6000 # 1, "6000.0"); 
  (7658 # 1, "7658.0"); (10200 # 1, "10200.0"); (15000 # 1, "15000.0"); (18000 # 1, "18000.0"); 
  (20000 # 1, "20000.0"); (23840 # 1, "23840.0"); (31000 # 1, "31000.0"); (54000 # 1, "54000.0"); 
  (60000 # 1, "60000.0"); (72000 # 1, "72000.0"); (93000 # 1, "93000.0"); (140000 # 1, "140000.0"); 
  (300000 # 1, "300000.0"); (334000 # 1, "334000.0"); (660000 # 1, "660000.0"); 
  (1000000 # 1, "1000000.0"); (1737400 # 1, "1737400.0"); (2032000 # 1, "2032000.0"); 
  (2449000 # 1, "2449000.0"); (2500000 # 1, "2500000.0"); (10000000 # 1, "10000000.0"); 
  (104000000 # 1, "104000000.0"); (2000000000 # 1, "2000000000.0"); (3000000000 # 1, "3000000000.0"); 
  (4000000000 # 1, "4000000000.0"); (13000000000 # 1, "13000000000.0"); 
  (1896616404969023 # 50, "37932328099380.46")
]%string%Q.
Definition py_show (q : Q) : text :=
  match find (fun e => (Qnum (fst e) =? Qnum q)%Z && (Qden (fst e) =? Qden q)%positive) reprs with Some e => txt (snd e) | None => txt "0.0" end.
Definition py_read (t : text) : fl :=
  match find (fun e => String.eqb (snd e) (string_of_list_ascii t)) reprs with Some e => Fin (fst e) | None => Inf false end.
Definition py_float (q : Q) : Prop := In q (map fst reprs).
Lemma py_exact : exact py_float py_show py_read.
Proof.
  assert (A : Forall (fun q => float_text (py_show q) = true /\ py_read (py_show q) = Fin q) (map fst reprs)).
  { unfold reprs. cbn [map fst]. repeat (apply Forall_cons; [split; vm_compute; reflexivity|]). constructor. }
  rewrite Forall_forall in A. intros q I _. exact (A q I).
Qed.

Definition same_q (a b : Q) : bool := (Qnum a =? Qnum b)%Z && (Qden a =? Qden b)%positive.
Definition py_finite (x : fl) : bool := match x with Fin q => existsb (same_q (if (Qnum q <? 0)%Z then - q else q)%Q) (map fst reprs) | _ => false end.
Lemma py_finite_in : forall x, py_finite x = true -> finite py_float x.
Proof.
  intros [q| |] H; try discriminate H. cbn [py_finite finite] in *. apply existsb_exists in H as (p & I & E).
  apply andb_prop in E as (A & B). apply Z.eqb_eq in A. apply Pos.eqb_eq in B. unfold py_float.
  assert (Q : p = (if (Qnum q <? 0)%Z then - q else q)%Q) by (destruct p as [n d], (if (Qnum q <? 0)%Z then - q else q)%Q as [n' d']; cbn in *; congruence).
  rewrite <- Q. exact I.
Qed.
Lemma py_finites : forall l, forallb py_finite l = true -> Forall (finite py_float) l.
Proof. intros l H. rewrite forallb_forall in H. apply Forall_forall. intros x I. now apply py_finite_in, H. Qed.

(** *** C95: what is written is what is read *)

(** Whatever the layout the width of the page forces, whatever the texts hold, the file
    has the same value as what was written. *)
Theorem C95_round_trip : forall F show read v, exact F show read ->
  Forall (finite F) (floats v) -> well_keyed v = true -> literal_eval read (pformat show v) = Some v.
Proof. exact pformat_eval. Qed.
(** So has the same value on one line. *)
Theorem C95_one_line : forall F show read v, exact F show read ->
  Forall (finite F) (floats v) -> well_keyed v = true -> literal_eval read (safe_repr show v) = Some v.
Proof. exact repr_eval. Qed.
Example C95_round_trip_case :
  let v := VDict [(VStr "a 'b' ""c""\", VTuple [VFloat (1 # 10); VInt (-5)]);
                  (VInt 7, VStr "one two three four five six seven eight nine ten eleven twelve thirteen fourteen");
                  (VTuple [VNone], VList [VDict []; VTuple []; VBool true; VFloat (-3)])] in
  Forall (finite py_float) (floats v) /\ well_keyed v = true /\
  pformat py_show v = txt "{'a \'b\' ""c""\\': (0.1, -5),
 7: 'one two three four five six seven eight nine ten eleven twelve thirteen '
    'fourteen',
 (None,): [{}, (), True, -3.0]}".
Proof. cbv zeta. split; [apply py_finites; vm_compute; reflexivity|]. split; vm_compute; reflexivity. Qed.
(** The model of pprint gives what Python gives for a text of its own, and for items that
    fill several lines. *)
Example C95_layout_case :
  pformat py_show (VStr "one two three four five six seven eight nine ten eleven twelve thirteen fourteen fifteen") =
    txt "('one two three four five six seven eight nine ten eleven twelve thirteen '
 'fourteen fifteen')" /\
  pformat py_show (VTuple (map VInt [100000000; 200000000; 300000000; 400000000; 500000000; 600000000; 700000000; 800000000; 900000000]%Z)) =
    txt "(100000000, 200000000, 300000000, 400000000, 500000000, 600000000, 700000000,
 800000000, 900000000)".
Proof. split; vm_compute; reflexivity. Qed.

(** *** C95: the configuration of a run *)

(** The file that a run saves holds every option of its configuration, in order and with
    its value, unless one is infinite or no number. *)
Theorem C95_saved_text : forall F show read E kw c, exact F show read -> Cfg E kw = Ok c ->
  Forall (fun e => Forall (finite F) (floats (snd e)) /\ well_keyed (snd e) = true) c ->
  file_dict read (to_py show c) = Some c.
Proof.
  intros F show read E kw c X H G. apply (file_back F); [exact X| | |].
  - apply Forall_flat_map. eapply Forall_impl; [|exact G]. intros e (A & _). exact A.
  - destruct (C41_typed _ _ _ H) as (K & _). rewrite K. vm_compute. reflexivity.
  - apply forallb_forall. rewrite Forall_forall in G. intros e I. now apply G.
Qed.
(** So the same options are built from the text of that file, in the place where the run
    was. *)
Theorem C95_saved_config : forall F show read E E' kw c z P, exact F show read ->
  fair_draw E -> Cfg E kw = Ok c -> text_paths kw -> later E E' ->
  getv c "seed" = VInt z -> getv c "out_path" = VStr P -> contains (format_05d z) P = true ->
  Forall (fun e => Forall (finite F) (floats (snd e)) /\ well_keyed (snd e) = true) c ->
  exists d c', file_dict read (to_py show c) = Some d /\ read_custom_cfg E' (Some d) None = Ok c' /\
    forall k, In k options -> ~ In k ["run_date"; "run_time"; "out_path"]%string -> getv c' k = getv c k.
Proof.
  intros F show read E E' kw c z P X D H T L S O C G.
  destruct (C68_saved_config E E' kw c z P D H T L S O C) as (c' & A & _ & _ & B).
  exists c, c'. split; [now apply (C95_saved_text F show read E kw)|]. split; assumption.
Qed.
Example C95_saved_config_case : exists c,
  Cfg day1 [("seed", VInt 1); ("out_path", VStr "/out")]%string = Ok c /\
  getv c "seed" = VInt 1 /\ getv c "out_path" = VStr "/out/00001" /\ contains (format_05d 1) "/out/00001" = true /\
  Forall (fun e => Forall (finite py_float) (floats (snd e)) /\ well_keyed (snd e) = true) c /\
  firstn 40 (to_py py_show c) = txt "{'run_name': 'moonpies',
 'version': '1.".
Proof.
  eexists. split; [vm_compute; reflexivity|]. split; [reflexivity|]. split; [reflexivity|]. split; [reflexivity|]. split.
  - repeat (apply Forall_cons; [split; [apply py_finites|]; vm_compute; reflexivity|]). constructor.
  - vm_compute. reflexivity.
Qed.

(** The default file, as text, gives the default configuration of the machine that reads
    it. *)
Theorem C95_default_text : forall F show read E E' d, exact F show read -> starts_slash (cwd E) = true ->
  default_file E = Ok d -> Forall (finite F) (flat_map (fun e => floats (snd e)) d) ->
  file_dict read (to_py show d) = Some d /\ read_custom_cfg E' (file_dict read (to_py show d)) None = Cfg E' [].
Proof.
  intros F show read E E' d X C H G.
  assert (B : file_dict read (to_py show d) = Some d).
  { apply (file_back F); [exact X|exact G| |]; rewrite default_file_eq in H by exact C;
      (assert (Q : forall x y : cfg, Ok x = Ok y -> y = x) by congruence); apply Q in H; subst d; vm_compute; reflexivity. }
  split; [exact B|]. rewrite B. now apply (C67_default_file E E').
Qed.
Example C95_default_text_case : exists d, default_file day1 = Ok d /\ starts_slash (cwd day1) = true /\
  Forall (finite py_float) (flat_map (fun e => floats (snd e)) d) /\
  firstn 4 d = [("run_name", VStr "moonpies"); ("version", VStr "1.1.1"); ("verbose", VBool false); ("write", VBool true)]%string.
Proof. eexists. split; [vm_compute; reflexivity|]. split; [reflexivity|]. split; [apply py_finites; vm_compute; reflexivity|reflexivity]. Qed.

(** *** C95: what is in the file *)

(** Nothing but printable characters and line feeds, whatever the texts hold. *)
Theorem C95_printable : forall show v, (forall q, Forall (fun c => printable c = true) (show q)) ->
  Forall (fun c => printable c = true \/ c = NL) (pformat show v).
Proof.
  intros show v S. apply P_format; [tauto|tauto| |].
  - intros q. eapply Forall_impl; [|apply S]. tauto.
  - apply Forall_forall. intros s _. apply Forall_forall. intros c _ q [-> | ->]; byte c; repeat constructor.
Qed.
(** ASCII texts give an ASCII file. *)
Theorem C95_ascii : forall show v, (forall q, Forall (fun c => is_ascii c = true) (show q)) ->
  Forall (fun s => Forall (fun c => is_ascii c = true) (txt s)) (texts v) ->
  Forall (fun c => is_ascii c = true) (pformat show v).
Proof.
  intros show v S H. apply P_format; [tauto|reflexivity|exact S|].
  eapply Forall_impl; [|exact H]. intros s K. eapply Forall_impl; [|exact K]. intros c A q [-> | ->]; revert A; byte c; intros A; try discriminate A; repeat constructor.
Qed.
Example C95_printable_case : Forall (fun e => Forall (fun c => printable c && is_ascii c = true) (txt (snd e))) reprs /\
  pformat py_show (VStr (String (ascii_of_nat 7) (String NL "x"))) = txt "'\x07\nx'".
Proof. split; [repeat constructor|vm_compute; reflexivity]. Qed.

(** *** C95: infinities *)

(** A value with an infinity or a NaN anywhere is written as something that is no literal:
    the file cannot be read. *)
Theorem C95_not_finite : forall F show read v, exact F show read -> well_keyed v = true ->
  (forall q, In (Fin q) (floats v) -> finite F (Fin q)) -> (exists x, In x (floats v) /\ forall q, x <> Fin q) ->
  literal_eval read (pformat show v) = None.
Proof.
  intros F show read v X K A (x & I & N). apply (pformat_bad F); [exact X| |exact K|].
  - apply Forall_forall. intros [q| |] J; [left; now apply A|right; exact Logic.I..].
  - apply Exists_exists. exists x. split; [exact I|]. destruct x; [now elim (N q)|exact Logic.I..].
Qed.
Example C95_not_finite_case : let v := VDict [(VStr "a", VTuple [VFloat (1 # 10); VFloat (Inf true)])] in
  well_keyed v = true /\ In (Inf true) (floats v) /\ pformat py_show v = txt "{'a': (0.1, -inf)}".
Proof. cbv zeta. split; [reflexivity|]. split; [right; now left|vm_compute; reflexivity]. Qed.
(** A configuration file with a literal beyond the doubles loads; the file the run saves
    does not. *)
Theorem C95_infinite_refuted : forall show read, exact py_float show read -> read (txt "1e999") = Inf false ->
  exists t d c, file_dict read t = Some d /\ read_custom_cfg day1 (Some d) None = Ok c /\
    file_dict read (to_py show c) = None.
Proof.
  intros show read X R. exists (txt "{'seed': 1, 'ice_frac': 1e999}"), [("seed", VInt 1); ("ice_frac", VFloat (Inf false))]%string. eexists.
  split; [|split; [vm_compute; reflexivity|]].
  - assert (L : literal_eval read (txt "{'seed': 1, 'ice_frac': 1e999}") = Some (VDict [(VStr "seed", VInt 1); (VStr "ice_frac", VFloat (read (txt "1e999")))]))
      by (vm_compute; reflexivity).
    unfold file_dict. rewrite L, R. reflexivity.
  - apply (file_bad py_float); [exact X| |vm_compute; reflexivity|vm_compute; reflexivity|].
    + match goal with |- Forall _ ?l => let l' := eval vm_compute in l in change l with l' end.
      repeat (apply Forall_cons; [first [right; exact Logic.I|left; apply py_finite_in; vm_compute; reflexivity]|]). constructor.
    + match goal with |- Exists _ ?l => let l' := eval vm_compute in l in change l with l' end. repeat (first [apply Exists_cons_hd; exact Logic.I|apply Exists_cons_tl]).
Qed.

(** Of an option that is written twice the last value counts, whatever is between. *)
Theorem C95_twice : forall F show read c, exact F show read ->
  Forall (fun e => Forall (finite F) (floats (snd e)) /\ well_keyed (snd e) = true) c ->
  exists d, file_dict read (one_line show c) = Some d /\ NoDup (map fst d) /\ forall k, lookup k d = lookup k (rev c).
Proof.
  intros F show read c X G. destruct (make_items c) as (d & E & N & L). exists d. split; [|split; assumption].
  unfold file_dict. assert (V : literal_eval read (one_line show c) = Some (VDict (make_dict (map (fun e => (VStr (fst e), snd e)) c)))).
  { rewrite <- (dict_eval F show read); [|exact X|].
    - f_equal. unfold one_line. rewrite repr_dict, map_map. reflexivity.
    - apply Forall_map. eapply Forall_impl; [|exact G]. intros [k v] (A & B). cbn [fst snd] in *. split; [reflexivity|].
      split; [split; [constructor|reflexivity]|now apply good_strict]. }
  rewrite V, E. apply names_back.
Qed.
Example C95_twice_case :
  let c := [("seed", VInt 1); ("mode", VStr "moonpies"); ("seed", VInt (-2))]%string in
  Forall (fun e => Forall (finite py_float) (floats (snd e)) /\ well_keyed (snd e) = true) c /\
  one_line py_show c = txt "{'seed': 1, 'mode': 'moonpies', 'seed': -2}" /\
  file_dict py_read (one_line py_show c) = Some [("seed", VInt (-2)); ("mode", VStr "moonpies")]%string.
Proof. cbv zeta. split; [repeat constructor|]. split; vm_compute; reflexivity. Qed.

(** A file with one option in each line, comments after them and in front reads as the
    options alone; there too the last value counts. *)
Theorem C95_commented : forall F show read head lines, exact F show read ->
  Forall (Forall (fun c => printable c = true)) head ->
  Forall (fun '(n, e, note) => Forall (fun c => printable c = true) note /\
    Forall (finite F) (floats (snd e)) /\ well_keyed (snd e) = true) lines ->
  exists d, file_dict read (commented show head lines) = Some d /\ NoDup (map fst d) /\
    forall k, lookup k d = lookup k (rev (map (fun '(_, e, _) => e) lines)).
Proof.
  intros F show read head lines X H G.
  assert (NN : forall note, Forall (fun c => printable c = true) note -> ~ In NL note).
  { intros note P I. rewrite Forall_forall in P. specialize (P _ I). discriminate. }
  destruct (make_items (map (fun '(_, e, _) => e) lines)) as (d & E & N & L). exists d. split; [|split; assumption].
  unfold file_dict. rewrite (commented_eval F); [|exact X| |].
  - rewrite map_map in E. rewrite <- names_back, <- E. do 2 f_equal. apply map_ext. now intros [[n [k v]] note].
  - eapply Forall_impl; [|exact H]. exact NN.
  - eapply Forall_impl; [|exact G]. intros [[n e] note] (A & B & C). split; [now apply NN|now apply good_strict].
Qed.
Example C95_commented_case :
  let head := [txt " My run"] in
  let lines := [(2, ("seed", VInt 1), txt " first"); (2, ("ice_frac", VFloat (1 # 10)), txt ""); (0, ("seed", VInt 3), txt " 'seed': 2")]%string in
  Forall (Forall (fun c => printable c = true)) head /\
  Forall (fun '(n, e, note) => Forall (fun c => printable c = true) note /\
    Forall (finite py_float) (floats (snd e)) /\ well_keyed (snd e) = true) lines /\
  commented py_show head lines = txt "# My run
{
  'seed': 1,# first
  'ice_frac': 0.1,#
'seed': 3,# 'seed': 2
}
" /\ file_dict py_read (commented py_show head lines) = Some [("seed", VInt 3); ("ice_frac", VFloat (1 # 10))]%string.
Proof.
  cbv zeta. split; [repeat constructor|]. split; [|split; vm_compute; reflexivity].
  repeat (apply Forall_cons; [split; [repeat constructor|split; [|reflexivity]]|]); [..|apply Forall_nil]; cbn [floats snd];
    repeat (apply Forall_cons; [apply py_finite_in; vm_compute; reflexivity|]); apply Forall_nil.
Qed.

Print Assumptions C95_round_trip.
Print Assumptions C95_one_line.
Print Assumptions C95_saved_text.
Print Assumptions C95_saved_config.
Print Assumptions C95_default_text.
Print Assumptions C95_printable.
Print Assumptions C95_ascii.
Print Assumptions C95_not_finite.
Print Assumptions C95_infinite_refuted.
Print Assumptions C95_twice.
Print Assumptions C95_commented.
