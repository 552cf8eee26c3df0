(** Properties of data files. *)
From Coq Require Import ZArith QArith Bool Ascii String List Reals Lra Lia.
From Verif Require Import Base Model_Csv Model_Cfg Spec_Cfg Model_Melt Model_Main Model_Run Data_Shipped Spec_Csv Proofs_Csv Proofs_Read.
Import ListNotations.
Open Scope R_scope.

(** ** C80: what is in a data file is what is read *)

(** The layout is immaterial: whatever fields are quoted, however lines end, wherever blank
    lines are, with or without a byte order mark, the same rows are read. *)
Theorem C80_rows : forall rows text, csv_of rows text -> csv_rows text = Ok rows.
Proof. exact read_rows. Qed.

(** A number is read exactly as written, with any sign, point and power of ten; the marks of
    missing values are not numbers; any other text in a column of numbers is an error. *)
Theorem C80_numbers : forall t,
  (forall x, decimal_text t x <-> exists q, number t = Ok (Some q) /\ Q2R q = x) /\
  (number t = Ok None <-> In t missing) /\
  (number t = Err TypeError <-> ~ In t missing /\ forall x, ~ decimal_text t x).
Proof.
  intros t.
  assert (A : forall x, decimal_text t x <-> exists q, number t = Ok (Some q) /\ Q2R q = x).
  { intros x. split; [exact (number_value t x)|]. intros (q & N & <-). now apply number_only. }
  assert (B : number t = Ok None <-> In t missing).
  { unfold number. destruct (existsb (String.eqb t) na_values) eqn:X.
    - split; [intros _; now apply existsb_in in X|reflexivity].
    - split; [destruct (decimal t); discriminate|]. intros M. apply existsb_in in M. change na_values with missing in X. congruence. }
  split; [exact A|]. split; [exact B|]. rewrite <- B. split.
  - intros E. split; [rewrite E; discriminate|]. intros x D. apply A in D as (q & N & _). congruence.
  - intros [N D]. destruct (number t) as [[q|]|e] eqn:X; [exfalso; apply (D (Q2R q)), A; eauto|congruence|].
    unfold number in X. destruct (existsb (String.eqb t) na_values); [discriminate|]. destruct (decimal t); [discriminate|congruence].
Qed.

(** The crater list: each line after the first gives one crater, in the order of the file,
    with the values that the line has in the configured columns.  The header is not
    looked at. *)
Theorem C80_crater_list : forall fs c names p cols text head rows ws,
  getv c "crater_csv_in" = VStr p -> getv c "crater_cols" = VTuple (map VStr cols) -> NoDup cols ->
  fs p = Some text -> csv_of (head :: rows) text -> Forall2 (crater_row names cols) rows ws ->
  read_crater_list fs c names = Ok ws.
Proof. exact crater_list_ok. Qed.
(** The basin list. *)
Theorem C80_basin_list : forall fs c names p cols text head rows ws,
  getv c "basin_csv_in" = VStr p -> getv c "basin_cols" = VTuple (map VStr cols) -> NoDup cols -> ~ In "psr_lat"%string cols ->
  fs p = Some text -> csv_of (head :: rows) text -> Forall2 (basin_row names cols) rows ws ->
  read_basin_list fs c names = Ok ws.
Proof. exact basin_list_ok. Qed.
(** Solar luminosity: two header lines, then times and luminosities. *)
Theorem C80_luminosity : forall fs c p text h1 h2 rows l,
  getv c "bahcall_csv_in" = VStr p -> fs p = Some text -> csv_of (h1 :: h2 :: rows) text ->
  Forall2 pair_row rows l -> read_solar_luminosity fs c = Ok l.
Proof. exact luminosity_ok. Qed.
(** Hop efficiencies: the efficiency of a crater is the one on its line; a crater without a
    line has none. *)
Theorem C80_hop : forall fs c p text h1 h2 rows l,
  getv c "bhop_csv_in" = VStr p -> fs p = Some text -> csv_of ([h1; h2] :: rows) text ->
  Forall2 named_row rows l -> NoDup (map fst l) ->
  exists hop, read_ballistic_hop fs c = Ok hop /\ forall n h, hop n = Some h <-> In (n, h) l.
Proof. intros fs c p text h1 h2. exact (hop_ok fs c p text [h1; h2]). Qed.
(** Melt fractions: the header has the temperatures, each line a mixing ratio and the
    fractions at these temperatures. *)
Theorem C80_melt : forall fs c p text corner temps rows tb,
  getv c "bsed_frac_mean_in" = VStr p -> fs p = Some text -> csv_of ((corner :: temps) :: rows) text -> NoDup temps ->
  Forall2 decimal_text temps (t_temps tb) -> length (t_mrs tb) = length (t_vals tb) ->
  Forall (fun v => length v = length (t_temps tb)) (t_vals tb) ->
  Forall2 labelled_row rows (combine (t_mrs tb) (t_vals tb)) ->
  read_ballistic_melt_frac fs c = Ok tb.
Proof. intros fs c p text corner temps rows tb P F T _ A L _ V. exact (melt_ok fs c p text corner temps rows tb P F T A L V). Qed.

(** A file that is not there is a FileNotFoundError. *)
Theorem C80_no_file : forall fs c p,
  (forall names cols, getv c "crater_csv_in" = VStr p -> getv c "crater_cols" = VTuple (map VStr cols) -> fs p = None ->
     read_crater_list fs c names = Err FileNotFoundError) /\
  (forall names cols, getv c "basin_csv_in" = VStr p -> getv c "basin_cols" = VTuple (map VStr cols) -> fs p = None ->
     read_basin_list fs c names = Err FileNotFoundError) /\
  (getv c "bahcall_csv_in" = VStr p -> fs p = None -> read_solar_luminosity fs c = Err FileNotFoundError) /\
  (getv c "bhop_csv_in" = VStr p -> fs p = None -> read_ballistic_hop fs c = Err FileNotFoundError) /\
  (getv c "bsed_frac_mean_in" = VStr p -> fs p = None -> read_ballistic_melt_frac fs c = Err FileNotFoundError).
Proof.
  intros fs c p. repeat split.
  1, 2: intros names cols P C F.
  3, 4, 5: intros P F.
  - unfold read_crater_list, read_text. rewrite P, C. unfold opt_strs. cbn [opt_str bind]. rewrite strs_ok. cbn [bind]. now rewrite F.
  - unfold read_basin_list, read_text. rewrite P, C. unfold opt_strs. cbn [opt_str bind]. rewrite strs_ok. cbn [bind]. now rewrite F.
  - unfold read_solar_luminosity, read_text. rewrite P. cbn [opt_str bind]. now rewrite F.
  - unfold read_ballistic_hop, read_text. rewrite P. cbn [opt_str bind]. now rewrite F.
  - unfold read_ballistic_melt_frac, read_text. rewrite P. cbn [opt_str bind]. now rewrite F.
Qed.

(** ** Concrete cases *)

(** Two lines with a quoted field, a blank line and a CRLF line end. *)
Definition two_lines : string := "a,""b, """"c""""""" ++ String CR (String LF (String LF "1,")).
Example C80_rows_case : csv_of [["a"; "b, ""c"""]; ["1"; ""]]%string two_lines /\
  csv_rows two_lines = Ok [["a"; "b, ""c"""]; ["1"; ""]]%string.
Proof.
  assert (H : csv_of [["a"; "b, ""c"""]; ["1"; ""]]%string two_lines).
  { exists (chars two_lines). split; [|left; split; [reflexivity|intros r E; discriminate]].
    apply (fl_line ["a"; "b, ""c"""]%string (chars "a,""b, """"c""""""") [CR; LF] (LF :: chars "1,") [["1"; ""]]%string).
    - apply (rt_more "a" (chars "a") ["b, ""c"""]%string (chars """b, """"c""""""")).
      + apply ft_plain. now apply plainb_ok.
      + apply rt_last. exact (ft_quoted "b, ""c""").
    - discriminate.
    - right. right. reflexivity.
    - apply (fl_blank [LF] (chars "1,")); [left; reflexivity|]. apply fl_last; [|discriminate].
      apply (rt_more "1" (chars "1") [""%string] []).
      + apply ft_plain. now apply plainb_ok.
      + apply rt_last. apply (ft_plain ""). constructor. }
  split; [exact H|]. exact (C80_rows _ _ H).
Qed.
Example C80_numbers_case : decimal_text "-1.50E+2" (-150) /\ number "n/a" = Ok None /\ number "1.5 km" = Err TypeError.
Proof.
  split; [|split; [reflexivity|reflexivity]].
  replace (-150) with (Q2R (scale10 (-1 * 150) (1 * 2 - 2))) by (unfold Q2R; cbn; lra).
  apply decimal_only. reflexivity.
Qed.

(** A crater list with the columns in another order and its own quoting. *)
Definition my_cols : list string := ["age"; "cname"; "lat"; "lon"; "diam"; "psr_lat"; "psr_lon"; "age_low"; "age_upp"]%string.
Definition my_list : string := "whatever
3.9,""Faustini, new"",-87.2,84.3,42.5,-87.146,84.075,0.03,0.03
1e-1,Small,-80,10,.5,,,0,0
".
Definition my_rows : list (list string) :=
  [["3.9"; "Faustini, new"; "-87.2"; "84.3"; "42.5"; "-87.146"; "84.075"; "0.03"; "0.03"];
   ["1e-1"; "Small"; "-80"; "10"; ".5"; ""; ""; "0"; "0"]]%string.
Definition my_cfg : cfg := [("crater_csv_in", VStr "mine.csv"); ("crater_cols", VTuple (map VStr my_cols))]%string.
Lemma cell_here cols row k t i : nth_error cols i = Some k -> nth_error row i = Some t -> cell_of cols row k t.
Proof. intros A B. now exists i. Qed.
Lemma num_here cols row k i t q x : nth_error cols i = Some k -> nth_error row i = Some t -> decimal t = Some q -> Q2R q = x -> num_of cols row k x.
Proof. intros A B C <-. exists t. split; [now apply (cell_here cols row k t i)|now apply decimal_only]. Qed.
Ltac num_at i := eapply (num_here _ _ _ i); [reflexivity|reflexivity|vm_compute; reflexivity|unfold Q2R; cbn [Qnum Qden]; lra].
Lemma name_here n : In n ["Faustini, new"; "Small"]%string -> a_name n.
Proof.
  intros I. split; [destruct I as [<-|[<-|[]]]; cbn [In missing]; intuition discriminate|].
  apply number_or_name. destruct I as [<-|[<-|[]]]; intros q; discriminate.
Qed.
Example C80_crater_case :
  read_crater_list (fun p => if String.eqb p "mine.csv" then Some my_list else None) my_cfg ["Faustini, new"]%string =
  Ok [mk_raw "Faustini, new" (-87.2) 84.3 (-87.146) 84.075 42.5 3.9 0.03 0.03; mk_raw "Small" (-80) 10 0 0 0.5 0.1 0 0].
Proof.
  apply (C80_crater_list _ my_cfg _ "mine.csv"%string my_cols my_list ["whatever"%string] my_rows); try reflexivity.
  - repeat constructor; cbn [In]; intuition discriminate.
  - apply (put_csv [([(false, "whatever"%string)], [LF]);
      ([(false, "3.9"); (true, "Faustini, new"); (false, "-87.2"); (false, "84.3"); (false, "42.5"); (false, "-87.146"); (false, "84.075"); (false, "0.03"); (false, "0.03")]%string, [LF]);
      (map (pair false) ["1e-1"; "Small"; "-80"; "10"; ".5"; ""; ""; "0"; "0"]%string, [LF])]); [|reflexivity|reflexivity].
    repeat (apply Forall_cons; [split; [reflexivity|split; [left; reflexivity|right; discriminate]]|]). apply Forall_nil.
  - apply Forall2_cons; [|apply Forall2_cons; [|apply Forall2_nil]].
    + split.
      * split; [cbn; lia|]. split; [now apply (cell_here _ _ _ _ 1)|]. split; [apply name_here; cbn [In w_name]; tauto|].
        cbn [w_lat w_lon w_diam w_age w_low w_upp].
        split; [num_at 2%nat|]. split; [num_at 3%nat|]. split; [num_at 4%nat|]. split; [num_at 0%nat|]. split; [num_at 7%nat|num_at 8%nat].
      * cbn [w_psr_lat w_psr_lon]. split; [left; num_at 5%nat|]. split; [left; num_at 6%nat|]. intros _. split; [num_at 5%nat|num_at 6%nat].
    + split.
      * split; [cbn; lia|]. split; [now apply (cell_here _ _ _ _ 1)|]. split; [apply name_here; cbn [In w_name]; tauto|].
        cbn [w_lat w_lon w_diam w_age w_low w_upp].
        split; [num_at 2%nat|]. split; [num_at 3%nat|]. split; [num_at 4%nat|]. split; [num_at 0%nat|]. split; [num_at 7%nat|num_at 8%nat].
      * cbn [w_psr_lat w_psr_lon w_name].
        split; [right; split; [exists ""%string; split; [now apply (cell_here _ _ _ _ 5)|left; reflexivity]|reflexivity]|].
        split; [right; split; [exists ""%string; split; [now apply (cell_here _ _ _ _ 6)|left; reflexivity]|reflexivity]|].
        intros [E|[]]. discriminate.
Qed.
Ltac dec := match goal with |- decimal_text ?t ?x =>
  let q := eval vm_compute in (decimal t) in
  match q with Some ?q => replace x with (Q2R q) by (unfold Q2R; cbn [Qnum Qden]; lra); apply decimal_only; vm_compute; reflexivity end end.
Definition put_lines (rows : list (list string)) := map (fun r => (map (pair false) r, [LF])) rows.
Ltac lines := repeat (apply Forall_cons; [split; [reflexivity|split; [left; reflexivity|right; discriminate]]|]); apply Forall_nil.
Definition basin_cfg : cfg := [("basin_csv_in", VStr "b.csv"); ("basin_cols", VTuple (map VStr ["cname"; "lat"; "lon"; "diam"; "age"; "age_low"; "age_upp"]%string))]%string.
Example C80_basin_case :
  read_basin_list (fun p => if String.eqb p "b.csv" then Some "n
Small,-19,265,930,3.81,0.01,0.02
"%string else None) basin_cfg ["Faustini"]%string =
  Ok [mk_raw "Small" (-19) 265 0 0 930 3.81 0.01 0.02].
Proof.
  apply (C80_basin_list _ basin_cfg _ "b.csv"%string ["cname"; "lat"; "lon"; "diam"; "age"; "age_low"; "age_upp"]%string
    "n
Small,-19,265,930,3.81,0.01,0.02
" ["n"%string] [["Small"; "-19"; "265"; "930"; "3.81"; "0.01"; "0.02"]%string]); try reflexivity.
  - repeat constructor; cbn [In]; intuition discriminate.
  - cbn [In]; intuition discriminate.
  - apply (put_csv (put_lines [["n"]; ["Small"; "-19"; "265"; "930"; "3.81"; "0.01"; "0.02"]]%string)); [|reflexivity|reflexivity]. lines.
  - apply Forall2_cons; [|apply Forall2_nil]. split.
    + split; [cbn; lia|]. split; [now apply (cell_here _ _ _ _ 0)|]. split; [apply name_here; cbn [In w_name]; tauto|].
      cbn [w_lat w_lon w_diam w_age w_low w_upp].
      split; [num_at 1%nat|]. split; [num_at 2%nat|]. split; [num_at 3%nat|]. split; [num_at 4%nat|]. split; [num_at 5%nat|num_at 6%nat].
    + split; [reflexivity|]. split; [reflexivity|]. cbn [w_name In]. intuition discriminate.
Qed.
Example C80_luminosity_case :
  read_solar_luminosity (fun p => if String.eqb p "sun.csv" then Some "Age,L
Gyr,Lsun
0,0.677
4.57,1"%string else None) [("bahcall_csv_in", VStr "sun.csv")]%string = Ok [(0, 0.677); (4.57, 1)].
Proof.
  apply (C80_luminosity _ _ "sun.csv"%string "Age,L
Gyr,Lsun
0,0.677
4.57,1" ["Age"; "L"]%string ["Gyr"; "Lsun"]%string [["0"; "0.677"]; ["4.57"; "1"]]%string); try reflexivity.
  - eexists. split; [|left; split; [reflexivity|intros r E; discriminate]].
    apply (fl_line ["Age"; "L"]%string (chars "Age,L") [LF] (chars "Gyr,Lsun
0,0.677
4.57,1")); [exact (put_row_ok (map (pair false) ["Age"; "L"]%string) ltac:(discriminate) eq_refl)|discriminate|left; reflexivity|].
    apply (fl_line ["Gyr"; "Lsun"]%string (chars "Gyr,Lsun") [LF] (chars "0,0.677
4.57,1")); [exact (put_row_ok (map (pair false) ["Gyr"; "Lsun"]%string) ltac:(discriminate) eq_refl)|discriminate|left; reflexivity|].
    apply (fl_line ["0"; "0.677"]%string (chars "0,0.677") [LF] (chars "4.57,1")); [exact (put_row_ok (map (pair false) ["0"; "0.677"]%string) ltac:(discriminate) eq_refl)|discriminate|left; reflexivity|].
    apply fl_last; [exact (put_row_ok (map (pair false) ["4.57"; "1"]%string) ltac:(discriminate) eq_refl)|discriminate].
  - apply Forall2_cons; [|apply Forall2_cons; [|apply Forall2_nil]]; eexists; eexists; (split; [reflexivity|]); cbn [fst snd]; split; dec.
Qed.
Example C80_hop_case : exists hop,
  read_ballistic_hop (fun p => if String.eqb p "hop.csv" then Some ",eff
""Faustini, new"",6.5e-2
Small,0
"%string else None) [("bhop_csv_in", VStr "hop.csv")]%string = Ok hop /\
  hop "Faustini, new"%string = Some 0.065 /\ hop "Small"%string = Some 0 /\ hop "Scott"%string = None.
Proof.
  edestruct (C80_hop (fun p => if String.eqb p "hop.csv" then Some ",eff
""Faustini, new"",6.5e-2
Small,0
"%string else None) [("bhop_csv_in", VStr "hop.csv")]%string "hop.csv"%string ",eff
""Faustini, new"",6.5e-2
Small,0
" "" "eff" [["Faustini, new"; "6.5e-2"]; ["Small"; "0"]]%string [("Faustini, new", 0.065); ("Small", 0)]%string) as (hop & H & L); try reflexivity.
  - apply (put_csv [([(false, ""); (false, "eff")]%string, [LF]); ([(true, "Faustini, new"); (false, "6.5e-2")]%string, [LF]);
      ([(false, "Small"); (false, "0")]%string, [LF])]); [|reflexivity|reflexivity]. lines.
  - apply Forall2_cons; [|apply Forall2_cons; [|apply Forall2_nil]]; eexists; (split; [reflexivity|]); cbn [fst snd]; split; try dec;
      apply name_here; cbn [In]; tauto.
  - repeat constructor; cbn [map fst In]; intuition discriminate.
  - exists hop. split; [exact H|]. split; [apply L; cbn [In]; tauto|]. split; [apply L; cbn [In]; tauto|].
    destruct (hop "Scott"%string) eqn:S; [|reflexivity]. apply L in S. cbn [In] in S. exfalso. destruct S as [S|[S|[]]]; discriminate.
Qed.
Example C80_melt_case :
  read_ballistic_melt_frac (fun p => if String.eqb p "m.csv" then Some "mr,100,110.5
0,0.1,.2
0.01,0.3,4e-1
"%string else None) [("bsed_frac_mean_in", VStr "m.csv")]%string = Ok (mk_table [0; 0.01] [100; 110.5] [[0.1; 0.2]; [0.3; 0.4]]).
Proof.
  apply (C80_melt _ _ "m.csv"%string "mr,100,110.5
0,0.1,.2
0.01,0.3,4e-1
" "mr" ["100"; "110.5"]%string [["0"; "0.1"; ".2"]; ["0.01"; "0.3"; "4e-1"]]%string); try reflexivity.
  - apply (put_csv (put_lines [["mr"; "100"; "110.5"]; ["0"; "0.1"; ".2"]; ["0.01"; "0.3"; "4e-1"]]%string)); [|reflexivity|reflexivity]. lines.
  - repeat constructor; cbn [In]; intuition discriminate.
  - cbn [t_temps]. repeat (apply Forall2_cons; [dec|]). apply Forall2_nil.
  - repeat constructor.
  - cbn [t_mrs t_vals combine]. apply Forall2_cons; [|apply Forall2_cons; [|apply Forall2_nil]]; unfold labelled_row; cbn [fst snd];
      (repeat (apply Forall2_cons; [dec|])); apply Forall2_nil.
Qed.
Example C80_no_file_case : read_solar_luminosity (fun _ => None) [("bahcall_csv_in", VStr "sun.csv")]%string = Err FileNotFoundError.
Proof. destruct (C80_no_file (fun _ => None) [("bahcall_csv_in", VStr "sun.csv")]%string "sun.csv") as (_ & _ & H & _). now apply H. Qed.

Print Assumptions C80_rows.
Print Assumptions C80_numbers.
Print Assumptions C80_crater_list.
Print Assumptions C80_basin_list.
Print Assumptions C80_luminosity.
Print Assumptions C80_hop.
Print Assumptions C80_melt.
Print Assumptions C80_no_file.
