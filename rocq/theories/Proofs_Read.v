(** The tables of the data files. *)
From Coq Require Import ZArith QArith Bool Ascii String List Reals Qreals Lia Lra.
From Verif Require Import Base Proofs_Base Model_Csv Model_Cfg Model_Melt Model_Main Model_Run Spec_Csv Proofs_Csv.
Import ListNotations.
Open Scope R_scope.

Lemma existsb_in a l : existsb (String.eqb a) l = true <-> In a l.
Proof.
  rewrite existsb_exists. split; [intros (x & I & J)|intros I; exists a; split; [exact I|apply String.eqb_refl]].
  apply String.eqb_eq in J. now subst.
Qed.
Lemma existsb_out a l : ~ In a l -> existsb (String.eqb a) l = false.
Proof. intros N. destruct (existsb (String.eqb a) l) eqn:X; [|reflexivity]. now apply existsb_in in X. Qed.

Lemma col_index_of cols : NoDup cols -> forall k i, nth_error cols i = Some k -> col_index k cols = Some i.
Proof.
  induction 1 as [|x cols N D IH]; intros k i H; [destruct i; discriminate|]. cbn [col_index].
  destruct i as [|i]; cbn [nth_error] in H.
  - injection H as ->. now rewrite String.eqb_refl.
  - destruct (String.eqb_spec x k) as [-> |_]; [exfalso; apply N; eapply nth_error_In; eauto|]. now rewrite (IH k i H).
Qed.
Lemma text_of_cell cols row k t e : NoDup cols -> cell_of cols row k t -> text_cell cols k e row = Ok t.
Proof.
  intros D (i & I & J). unfold text_cell. rewrite (col_index_of cols D k i I). f_equal.
  apply nth_error_nth with (d := ""%string) in J. exact J.
Qed.
Lemma num_of_cell cols row k x e : NoDup cols -> num_of cols row k x ->
  exists q, num_cell cols k e row = Ok (Some q) /\ Q2R q = x.
Proof.
  intros D (t & C & T). unfold num_cell. rewrite (text_of_cell _ _ _ _ e D C). cbn [bind]. now apply number_value.
Qed.
Lemma blank_cell cols row k x e : NoDup cols -> num_or_blank cols row k x ->
  exists o, num_cell cols k e row = Ok o /\ or0 o = x.
Proof.
  intros D [H|((t & C & M) & ->)].
  - apply (num_of_cell _ _ _ _ e D) in H as (q & A & B). eauto.
  - exists None. split; [|reflexivity]. unfold num_cell. rewrite (text_of_cell _ _ _ _ e D C). cbn [bind].
    unfold number. now replace (existsb (String.eqb t) na_values) with true by (symmetry; now apply existsb_in).
Qed.

Definition raw_line (l : line) : raw :=
  mk_raw (ln_name l) (Q2R (ln_lat l)) (Q2R (ln_lon l)) (or0 (ln_psr_lat l)) (or0 (ln_psr_lon l))
    (Q2R (ln_diam l)) (Q2R (ln_age l)) (Q2R (ln_low l)) (Q2R (ln_upp l)).
Lemma read_line_ok cols row w psr : NoDup cols -> describes cols row w ->
  (forall k, In k ["psr_lat"; "psr_lon"]%string -> psr = true -> exists o, num_cell cols k AttributeError row = Ok o /\
     or0 o = if String.eqb k "psr_lat" then w_psr_lat w else w_psr_lon w) ->
  (psr = false -> w_psr_lat w = 0 /\ w_psr_lon w = 0) ->
  exists l, read_line cols psr row = Ok l /\ raw_line l = w /\
    (psr = true -> num_cell cols "psr_lat" AttributeError row = Ok (ln_psr_lat l) /\
                   num_cell cols "psr_lon" AttributeError row = Ok (ln_psr_lon l)).
Proof.
  intros D (_ & N & (M & _) & La & Lo & Di & Ag & Al & Au) P Z.
  destruct (num_of_cell _ _ _ _ AttributeError D La) as (la & La1 & La2).
  destruct (num_of_cell _ _ _ _ AttributeError D Lo) as (lo & Lo1 & Lo2).
  destruct (num_of_cell _ _ _ _ KeyError D Di) as (di & Di1 & Di2).
  destruct (num_of_cell _ _ _ _ KeyError D Ag) as (ag & Ag1 & Ag2).
  destruct (num_of_cell _ _ _ _ KeyError D Al) as (al & Al1 & Al2).
  destruct (num_of_cell _ _ _ _ KeyError D Au) as (au & Au1 & Au2).
  unfold read_line. rewrite Di1, Ag1, Al1, Au1, La1, Lo1, (text_of_cell _ _ _ _ AttributeError D N). cbn [bind need].
  rewrite (existsb_out (w_name w) na_values M).
  destruct psr.
  - destruct (P "psr_lat"%string ltac:(cbn; tauto) eq_refl) as (o1 & O1 & R1).
    destruct (P "psr_lon"%string ltac:(cbn; tauto) eq_refl) as (o2 & O2 & R2). cbn in R1, R2.
    rewrite O1, O2. cbn [bind]. eexists. split; [reflexivity|]. split; [|auto].
    unfold raw_line. cbn [ln_name ln_lat ln_lon ln_psr_lat ln_psr_lon ln_diam ln_age ln_low ln_upp].
    rewrite R1, R2, La2, Lo2, Di2, Ag2, Al2, Au2. destruct w; reflexivity.
  - destruct (Z eq_refl) as [Z1 Z2]. cbn [bind]. eexists. split; [reflexivity|]. split; [|discriminate].
    unfold raw_line. cbn [ln_name ln_lat ln_lon ln_psr_lat ln_psr_lon ln_diam ln_age ln_low ln_upp or0].
    rewrite <- Z1 at 1. rewrite <- Z2 at 1. rewrite La2, Lo2, Di2, Ag2, Al2, Au2. destruct w; reflexivity.
Qed.
Lemma crater_row_ok names cols row w : NoDup cols -> crater_row names cols row w ->
  exists l, read_line cols true row = Ok l /\ raw_of names l = Ok w.
Proof.
  intros D (H & P1 & P2 & K).
  destruct (read_line_ok cols row w true D H) as (l & L & R & Q); [|discriminate|].
  { intros k [<-|[<-|[]]] _; [exact (blank_cell _ _ _ _ AttributeError D P1)|exact (blank_cell _ _ _ _ AttributeError D P2)]. }
  exists l. split; [exact L|]. destruct (Q eq_refl) as [Q1 Q2]. unfold raw_of. fold (raw_line l). rewrite R.
  assert (Nl : ln_name l = w_name w) by (rewrite <- R; reflexivity). rewrite Nl.
  destruct (existsb (String.eqb (w_name w)) names) eqn:X; [|reflexivity].
  apply existsb_in in X. destruct (K X) as [K1 K2].
  destruct (num_of_cell _ _ _ _ AttributeError D K1) as (q1 & Z1 & _).
  destruct (num_of_cell _ _ _ _ AttributeError D K2) as (q2 & Z2 & _).
  rewrite Z1 in Q1. rewrite Z2 in Q2.
  assert (Inj : forall a b : option QArith_base.Q, Ok a = Ok b -> a = b) by congruence. apply Inj in Q1, Q2. rewrite <- Q1, <- Q2. reflexivity.
Qed.
Lemma basin_row_ok names cols row w : NoDup cols -> basin_row names cols row w ->
  exists l, read_line cols false row = Ok l /\ raw_of names l = Ok w.
Proof.
  intros D (H & P1 & P2 & K).
  destruct (read_line_ok cols row w false D H) as (l & L & R & _); [discriminate|auto|].
  exists l. split; [exact L|]. unfold raw_of. fold (raw_line l). rewrite R.
  assert (Nl : ln_name l = w_name w) by (rewrite <- R; reflexivity). rewrite Nl, (existsb_out _ _ K). reflexivity.
Qed.
Lemma rows_ok {A B C} (f : A -> result B) (g : B -> result C) (P : A -> C -> Prop) rows ws :
  (forall a c, P a c -> exists b, f a = Ok b /\ g b = Ok c) -> Forall2 P rows ws ->
  (let* l := mapM f rows in mapM g l) = Ok ws.
Proof.
  intros H F. enough (exists l, mapM f rows = Ok l /\ mapM g l = Ok ws) as (l & -> & X) by exact X.
  induction F as [|a c rows ws X F (l & L & G)]; [exists []; auto|].
  destruct (H a c X) as (b & B1 & B2). exists (b :: l). cbn [mapM]. rewrite B1, L, B2, G. auto.
Qed.
Lemma strs_ok cols : mapM opt_str (map VStr cols) = Ok cols.
Proof. induction cols as [|n l IH]; [reflexivity|]. cbn [map mapM opt_str bind]. now rewrite IH. Qed.
Lemma read_csv_ok text n head rows : csv_of (head ++ rows) text -> length head = S n -> read_csv text n = Ok rows.
Proof.
  intros H L. unfold read_csv. rewrite (read_rows _ _ H). cbn [bind].
  destruct (Nat.leb_spec (length (head ++ rows)) n) as [X|_]; [rewrite app_length in X; lia|].
  f_equal. rewrite <- L, skipn_app, skipn_all, Nat.sub_diag. reflexivity.
Qed.

Lemma crater_list_ok fs c names p cols text head rows ws :
  getv c "crater_csv_in" = VStr p -> getv c "crater_cols" = VTuple (map VStr cols) -> NoDup cols ->
  fs p = Some text -> csv_of (head :: rows) text -> Forall2 (crater_row names cols) rows ws ->
  read_crater_list fs c names = Ok ws.
Proof.
  intros P C D F T W. unfold read_crater_list, read_text. rewrite P, C. cbn [opt_str bind]. unfold opt_strs. rewrite strs_ok.
  cbn [bind]. rewrite F. cbn [bind]. unfold read_lines. rewrite (read_csv_ok text 0 [head] rows T eq_refl). cbn [bind].
  apply (rows_ok _ _ (crater_row names cols)); [|exact W]. intros row w. now apply crater_row_ok.
Qed.
Lemma basin_list_ok fs c names p cols text head rows ws :
  getv c "basin_csv_in" = VStr p -> getv c "basin_cols" = VTuple (map VStr cols) -> NoDup cols -> ~ In "psr_lat"%string cols ->
  fs p = Some text -> csv_of (head :: rows) text -> Forall2 (basin_row names cols) rows ws ->
  read_basin_list fs c names = Ok ws.
Proof.
  intros P C D Np F T W. unfold read_basin_list, read_text. rewrite P, C. cbn [opt_str bind]. unfold opt_strs. rewrite strs_ok.
  cbn [bind]. rewrite F. cbn [bind]. unfold read_lines. rewrite (read_csv_ok text 0 [head] rows T eq_refl). cbn [bind].
  rewrite (existsb_out _ _ Np). cbn [andb].
  apply (rows_ok _ _ (basin_row names cols)); [|exact W]. intros row w. now apply basin_row_ok.
Qed.
Lemma mapM_Forall2 {A B} (f : A -> result B) (l : list A) (l' : list B) : Forall2 (fun a b => f a = Ok b) l l' -> mapM f l = Ok l'.
Proof. induction 1 as [|a b l l' H F IH]; [reflexivity|]. cbn [mapM]. now rewrite H, IH. Qed.
Lemma luminosity_ok fs c p text h1 h2 rows l :
  getv c "bahcall_csv_in" = VStr p -> fs p = Some text -> csv_of (h1 :: h2 :: rows) text ->
  Forall2 pair_row rows l ->
  read_solar_luminosity fs c = Ok l.
Proof.
  intros P F T W. unfold read_solar_luminosity, read_text. rewrite P. cbn [opt_str bind]. rewrite F. cbn [bind].
  unfold luminosity_rows. rewrite (read_csv_ok text 1 [h1; h2] rows T eq_refl). cbn [bind].
  enough (exists qs, mapM (fun row =>
    let* t := num_cell ["time"; "luminosity"]%string "time" KeyError row in let* t := need t in
    let* l := num_cell ["time"; "luminosity"]%string "luminosity" KeyError row in let* l := need l in
    Ok (t, l)) rows = Ok qs /\ to_reals qs = l) as (qs & -> & <-) by reflexivity.
  clear T. induction W as [|row [x y] rows l (a & b & -> & A & B) W (qs & M & R)]; [exists []; auto|].
  cbn [fst snd] in A, B. apply number_value in A as (qa & A & A'). apply number_value in B as (qb & B & B').
  exists ((qa, qb) :: qs). cbn [mapM]. unfold num_cell at 1 2, text_cell. cbn [col_index String.eqb Ascii.eqb Bool.eqb option_map nth bind].
  rewrite A, B. cbn [bind need]. rewrite M. cbn [bind]. split; [reflexivity|]. unfold to_reals in *. cbn [map]. now rewrite A', B', R.
Qed.
Lemma hop_ok fs c p text head rows l :
  getv c "bhop_csv_in" = VStr p -> fs p = Some text -> csv_of (head :: rows) text ->
  Forall2 named_row rows l -> NoDup (map fst l) ->
  exists hop, read_ballistic_hop fs c = Ok hop /\ forall n h, hop n = Some h <-> In (n, h) l.
Proof.
  intros P F T W D. unfold read_ballistic_hop, read_text. rewrite P. cbn [opt_str bind]. rewrite F. cbn [bind].
  unfold hop_rows. rewrite (read_csv_ok text 0 [head] rows T eq_refl). cbn [bind].
  enough (exists qs, mapM (fun row => let* h := number (nth 1 row ""%string) in let* h := need h in
                   Ok (nth 0 row ""%string, h)) rows = Ok qs /\ map (fun '(n, q) => (n, Q2R q)) qs = l) as (qs & -> & <-).
  - eexists. split; [reflexivity|]. intros n h. unfold hop_of. clear - D.
    induction qs as [|[m q] qs IH]; cbn [find map fst snd]; [split; [discriminate|easy]|].
    cbn [map fst] in D. inversion D as [|? ? N D']; subst. destruct (String.eqb_spec m n) as [-> |E].
    + split; [intros X; left; cbn [snd] in X; congruence|]. intros [X|X]; [cbn [snd]; congruence|]. exfalso. apply N. apply (in_map fst) in X. exact X.
    + rewrite (IH D'). split; [now right|]. intros [X|X]; [congruence|exact X].
  - clear T D. induction W as [|row [n x] rows l (a & -> & _ & A) W (qs & M & R)]; [exists []; auto|].
    cbn [fst snd] in *. apply number_value in A as (qa & A & A').
    exists ((n, qa) :: qs). cbn [mapM nth]. rewrite A. cbn [bind need]. rewrite M. cbn [bind]. split; [reflexivity|]. cbn [map]. now rewrite A', R.
Qed.
Lemma plain_ok ts xs : Forall2 decimal_text ts xs -> exists qs, mapM plain_number ts = Ok qs /\ map Q2R qs = xs.
Proof.
  induction 1 as [|t x ts xs H F (qs & M & R)]; [exists []; auto|]. apply number_value in H as (q & A & B).
  exists (q :: qs). cbn [mapM]. unfold plain_number at 1. rewrite A. rewrite M. cbn [map bind]. now rewrite B, R.
Qed.
Lemma melt_ok fs c p text corner temps rows tb :
  getv c "bsed_frac_mean_in" = VStr p -> fs p = Some text -> csv_of ((corner :: temps) :: rows) text ->
  Forall2 decimal_text temps (t_temps tb) -> length (t_mrs tb) = length (t_vals tb) ->
  Forall2 labelled_row rows (combine (t_mrs tb) (t_vals tb)) ->
  read_ballistic_melt_frac fs c = Ok tb.
Proof.
  intros P F T A L V. unfold read_ballistic_melt_frac, read_text. rewrite P. cbn [opt_str bind]. rewrite F. cbn [bind].
  unfold melt_table. rewrite (read_rows _ _ T). cbn [bind tl]. destruct (plain_ok _ _ A) as (qt & A1 & A2). rewrite A1. cbn [bind].
  destruct tb as [mrs temps' vals]. cbn [t_mrs t_temps t_vals] in *. clear A T.
  enough (exists qm qv, mapM (fun row : list string => plain_number (nth 0 row ""%string)) rows = Ok qm /\
    mapM (fun row : list string => mapM plain_number (tl row)) rows = Ok qv /\ map Q2R qm = mrs /\ map (map Q2R) qv = vals)
    as (qm & qv & -> & -> & B1 & B2).
  { cbn [bind]. unfold real_table. cbn [q_mrs q_temps q_vals]. now rewrite A2, B1, B2. }
  revert mrs vals L V. induction rows as [|row rows IH]; intros mrs vals L V.
  - inversion V as [Z|]. destruct mrs as [|? ?], vals as [|? ?]; try discriminate. exists [], []. auto.
  - destruct mrs as [|m mrs], vals as [|v vals]; inversion V as [|? ? ? ? V1 V2]; subst.
    injection L as L. destruct (IH mrs vals L V2) as (qm & qv & I1 & I2 & I3 & I4).
    unfold labelled_row in V1. cbn [fst snd] in V1. destruct (plain_ok _ _ V1) as (qs & Q1 & Q2).
    destruct row as [|t row]; [inversion V1|]. cbn [mapM] in Q1.
    destruct (plain_number t) as [q|] eqn:E1; [|discriminate]. cbn [bind] in Q1.
    destruct (mapM plain_number row) as [q'|] eqn:E2; [|discriminate]. cbn [bind] in Q1.
    assert (Inj : forall a b : list QArith_base.Q, Ok a = Ok b -> a = b) by congruence. apply Inj in Q1. subst qs.
    cbn [map] in Q2. injection Q2 as Q2 Q3.
    exists (q :: qm), (q' :: qv). cbn [mapM nth tl]. rewrite E1, I1, E2, I2. cbn [bind map]. rewrite Q2, Q3, I3, I4. auto.
Qed.
Lemma number_or_name n : (forall q, decimal n <> Some q) -> forall x, ~ decimal_text n x.
Proof. intros N x H. apply decimal_value in H as (q & Q & _). exact (N q Q). Qed.

(** ** Writing tables, for the examples

    Fields with a flag for quotes; a row without fields is a blank line. *)
Definition put_field (bf : bool * string) : list ascii :=
  if fst bf then QUOTE :: flat_map (fun a => if Ascii.eqb a QUOTE then [QUOTE; QUOTE] else [a]) (chars (snd bf)) ++ [QUOTE]
  else chars (snd bf).
Fixpoint put_row (r : list (bool * string)) : list ascii :=
  match r with
  | [] => []
  | [f] => put_field f
  | f :: r => (put_field f ++ COMMA :: put_row r)%list
  end.
Definition put_file (rows : list (list (bool * string) * list ascii)) : list ascii :=
  flat_map (fun re => put_row (fst re) ++ snd re)%list rows.
Definition plainb (a : ascii) : bool := negb (existsb (Ascii.eqb a) [COMMA; QUOTE; LF; CR]).
Definition put_fine (re : list (bool * string) * list ascii) : Prop :=
  forallb (fun bf => fst bf || forallb plainb (chars (snd bf))) (fst re) = true /\ line_end (snd re) /\
  (fst re = [] \/ put_row (fst re) <> []).
Lemma plainb_ok l : forallb plainb l = true -> Forall ordinary l.
Proof.
  intros H. apply Forall_forall. intros a I. rewrite forallb_forall in H. specialize (H a I). unfold plainb in H.
  apply negb_true_iff in H. unfold ordinary.
  assert (N : forall b, In b [COMMA; QUOTE; LF; CR] -> a <> b).
  { intros b J ->. assert (existsb (Ascii.eqb b) [COMMA; QUOTE; LF; CR] = true) by (apply existsb_exists; exists b; split; [exact J|apply Ascii.eqb_refl]). congruence. }
  repeat split; apply N; cbn [In]; tauto.
Qed.
Lemma put_row_ok r : r <> [] -> forallb (fun bf => fst bf || forallb plainb (chars (snd bf))) r = true -> row_text (map snd r) (put_row r).
Proof.
  assert (F : forall bf : bool * string, fst bf || forallb plainb (chars (snd bf)) = true -> field_text (snd bf) (put_field bf)).
  { intros [[|] f]; cbn [fst snd orb]; intros X; [constructor|]. constructor. now apply plainb_ok. }
  induction r as [|f r IH]; intros N H; [congruence|]. cbn [forallb] in H. apply andb_true_iff in H as [H1 H2].
  destruct r as [|g r]; [constructor; now apply F|]. change (put_row (f :: g :: r)) with (put_field f ++ COMMA :: put_row (g :: r))%list.
  change (map snd (f :: g :: r)) with (snd f :: map snd (g :: r)). constructor; [now apply F|]. apply IH; [discriminate|exact H2].
Qed.
Lemma put_file_ok rows : Forall put_fine rows ->
  file_text (map (map snd) (filter (fun r => match r with [] => false | _ => true end) (map fst rows))) (put_file rows).
Proof.
  induction 1 as [|[r e] rows (H1 & H2 & H3) F IH]; [constructor|]. cbn [fst snd] in *.
  change (put_file ((r, e) :: rows)) with ((put_row r ++ e) ++ put_file rows)%list. rewrite <- app_assoc. cbn [map fst filter].
  destruct r as [|f r]; [change (put_row []) with (@nil ascii); cbn [app]; now apply fl_blank|]. cbn [map]. apply fl_line; [|destruct H3; [discriminate|assumption]|exact H2|exact IH].
  change (snd f :: map snd r) with (map snd (f :: r)). apply put_row_ok; [discriminate|exact H1].
Qed.
Lemma put_csv rows text : Forall put_fine rows -> chars text = put_file rows ->
  (match put_file rows with a :: _ => Nat.eqb (nat_of_ascii a) 239 | [] => false end) = false ->
  csv_of (map (map snd) (filter (fun r => match r with [] => false | _ => true end) (map fst rows))) text.
Proof.
  intros F T B. exists (put_file rows). split; [now apply put_file_ok|]. left. split; [exact T|]. intros r E. rewrite E in B. discriminate.
Qed.
