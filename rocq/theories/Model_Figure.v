(** The stratigraphy figure: /repo/moonpies/plotting.py.  Definitions only. *)
From Coq Require Import String Ascii List ZArith Reals Bool.
From Verif Require Import Base Model_Time Model_Interp Model_Path Model_Strat Model_Plot.
Import ListNotations.
Open Scope R_scope.
Open Scope list_scope.

(** ** Which files are read *)

(** [pathlib.PurePosixPath(p).parts] without the root: empty parts and "." are dropped. *)
Definition path_parts (p : string) : list string :=
  filter (fun x => negb (String.eqb x "" || String.eqb x ".")) (split_path p).

(** plotting.py:68, 98, 103, 105: the parts of [date_path / run / seed / file], where
    [date_path] is [Path(cfg.out_path).parents[1]] (IndexError for fewer than two parts).
    The run is not an absolute path. *)
Definition strat_file (out_path run : string) (seed : Z) (coldtrap : string) : result (list string) :=
  let parts := path_parts out_path in
  if Nat.ltb (length parts) 2 then Err IndexError
  else Ok (firstn (length parts - 2) parts ++ path_parts run ++
           [format_05d seed; "strat_" ++ coldtrap ++ ".csv"]%string).

(** ** The columns *)

Section Figure.
  (** [read run seed coldtrap] is the table in the file; [None] if there is no file.  The
      other parameters are those of get_strat_col_ranges. *)
  Variable read : string -> Z -> string -> option (list layer).
  Variable by_depth : list layer -> list layer.
  Variable by_diam : list (string * R) -> list (string * R).
  Variable hash : string -> Z.
  Variable cdf : list (string * R).
  Variable min_thick : R.

  (** plotting.py:106-115: a missing file is skipped. *)
  Definition draw_column (run : string) (seed : Z) (coldtrap : string)
    : result (option (list layer * list grow)) :=
    match read run seed coldtrap with
    | None => Ok None
    | Some table =>
      let* (_, sdf) := plot_column min_thick table in
      let* strat := get_strat_col_ranges by_depth by_diam hash cdf sdf in
      Ok (Some (sdf, strat))
    end.

  (** What is kept of a figure while it is drawn: the columns of the axes of one run, the
      largest depth and the percentages to be saved. *)
  Definition key := (string * Z * string)%type.
  Record drawing := mk_drawing {
    d_axs : list (option (list grow)); d_max : R; d_pct : list (key * list (option R)) }.

  (** [d[k] = v] of a dict, whose keys keep their order. *)
  Definition key_eqb (a b : key) : bool :=
    String.eqb (fst (fst a)) (fst (fst b)) && Z.eqb (snd (fst a)) (snd (fst b)) && String.eqb (snd a) (snd b).
  Fixpoint dict_set {A} (k : key) (v : A) (d : list (key * A)) : list (key * A) :=
    match d with
    | [] => [(k, v)]
    | (k', v') :: r => if key_eqb k k' then (k', v) :: r else (k', v') :: dict_set k v r
    end.

  (** plotting.py:116-117 [if strat.depth.max() > maxdepth]; the maximum of no rows is NaN. *)
  Definition deeper (maxdepth : R) (strat : list grow) : R :=
    match map (fun g => l_depth (g_layer g)) strat with
    | [] => maxdepth
    | d :: r => let m := fold_left Rmax r d in if Rltb maxdepth m then m else maxdepth
    end.

  (** plotting.py:104-129, one cold trap [i] of the seed number [s]: the axis is
      [s*len(coldtraps) + i + s]. *)
  Definition draw_cell (ncts : nat) (run : string) (acc : result drawing) (cell : nat * Z * (nat * string))
    : result drawing :=
    let '(s, seed, (i, coldtrap)) := cell in
    let* d := acc in
    let* c := draw_column run seed coldtrap in
    match c with
    | None => Ok d
    | Some (sdf, strat) =>
      let* axs := set (d_axs d) (s * ncts + i + s) (Some strat) in
      Ok (mk_drawing axs (deeper (d_max d) strat)
                     (dict_set (run, seed, coldtrap) (map l_icepct (by_depth sdf)) (d_pct d)))
    end.

  (** [enumerate]. *)
  Definition enum {A} (l : list A) : list (nat * A) := combine (seq 0 (length l)) l.

  (** plotting.py:97-129 and 131-134, one run: its axes with the depth at their lower end. *)
  Definition draw_run (seeds : list Z) (coldtraps : list string) (ncols : nat)
    (acc : result (list (list (option (list grow)) * R) * R * list (key * list (option R)))) (run : string)
    : result (list (list (option (list grow)) * R) * R * list (key * list (option R))) :=
    let* (rows, maxdepth, pct) := acc in
    let* d := fold_left (draw_cell (length coldtraps) run)
                (flat_map (fun '(s, seed) => map (fun ic => (s, seed, ic)) (enum coldtraps)) (enum seeds))
                (Ok (mk_drawing (repeat None ncols) maxdepth pct)) in
    Ok (rows ++ [(d_axs d, d_max d)], d_max d, d_pct d).

  (** plotting.py:83-145: for each run the columns on its axes and the depth at their lower
      end; and the table of percentages.  A grid without columns is a ValueError of
      matplotlib.  Texts, ticks and sizes are left out. *)
  Definition plot_figure (runs : list string) (seeds : list Z) (coldtraps : list string)
    : result (list (list (option (list grow)) * R) * list (key * list (option R))) :=
    let ncols := (Z.of_nat (length seeds) * Z.of_nat (length coldtraps) + (Z.of_nat (length seeds) - 1))%Z in
    if (ncols <=? 0)%Z then Err ValueError
    else
      let* (rows, _, pct) := fold_left (draw_run seeds coldtraps (Z.to_nat ncols)) runs (Ok ([], 0, [])) in
      Ok (rows, pct).
End Figure.

(** plotting.py:101 [axs[ncts::ncts+1]]: the axes that are switched off. *)
Definition blank_axes (ncts ncols : nat) : list nat :=
  filter (fun p => Nat.leb ncts p && Nat.eqb ((p - ncts) mod (ncts + 1)) 0) (seq 0 ncols).

(** ** The legend *)

(** What fill_betweenx leaves on an axis: a label, the stretches that are filled and the
    colour, as the ice percentage it stands for. *)
Record artist := mk_artist { a_label : string; a_where : list (R * R); a_colour : option R }.

(** plotting.py:178-182, the artists of a column ([fills] of Model_Plot, kept apart). *)
Definition artists (rows : list grow) : list artist :=
  map (fun r => mk_artist (g_hatchlabel r)
    (flat_map (fun '(a, b) =>
      if String.eqb (g_hatch a) (g_hatch r) && String.eqb (g_hatch b) (g_hatch r)
      then [(l_depth (g_layer a), l_depth (g_layer b))] else []) (combine rows (skipn 1 rows)))
    (l_icepct (g_layer r))) rows.
Definition painted (arts : list artist) : list (R * R * option R) :=
  flat_map (fun a => map (fun '(x, y) => (x, y, a_colour a)) (a_where a)) arts.

(** The axes of a figure, run after run. *)
Definition figure_axes (rows : list (list (option (list grow)) * R)) : list (list artist) :=
  flat_map (fun '(axs, _) => map (fun c => match c with Some strat => artists strat | None => [] end) axs) rows.

(** [ax.get_legend_handles_labels()] of each axis, one after the other (plotting.py:142-144):
    the artists whose label is not empty and does not begin with "_"; a handle is the
    artist itself, here its axis and its number. *)
Definition in_legend (l : string) : bool :=
  match l with EmptyString => false | String c _ => negb (Ascii.eqb c "_") end.
Definition handles (axes : list (list artist)) : list (nat * nat * string) :=
  flat_map (fun '(p, arts) =>
    flat_map (fun '(k, a) => if in_legend (a_label a) then [(p, k, a_label a)] else []) (enum arts))
    (enum axes).

(** [sorted] of texts, by code points. *)
Fixpoint insert_str (x : string) (l : list string) : list string :=
  match l with [] => [x] | y :: r => if String.leb x y then x :: l else y :: insert_str x r end.
Definition sort_str (l : list string) : list string := fold_right insert_str [] l.

(** [labels.index(label)]. *)
Fixpoint index_of (l : list string) (x : string) : result nat :=
  match l with
  | [] => Err ValueError
  | y :: r => if String.eqb x y then Ok O else let* i := index_of r x in Ok (S i)
  end.

(** [handle.set_facecolor] on the artist. *)
Definition set_colour (axes : list (list artist)) (p k : nat) (c : option R) : list (list artist) :=
  match nth_error axes p with
  | None => axes
  | Some arts => match nth_error arts k with
                 | None => axes
                 | Some a => upd axes p (upd arts k (mk_artist (a_label a) (a_where a) c))
                 end
  end.

(** plotting.py:218-237 [strat_legend]: the entries (label and handle) and the axes after
    the handles have been coloured.  [set] iterates in any order, but is sorted at once. *)
Definition strat_legend (axes : list (list artist)) : result (list (string * (nat * nat)) * list (list artist)) :=
  let hs := handles axes in
  let labels := map snd hs in
  let uniq := sort_str (nodup string_dec
                (filter (fun l => negb (String.eqb l "Ice" || String.eqb l "Other")) labels)) in
  let uniq := if existsb (String.eqb "Ice") labels then "Ice"%string :: uniq else uniq in
  let uniq := if existsb (String.eqb "Other") labels then uniq ++ ["Other"%string] else uniq in
  fold_left (fun acc label =>
    let* (entries, axes) := acc in
    let* i := index_of labels label in
    let* h := get hs i in
    let '(p, k, _) := h in
    let c := if String.eqb label "Ice" then 100 else 0 in
    Ok (entries ++ [(label, (p, k))], set_colour axes p k (Some c))) uniq (Ok ([], axes)).

(** ** The colour map *)

(** [int(c, 16)] of one digit, and of a text; signs, blanks, underscores and "0x", which
    int allows too, are left out. *)
Definition hex_digit (c : ascii) : result Z :=
  let n := Z.of_nat (nat_of_ascii c) in
  (if (48 <=? n) && (n <=? 57) then Ok (n - 48)
   else if (97 <=? n) && (n <=? 102) then Ok (n - 87)
   else if (65 <=? n) && (n <=? 70) then Ok (n - 55)
   else Err ValueError)%Z.
Definition hex_int (s : string) : result Z :=
  match s with
  | EmptyString => Err ValueError
  | _ => fold_left (fun acc c => let* v := acc in let* d := hex_digit c in Ok (16 * v + d)%Z)
                   (list_ascii_of_string s) (Ok 0%Z)
  end.

(** [value.strip("#")]. *)
Fixpoint lstrip_hash (l : list ascii) : list ascii :=
  match l with
  | c :: r => if Ascii.eqb c "#" then lstrip_hash r else l
  | [] => []
  end.
Definition strip_hash (s : string) : string :=
  string_of_list_ascii (rev (lstrip_hash (rev (lstrip_hash (list_ascii_of_string s))))).

(** plotting.py:339-347 [hex_to_rgb] and [rgb_to_dec]; a step of 0 is a ValueError of
    [range]. *)
Definition hex_to_rgb (value : string) : result (list R) :=
  let value := strip_hash value in
  let lv := String.length value in
  let n := (lv / 3)%nat in
  if Nat.eqb n 0 then Err ValueError
  else mapM (fun i => let* v := hex_int (substring (i * n) n value) in Ok (IZR v / 256))
            (seq 0 ((lv + n - 1) / n)).

(** plotting.py:321-357 [make_cmap]: the three lists of locations and values. *)
Definition make_cmap (hex_list : list string) (locs : option (list R)) : result (list (list (R * R))) :=
  let* rgbs := mapM hex_to_rgb hex_list in
  let locs := match locs with Some l => l | None => linspace 0 1 (length rgbs) end in
  mapM (fun num => mapM (fun '(i, loc) => let* rgb := get rgbs i in let* v := get rgb num in Ok (loc, v))
                        (enum locs)) (seq 0 3).

(** matplotlib's [LinearSegmentedColormap] with 256 entries, used at a percentage that
    [Normalize(0, 100)] has divided by 100.  The table is made at the first use: the
    locations must begin with 0, end with 1 and not decrease; entry [k] is the value
    interpolated at [k / 255], cut to 0 to 1.  NaN is transparent ([None]).  Two equal
    locations, where a colour map jumps, are left out: [np.interp] stands for the
    interpolation between increasing ones. *)
Definition valid_locs (locs : list R) : bool :=
  match locs with
  | [] => false
  | x :: _ => Reqb x 0 && Reqb (last locs 0) 1 &&
              forallb (fun '(a, b) => Rleb a b) (combine locs (skipn 1 locs))
  end.
Definition lut_entry (seg : list (R * R)) (k : nat) : result R :=
  if valid_locs (map fst seg) then
    let* v := interp seg (INR k / 255) in Ok (Rmax 0 (Rmin 1 v))
  else Err ValueError.
Definition lut_index (x : R) : nat :=
  if Rltb (x * 256) 0 then 0 else if Rleb 256 (x * 256) then 255 else Z.to_nat (Int_part (x * 256)).
Definition cmap_at (cmap : list (list (R * R))) (pct : option R) : result (option (list R)) :=
  match pct with
  | None => let* _ := mapM (fun seg => lut_entry seg 0) cmap in Ok None
  | Some p => let* c := mapM (fun seg => lut_entry seg (lut_index (p / 100))) cmap in Ok (Some c)
  end.

(** plotting.py:16, 311-318 [get_cmap(None)]. *)
Definition CMAP_COLORS : list string := ["#D3D3D3"; "#1f77b4"]%string.
Definition default_cmap : result (list (list (R * R))) := make_cmap CMAP_COLORS None.
