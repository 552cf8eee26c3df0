(** Vocabulary of the properties of the maps and of the figure of distances. *)
From Coq Require Import String List ZArith Reals Bool Permutation.
From Verif Require Import Base Model_Geo Model_Time Model_Crater Model_Ice Model_Rng Model_Melt Model_Main Model_Maps Spec_Time Spec_Geo Spec_Ice Spec_Main Spec_Ages.
Import ListNotations.
Open Scope R_scope.

(** The lines of both files, with a mark for basins. *)
Definition both (craters basins : list raw) : list (bool * raw) := map (pair false) craters ++ map (pair true) basins.
Definition radius (w : raw) : R := w_diam w * 1000 / 2.

(** ** Maps *)

(** Great circle distance from the centre of the line to the point of the map. *)
Definition away (w : raw) (x y : R) : R :=
  let (lat, lon) := xy2latlon 1737400 x y in gc_dist 1737400 (w_lon w) (w_lat w) lon lat.
Definition on_moon (x y : R) : Prop := x ^ 2 + y ^ 2 <= 1737400 ^ 2.
Definition reach (basin : bool) : R := if basin then 5 else 4.

(** The ejecta at a point of the map: by the default law, from the rim to 4 radii (basins:
    5). *)
Definition laid (t : bool * raw) (x y h : R) : Prop :=
  let in_reach := on_moon x y /\ radius (snd t) <= away (snd t) x y <= reach (fst t) * radius (snd t) in
  (in_reach /\ h = get_ejecta_thickness CFG0 (Some (away (snd t) x y)) (radius (snd t))) \/ (~ in_reach /\ h = 0).
Definition covers (t : bool * raw) (x y : R) : Prop := on_moon x y /\ away (snd t) x y < reach (fst t) * radius (snd t).

(** [v] is drawn for the point (x, y) on a grid with the axes of [m]. *)
Definition shown (m : maps) (grid : list (list R)) (x y v : R) : Prop :=
  exists i j row, nth_error (m_y m) i = Some y /\ nth_error (m_x m) j = Some x /\ nth_error grid i = Some row /\ nth_error row j = Some v.

(** Both maps have a value for each point.  Ejecta: the sum over all lines.  Age in Ga: that
    of the youngest line that covers the point, or 4.25; ages are those of the random
    numbers [u]. *)
Record maps_of (c : rcfg) (ppf : ppf_fun) (craters basins : list raw) (u : tape) (m : maps) : Prop := {
  mo_shape : forall g, g = m_age m \/ g = m_ej m -> length g = length (m_y m) /\ forall row, In row g -> length row = length (m_x m);
  mo_ej : forall i j x y, nth_error (m_y m) i = Some y -> nth_error (m_x m) j = Some x ->
    exists row hs, nth_error (m_ej m) i = Some row /\ nth_error row j = Some (Rsum hs) /\
      Forall2 (fun t h => laid t x y h) (both craters basins) hs;
  mo_age : forall i j x y, nth_error (m_y m) i = Some y -> nth_error (m_x m) j = Some x ->
    exists row a, nth_error (m_age m) i = Some row /\ nth_error row j = Some a /\
      ((a = 425 / 100 /\ forall t, In t (both craters basins) -> ~ covers t x y) \/
       (exists k t, nth_error (both craters basins) k = Some t /\ covers t x y /\ a = age_from c ppf (snd t) (u k) /\
          forall k' t', nth_error (both craters basins) k' = Some t' -> covers t' x y -> a <= age_from c ppf (snd t') (u k'))) }.

(** Settings and data for a list with random ages. *)
Record list_sane (c : rcfg) (ppf : ppf_fun) (sort : list (crater info) -> list (crater info)) (craters basins : list raw) (entropy : nat -> tape) : Prop := {
  ls_sort : sorts_by_age sort; ls_ppf : ppf_support ppf; ls_draws : forall k, draws (entropy k);
  ls_step : (0 < r_step c)%Z; ls_spread : spread (craters ++ basins) }.

(** ** Distances *)

(** Distance in m from the centre of the line to the cold trap [n]; none to itself, if there
    is no line of that name, within the rim and, only for a basin, beyond the limit. *)
Definition gap (c : rcfg) (craters basins : list raw) (t : bool * raw) (n : string) : option R :=
  match find (fun d => String.eqb (w_name d) n) (craters ++ basins) with
  | None => None
  | Some d =>
    let far := gc_dist 1737400 (w_lon (snd t)) (w_lat (snd t)) (w_psr_lon d) (w_psr_lat d) in
    let limited := fst t && Rleb 0 (r_basinthr c) in
    if negb (String.eqb (w_name (snd t)) n) && Rltb (radius (snd t)) far && (negb limited || Rltb far (r_basinthr c * radius (snd t)))
    then Some far else None
  end.

(** Oberbeck's mixing ratio at a distance in m. *)
Definition oberbeck (c : rcfg) (dist : R) : R :=
  let m := mr_a (r_bsed c) * Rpower (dist / 1000) (mr_b (r_bsed c)) in
  if mr_petro (r_bsed c) && Rltb 5 m then m / 2 + 25 / 10 else m.
Definition thickness (c : rcfg) (t : bool * raw) (d : option R) : R := get_ejecta_thickness (crat (r_i c)) d (radius (snd t)).

(** The points of one line: thickness, mixing ratio and depth at each cold trap. *)
Definition thick_points (c : rcfg) (craters basins : list raw) (t : bool * raw) : list (option R * R) :=
  map (fun n => let d := gap c craters basins t n in (d, thickness c t d)) (r_names c).
Definition ratio_points (c : rcfg) (craters basins : list raw) (t : bool * raw) : list (option R * option R) :=
  map (fun n => let d := gap c craters basins t n in (d, option_map (oberbeck c) d)) (r_names c).
Definition depth_points (c : rcfg) (craters basins : list raw) (t : bool * raw) : list (option R * option R) :=
  map (fun n => let d := gap c craters basins t n in (d, option_map (fun d' => - thickness c t d * oberbeck c d') d)) (r_names c).

Record distances_of (c : rcfg) (craters basins : list raw) (ries : list ries_line) (g : distances) : Prop := {
  do_ries : h_ries g = map (fun e => (e_km e * 1000, e_ratio e)) ries;
  do_law : h_law g = map (fun e => (e_km e * 1000, oberbeck c (e_km e * 1000))) ries;
  do_traps : Forall2 (fun n p => exists t, In t (both craters basins) /\ w_name (snd t) = n /\ p = (n, ratio_points c craters basins t))
    (firstn 6 (r_names c)) (h_traps g);
  do_points : exists t ts, Permutation (t :: ts) (both craters basins) /\
    h_thick g = flat_map (thick_points c craters basins) (t :: ts) /\ h_depth g = flat_map (depth_points c craters basins) (t :: ts) /\
    h_first g = (thick_points c craters basins t, depth_points c craters basins t);
  do_xmax : (exists w n, In w craters /\ In n (r_names c) /\ gap c craters basins (false, w) n = Some (h_xmax g)) /\
    forall w n d, In w craters -> In n (r_names c) -> gap c craters basins (false, w) n = Some d -> d <= h_xmax g }.

(** The vertical lines: from the line named Amundsen to the given cold traps. *)
Definition lines_to (c : rcfg) (craters basins : list raw) (g : distances) (faustini shoemaker haworth : string) : Prop :=
  exists t, In t (both craters basins) /\ w_name (snd t) = "Amundsen"%string /\
    h_lines g = [("Amundsen->Faustini", gap c craters basins t faustini); ("Amundsen->Shoemaker", gap c craters basins t shoemaker);
                 ("Amundsen->Haworth", gap c craters basins t haworth)]%string.
Definition has_line (craters basins : list raw) (n : string) : Prop := In n (map w_name (craters ++ basins)).

(** Settings and data for the figure of distances. *)
Record distances_sane (c : rcfg) (ppf : ppf_fun) (sort : list (crater info) -> list (crater info)) (craters basins : list raw) (entropy : nat -> tape) : Prop := {
  ds_list : list_sane c ppf sort craters basins entropy;
  ds_names : NoDup (map w_name (craters ++ basins));
  ds_diam : Forall (fun w => 0 <= w_diam w) (craters ++ basins) }.
