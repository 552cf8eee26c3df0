(** Vocabulary of the properties of the figure of volatilized fractions. *)
From Coq Require Import String List ZArith Reals Bool.
From Verif Require Import Base Model_Geo Model_Time Model_Crater Model_Melt Model_Main Model_Volatile Spec_Maps.
Import ListNotations.
Open Scope R_scope.

(** The image shows [v] at the point (x, y): its cells divide the extent evenly, and the
    first row is at the top. *)
Definition pixel (im : image) (x y v : R) : Prop :=
  exists i j row,
    nth_error (im_rows im) i = Some row /\ nth_error row j = Some v /\
    let w := (im_right im - im_left im) / INR (length row) in
    let h := (im_top im - im_bottom im) / INR (length (im_rows im)) in
    im_left im + INR j * w < x < im_left im + (INR j + 1) * w /\
    im_top im - (INR i + 1) * h < y < im_top im - INR i * h.

(** The share of ejecta, in per cent, of a mixture with the ratio [mr] of target to ejecta. *)
Definition share (mr : R) : R := 100 / (1 + mr).

(** [m] is the greatest (least) number with the property. *)
Definition is_greatest (P : R -> Prop) (m : R) : Prop := P m /\ forall x, P x -> x <= m.
Definition is_least (P : R -> Prop) (m : R) : Prop := P m /\ forall x, P x -> m <= x.

(** What the image of a table holds: a column of zeros for 100 K, then the entries in per
    cent; from the least to the greatest temperature and from 0 to the largest share of
    ejecta. *)
Record image_of (ratios temps : list R) (vals : list (list R)) (im : image) : Prop := {
  io_left : is_least (fun t => t = 100 \/ In t temps) (im_left im);
  io_right : is_greatest (fun t => t = 100 \/ In t temps) (im_right im);
  io_bottom : im_bottom im = 0;
  io_top : is_greatest (fun p => exists mr, In mr ratios /\ p = share mr) (im_top im);
  io_rows : im_rows im = map (fun row => 0 :: map (fun v => 100 * v) row) vals }.

(** Tables like the shipped one: columns for 100 K + 2 s, + 3 s, ...; the first row is for
    pure ejecta. *)
Definition regular (s : R) (t : table) : Prop :=
  0 < s /\ t_temps t = map (fun j => 100 + s * (INR j + 2)) (seq 0 (length (t_temps t))) /\
  (exists rest, t_mrs t = 0 :: rest) /\ Forall (fun mr => 0 <= mr) (t_mrs t) /\
  length (t_vals t) = length (t_mrs t) /\ Forall (fun row => length row = length (t_temps t)) (t_vals t).

(** Entry of row [i] and column [j]. *)
Definition entry (vals : list (list R)) (i j : nat) (v : R) : Prop :=
  exists row, nth_error vals i = Some row /\ nth_error row j = Some v.

(** Distance in m from the centre of the line to the cold trap [n]; none to itself, if there
    is no line of that name, within the rim and beyond the limit of a crater or basin. *)
Definition apart (c : rcfg) (craters basins : list raw) (t : bool * raw) (n : string) : option R :=
  match find (fun d => String.eqb (w_name d) n) (craters ++ basins) with
  | None => None
  | Some d =>
    let far := gc_dist 1737400 (w_lon (snd t)) (w_lat (snd t)) (w_psr_lon d) (w_psr_lat d) in
    let limit := if fst t then r_basinthr c else r_ejthr c in
    if negb (String.eqb (w_name (snd t)) n) && Rltb (radius (snd t)) far && (Rltb limit 0 || Rltb far (limit * radius (snd t)))
    then Some far else None
  end.

(** [p] is the share of ejecta at some cold trap that a crater (or basin) reaches. *)
Definition share_of (c : rcfg) (craters basins : list raw) (basin : bool) (p : R) : Prop :=
  exists w n d, In w (if basin then basins else craters) /\ In n (r_names c) /\
    apart c craters basins (basin, w) n = Some d /\ p = share (oberbeck c d).

Definition marker_of (c : rcfg) (craters basins : list raw) (basin : bool) (temp : R) (m : marker) : Prop :=
  k_temp m = temp /\ is_least (share_of c craters basins basin) (k_low m) /\ is_greatest (share_of c craters basins basin) (k_high m).
