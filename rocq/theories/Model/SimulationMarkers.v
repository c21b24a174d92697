(** Markers, collections and plots of geometrical simulations: as_markers, as_collections and plot of
    GeometricalKikuchiPatternSimulation, simulations/_kikuchi_pattern_simulation.py, and the part of EBSDDetector.plot
    (draw/_ebsd_detector_plot.py 92-172) used by the last.

    Simplifications: colours, sizes and other formatting are left out; coordinates with NaN are None; a simulation and
    its coordinates are those of Model/KikuchiLines.v, with patterns listed in C order. HyperSpy shows, at the position of
    the navigator (x, y), the element with this index of the array given for a marker, and for arrays which are not of
    objects the same at all positions. *)
From Coq Require Import Ascii String DecimalString List Arith ZArith Reals Bool.
From Verif Require Import Model.Detector Model.Rotations Model.Simulation Model.KikuchiLines.
From Verif Require Model.DetectorText.
Import ListNotations.
Local Open Scope nat_scope.
Local Open Scope list_scope.

(** np.ndindex, and the place in memory (C order) of an element. *)
Fixpoint ndindex (s : list nat) : list (list nat) :=
  match s with [] => [[]] | n :: s' => flat_map (fun k => map (cons k) (ndindex s')) (seq 0 n) end.
Fixpoint place (s i : list nat) : nat :=
  match s, i with _ :: s', k :: i' => k * fold_right Nat.mul 1 s' + place s' i' | _, _ => 0 end.

(** What is given to HyperSpy: the same for all positions, or an object array of this shape. *)
Inductive marker (A : Type) := Same (a : A) | Objects (shape : list nat) (items : list A).
Arguments Same {A}. Arguments Objects {A}.
(** What is shown at a position. *)
Definition shown {A} (m : marker A) (i : list nat) : option A :=
  match m with Same a => Some a | Objects s l => nth_error l (place s i) end.
(** The loop over np.ndindex(segments.shape) for arrays of shape nav_shape[::-1]: element idx is made from idx[::-1]. *)
Definition objects {A} (nav : list nat) (f : nat -> A) : marker A :=
  Objects (rev nav) (map (fun i => f (place nav (rev i))) (ndindex (rev nav))).
Definition is_one (nav : list nat) : bool := match nav with [1] => true | _ => false end.

Definition row {A} (l : list (list A)) (i : nat) : list A := nth i l [].
Definition kept {A} (l : list (option A)) : list (option A) := filter (fun o => match o with Some _ => true | None => false end) l.

(** _lines_as_markers, 620-635; _zone_axes_as_markers, 671-685 *)
Definition lines_as_markers (s : simulation) (nav : list nat) : marker (list (option segment)) :=
  if is_one nav then Same (row (lines_pixel s) 0) else objects nav (fun i => kept (row (lines_pixel s) i)).
Definition zone_axes_as_markers (s : simulation) (nav : list nat) : marker (list (option point)) :=
  if is_one nav then Same (row (zones_pixel s) 0) else objects nav (fun i => kept (row (zones_pixel s) i)).

(** ** Labels *)

(** np.array2string of an array of integers of shape (n, 3): entries are padded to the same width. *)
Definition text_of (z : Z) : string := NilZero.string_of_int (Z.to_int z).
Fixpoint spaces (n : nat) : string := match n with O => EmptyString | S n => String " " (spaces n) end.
Definition padded (w : nat) (z : Z) : string := (spaces (w - String.length (text_of z)) ++ text_of z)%string.
Definition width_of (l : list index) : nat :=
  fold_right Nat.max 0 (flat_map (fun u => [String.length (text_of (i1 u)); String.length (text_of (i2 u)); String.length (text_of (i3 u))]) l).
Definition row_text (w : nat) (u : index) : string :=
  ("[" ++ padded w (i1 u) ++ " " ++ padded w (i2 u) ++ " " ++ padded w (i3 u) ++ "]")%string.
Definition newline : ascii := ascii_of_nat 10.
Definition array2string (l : list index) : string :=
  ("[" ++ DetectorText.join (String newline " ") (map (row_text (width_of l)) l) ++ "]")%string.
(** re.sub("[][ ]", "", s) *)
Fixpoint without_brackets (s : string) : string :=
  match s with
  | EmptyString => EmptyString
  | String c r => if Ascii.eqb c "[" || Ascii.eqb c "]" || Ascii.eqb c " " then without_brackets r else String c (without_brackets r)
  end.
(** _zone_axes_labels_as_array, 687-692 *)
Definition labels (s : simulation) : list string :=
  DetectorText.split newline (without_brackets (array2string (zones s))).

(** labels[keep_i]: IndexError if there are not as many. *)
Fixpoint boolean_index {A B} (l : list A) (keep : list (option B)) : option (list A) :=
  match l, keep with
  | [], [] => Some []
  | a :: l', k :: keep' => option_map (fun r => match k with Some _ => a :: r | None => r end) (boolean_index l' keep')
  | _, _ => None
  end.
Fixpoint all_some {A} (l : list (option A)) : option (list A) :=
  match l with [] => Some [] | None :: _ => None | Some a :: r => option_map (cons a) (all_some r) end.
(** _zone_axes_labels_as_markers, 694-720: offsets and texts *)
Definition zone_axes_labels_as_markers (s : simulation) (nav : list nat) : option (marker (list (option point)) * marker (list string)) :=
  if is_one nav then Some (Same (row (zones_pixel s) 0), Same (labels s))
  else
    option_map (fun texts => (zone_axes_as_markers s nav, Objects (rev nav) texts))
      (all_some (map (fun i => boolean_index (labels s) (row (zones_pixel s) (place nav (rev i)))) (ndindex (rev nav)))).

(** ** Projection centers *)

(** _pc_xy_offsets, 648-669; [pc_marker] is the loop over the detector shape. *)
Definition pc_as_markers (d : detector) (nav : list nat) : marker point :=
  if (if list_eq_dec Nat.eq_dec (nav_shape (d_pc d)) nav then true else false) && negb (is_one nav)
  then objects nav (fun i => pc_marker d (nth i (pcs (d_pc d)) (PC 0 0 0)))
  else Same (pc_marker d (mean_pc (pcs (d_pc d)))).

(** ** Collections *)

Definition gnomonic_bounds (d : detector) (p : pc3) : (R * R) * (R * R) := ((x_min d p, x_max d p), (y_min d p, y_max d p)).
(** _zone_axes_labels_as_list, 583-618: texts and where they are. [i] is the number of the pattern. *)
Definition label_offset (d : detector) (i : nat) (c : coordinates) : R :=
  match c with
  | InPixels => - (3/100 * nrows d)
  | Gnomonic =>
      let p := nth (if is_one (nav_shape (d_pc d)) then 0 else i) (pcs (d_pc d)) (PC 0 0 0) in
      3/100 * (y_max d p - y_min d p)
  end%R.
Definition labels_as_list (s : simulation) (d : detector) (i : nat) (c : coordinates) : option (list (point * string)) :=
  option_map (fun coords =>
      flat_map (fun ct => match fst ct with Some (x, y) => [((x, y + label_offset d i c)%R, snd ct)] | None => [] end) (combine coords (labels s)))
    (nth_error (match c with InPixels => zones_pixel s | Gnomonic => zones_gnomonic s end) i).

Inductive collection := LineCollection (l : list segment) | Circles (l : list point) | Texts (l : list (point * string)).
(** as_collections, 124-212 *)
Definition as_collections (s : simulation) (d : detector) (i : nat) (c : coordinates) (lines zone_axes zone_axes_labels : bool) : option (list collection) :=
  match (if lines then option_map (fun l => [LineCollection l]) (lines_coordinates s i c) else Some []),
        (if zone_axes then option_map (fun l => [Circles l]) (zone_axes_coordinates s i c) else Some []),
        (if zone_axes_labels then option_map (fun l => [Texts l]) (labels_as_list s d i c) else Some []) with
  | Some a, Some b, Some t => Some (a ++ b ++ t)
  | _, _, _ => None
  end.

(** ** Plots *)

(** EBSDDetector.plot: where the PC is drawn, and the extent (left, right, bottom, top) of the image of a pattern. *)
Definition detector_plot (d : detector) (c : coordinates) : point * ((R * R) * (R * R)) :=
  let mean := mean_pc (pcs (d_pc d)) in
  match c with
  | InPixels => ((pcx mean * Rmax (ncols d - 1) 1, pcy mean * Rmax (nrows d - 1) 1),
                 ((0, Rmax (ncols d - 1) 1), (Rmax (nrows d - 1) 1, 0)))
  | Gnomonic => ((0, 0), ((meanR (map (x_min d) (pcs (d_pc d))), meanR (map (x_max d) (pcs (d_pc d)))),
                          (meanR (map (y_min d) (pcs (d_pc d))), meanR (map (y_max d) (pcs (d_pc d))))))
  end%R.

(** A figure: the PC if shown, the extent of the pattern and what is drawn on it. *)
Record figure := Figure { f_pc : option point; f_extent : (R * R) * (R * R); f_drawn : list collection }.
(** plot, 323-421. "isinstance(c, list) and isinstance(c[0], Text)": IndexError for an empty list. *)
Definition is_empty_list (c : collection) : bool := match c with Texts [] => true | _ => false end.
Definition plot (s : simulation) (d : detector) (i : nat) (c : coordinates) (lines zone_axes zone_axes_labels pc : bool) : option figure :=
  match as_collections s d i c lines zone_axes zone_axes_labels with
  | None => None
  | Some l =>
      if existsb is_empty_list l then None
      else Some (Figure (if pc then Some (fst (detector_plot d c)) else None) (snd (detector_plot d c)) l)
  end.
(** Where, in the coordinates of the figure, imshow draws the point of the image at fractions of its width from the left
    and of its height from the top. *)
Definition drawn_at (extent : (R * R) * (R * R)) (right below : R) : point :=
  let '((x0, x1), (y0, y1)) := extent in
  (x0 + right * (x1 - x0), y1 + below * (y0 - y1))%R.
