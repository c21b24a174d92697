(** Plot of the detector screen: plot_ebsd_detector and what it uses, draw/_ebsd_detector_plot.py (called by EBSDDetector.plot,
    detectors/_ebsd_detector.py 1801-1901), and parse_coordinate_format, detectors/_convert_detector_coordinates.py.

    Simplifications: only what is drawn where is modelled, in data coordinates of the axis; colours, labels, sizes and other
    formatting are left out. *)
From Coq Require Import String List Arith ZArith Reals.
From Verif Require Import Model.Detector Model.KikuchiLines.
From Verif Require Model.SimulationMarkers.
Import ListNotations.
Local Open Scope R_scope.

(** parse_coordinate_format, 39-52 ("detector" also warns). None: ValueError. *)
Definition parse_coordinate_format (fmt : string) : option coordinates :=
  if String.eqb fmt "detector" then Some InPixels
  else if String.eqb fmt "pixel" then Some InPixels
  else if String.eqb fmt "gnomonic" then Some Gnomonic
  else None.

(** get_default_gnomonic_angles, 44-46: np.linspace(10, 80, 8) *)
Definition default_gnomonic_angles : list R := map (fun k => 10 + INR k * ((80 - 10) / INR 7)) (seq 0 8).

(** get_gnomonic_circles, 49-64: centers and radii *)
Definition gnomonic_circles (center : point) (angles : list R) : list (point * R) :=
  map (fun a => (center, tan (deg2rad a))) angles.

(** Limits of the axis: x from left to right, y from bottom to top. Area: left, right, bottom and top of the pattern or, without one, of
    the rectangle drawn in its place. *)
Record plane := Plane {
  x_limits : R * R; y_limits : R * R; area : (R * R) * (R * R); pc_drawn : option point; circles_drawn : list (point * R) }.
(** plot_ebsd_detector, 90-174. Where the PC is drawn and the area are in Model/SimulationMarkers.v. None: ValueError. *)
Definition plot_detector (d : detector) (c : coordinates) (zoom : R) (show_pc draw_gnomonic_circles : bool)
    (pattern_shape : option (Z * Z)) (gnomonic_angles : option (list R)) : option plane :=
  let valid := match pattern_shape with None => true | Some (ny, nx) => Z.eqb ny (d_ny d) && Z.eqb nx (d_nx d) end%bool in
  if negb valid then None
  else
    let '(pc, ((x0, x1), (y0, y1))) := SimulationMarkers.detector_plot d c in
    let angles := match gnomonic_angles with None => default_gnomonic_angles | Some l => l end in
    Some (Plane (x0 * zoom, x1 * zoom) (y0 * zoom, y1 * zoom) ((x0, x1), (y0, y1)) (if show_pc then Some pc else None)
           (if draw_gnomonic_circles then gnomonic_circles pc angles else [])).

(** EBSDDetector.plot, 1801-1901 *)
Definition plot (d : detector) (fmt : string) (zoom : R) (show_pc draw_gnomonic_circles : bool)
    (pattern_shape : option (Z * Z)) (gnomonic_angles : option (list R)) : option plane :=
  match parse_coordinate_format fmt with
  | None => None
  | Some c => plot_detector d c zoom show_pc draw_gnomonic_circles pattern_shape gnomonic_angles
  end.

(** update_detector_plane, 535-559 *)
Definition update_detector_plane (d : detector) (c : coordinates) (zoom : R) (draw_gnomonic_circles : option bool) (show_pc : bool)
    : option plane :=
  let circles := match draw_gnomonic_circles with
                 | Some b => b
                 | None => match c with Gnomonic => true | InPixels => false end
                 end in
  plot_detector d c zoom show_pc circles None None.
