(** Side and top views of detector and sample: plot_detector_sample_geometry_side_view and
    plot_detector_sample_geometry_top_view of draw/_ebsd_detector_plot.py (called by EBSDDetector.plot_side_view,
    detectors/_ebsd_detector.py 1923-1987, and plot_top_view, 2008-2074).

    Simplifications: only what is drawn where is modelled, in data coordinates (mm) of the axis. *)
From Coq Require Import List Arith ZArith Reals.
From Verif Require Import Model.Detector.
Import ListNotations.
Local Open Scope R_scope.

(** specimen_scintillator_distance[0]: an array of the navigation shape, so a number or a row of them. IndexError if empty. *)
Inductive first_element := Number (x : R) | Row (l : list R).
Definition first_distance (d : detector) : option first_element :=
  let l := map (specimen_scintillator_distance d) (pcs (d_pc d)) in
  match nav_shape (d_pc d) with
  | [_] => match l with x :: _ => Some (Number x) | [] => None end
  | [S _; columns] => Some (Row (firstn columns l))
  | _ => None
  end.
(** NumPy's product of this with a vector. ValueError if shapes cannot be broadcast. *)
Definition broadcast (L : first_element) (v : list R) : option (list R) :=
  match L with
  | Number x => Some (map (Rmult x) v)
  | Row [x] => Some (map (Rmult x) v)
  | Row l => if Nat.eqb (length l) (length v) then Some (map (fun ab => fst ab * snd ab) (combine l v)) else None
  end.

(** trans in the side view, 225-228: to mm, and Z upwards. *)
Definition trans (p : R * R) : R * R := (fst p * (1/1000), - (snd p * (1/1000))).
Definition shifted (p : R * R) (k : R) (v : R * R) : R * R := (fst p + k * fst v, snd p + k * snd v).
(** get_axis_limit_pad, 513-519 *)
Definition axis_limit_pad (width : R) : R := 11/10 * (width * (1/1000)).

Record side_view := SideView {
  beam_start : R * R; beam_end : R * R; sample_start : R * R; sample_end : R * R;
  screen_top : R * R; screen_bottom : R * R; side_pc : R * R; side_limit : R }.
(** plot_detector_sample_geometry_side_view, 177-302 *)
Definition plot_side_view (d : detector) : option side_view :=
  let h := height d in
  let sigma := deg2rad (d_sample_tilt d) in
  let theta := deg2rad (d_tilt d) in
  let half_sample := h * (3/10) in
  let sample := (half_sample * cos sigma, half_sample * sin sigma) in
  let detector_z := [cos theta; sin theta] in
  let detector_y := (- sin theta, cos theta) in
  let py := pcy (mean_pc (pcs (d_pc d))) in
  match first_distance d with
  | None => None
  | Some L =>
    match broadcast L detector_z with
    | Some [p0; p1] =>
        Some (SideView (trans (0, - (h * (1/2)))) (trans (0, 0)) (trans (- fst sample, - snd sample)) (trans sample)
          (trans (shifted (p0, p1) (- (py * h)) detector_y)) (trans (shifted (p0, p1) ((1 - py) * h) detector_y)) (trans (p0, p1))
          (axis_limit_pad h))
    | _ => None
    end
  end.

(** rotate_about_axis, 318-328 *)
Definition rotate_about_axis (v axis : vec) (angle : R) : vec :=
  let n := norm axis in rodrigues (Vec (vx axis / n) (vy axis / n) (vz axis / n)) angle v.

Record top_view := TopView { beam : R * R; sample_corners : list (R * R); screen_corners : list (R * R); top_pc : R * R; top_limit : R }.
(** plot_detector_sample_geometry_top_view, 331-510 *)
Definition plot_top_view (d : detector) : option top_view :=
  let w := width d in
  let h := height d in
  let sigma := deg2rad (d_sample_tilt d) in
  let theta := deg2rad (d_tilt d) in
  let azimuthal := deg2rad (d_azimuthal d) in
  let x_d := Vec (-1) 0 0 in
  let y_d := rotate_about_axis (Vec 0 0 1) x_d (- theta) in
  let z_d := rotate_about_axis (Vec 0 1 0) x_d (- theta) in
  let x_d := rotate_about_axis x_d y_d (- azimuthal) in
  let z_d := rotate_about_axis z_d y_d (- azimuthal) in
  let half := h * (6/10) * (1/2) in
  let half_y := half * cos sigma in
  let mm := fun q : R * R => (fst q * (1/1000), snd q * (1/1000)) in
  let mean := mean_pc (pcs (d_pc d)) in
  match first_distance d with
  | None => None
  | Some L =>
    match broadcast L [vx z_d; vy z_d; vz z_d] with
    | Some [p0; p1; p2] =>
        let corner := fun kx ky => (p0 + kx * vx x_d + ky * vx y_d, p1 + kx * vy x_d + ky * vy y_d) in
        let left_extent := - (pcx mean * w) in
        let right_extent := (1 - pcx mean) * w in
        let top_extent := - (pcy mean * h) in
        let bottom_extent := (1 - pcy mean) * h in
        Some (TopView (mm (0, 0)) (map mm [(- half, - half_y); (half, - half_y); (half, half_y); (- half, half_y)])
          (map mm [corner left_extent top_extent; corner right_extent top_extent; corner right_extent bottom_extent; corner left_extent bottom_extent])
          (mm (p0, p1)) (axis_limit_pad (Rmax w h)))
    | _ => None
    end
  end.
