(** Geometrical Kikuchi pattern simulation: KikuchiPatternSimulator.on_detector
    (simulations/kikuchi_pattern_simulator.py 217-380), Kikuchi lines and zone axes
    (simulations/_kikuchi_pattern_features.py), their coordinates
    (simulations/_kikuchi_pattern_simulation.py), and the function behind the interactive detector plot
    (simulations/_geometrical_simulation.py).

    Simplifications: real numbers; "np.max" of the (non-negative) radii is a fold from 0; navigation positions are flattened, in C order; None stands for NaN;
    dask, progress bars and numba's compilation are left out.  Facts about other libraries:
    "Rotation.to_matrix" (orix) is [to_matrix]; "lattice.recbase" (diffpy) is the inverse of "lattice.base",
    whose rows are the lattice vectors; "Vector3d.polar" and "Vector3d.azimuth" (orix) are the usual
    spherical angles; the conversion of the sample-to-detector matrix to an orix rotation and back is exact. *)
From Coq Require Import List Arith ZArith Reals Bool.
From Verif Require Import Model.Detector Model.Rotations Model.Simulation.
Import ListNotations.
Local Open Scope R_scope.

(** A triplet of integers (hkl) or [uvw]. *)
Record index := Index { i1 : Z; i2 : Z; i3 : Z }.
Definition index_eqb (a b : index) : bool := (i1 a =? i1 b)%Z && (i2 a =? i2 b)%Z && (i3 a =? i3 b)%Z.
Definition row_of (i : index) : vec := Vec (IZR (i1 i)) (IZR (i2 i)) (IZR (i3 i)).

(** da.matmul, "@" *)
Definition matmul (a b : mat) : mat := Mat (row_times (r0 a) b) (row_times (r1 a) b) (row_times (r2 a) b).

(** Rotation.to_matrix (orix) *)
Definition to_matrix (q : quat) : mat :=
  let (a, b, c, d) := q in
  Mat (Vec (a*a + b*b - c*c - d*d) (2 * (b*c - a*d)) (2 * (b*d + a*c)))
      (Vec (2 * (b*c + a*d)) (a*a - b*b + c*c - d*d) (2 * (c*d - a*b)))
      (Vec (2 * (b*d - a*c)) (2 * (c*d + a*b)) (a*a - b*b - c*c + d*d)).

(** lattice.recbase.T: rows are the reciprocal lattice vectors *)
Definition cross_rows (u v : vec) : vec :=
  Vec (vy u * vz v - vz u * vy v) (vz u * vx v - vx u * vz v) (vx u * vy v - vy u * vx v).
Definition volume (base : mat) : R :=
  let c := cross_rows (r1 base) (r2 base) in vx (r0 base) * vx c + vy (r0 base) * vy c + vz (r0 base) * vz c.
Definition over (k : R) (v : vec) : vec := Vec (vx v / k) (vy v / k) (vz v / k).
Definition recbase_t (base : mat) : mat :=
  Mat (over (volume base) (cross_rows (r1 base) (r2 base)))
      (over (volume base) (cross_rows (r2 base) (r0 base)))
      (over (volume base) (cross_rows (r0 base) (r1 base))).

(** Crystal -> sample -> detector (kikuchi_pattern_simulator.py 259-264; _geometrical_simulation.py 174-178) *)
Definition u_os (d : detector) (q : quat) : mat := matmul (to_matrix q) (transposed (sample_to_detector d)).
(** {hkl} and <uvw> on the detector (266-273, 299-306) *)
Definition hkl_d (base : mat) (d : detector) (q : quat) (h : index) : vec :=
  row_times (row_of h) (matmul (recbase_t base) (u_os d q)).
Definition uvw_d (base : mat) (d : detector) (q : quat) (u : index) : vec :=
  row_times (row_of u) (matmul base (u_os d q)).

(** ** Kikuchi lines (_kikuchi_pattern_features.py) *)

Definition rho (v : vec) : R := sqrt (vx v * vx v + vy v * vy v).
(** Vector3d.polar, Vector3d.azimuth *)
Definition polar (v : vec) : R := acos (vz v / norm v).
Definition azimuth (v : vec) : R :=
  if Rle_dec 0 (vy v) then acos (vx v / rho v) else 2 * PI - acos (vx v / rho v).

Definition point := (R * R)%type.
Definition segment := (point * point)%type.
Definition rltb (a b : R) : bool := if Rlt_dec a b then true else false.
Definition rleb (a b : R) : bool := if Rle_dec a b then true else false.

(** KikuchiPatternLine (54-102).  For a vector along the detector normal, and for the zero vector,
    "tan(0.5 * pi - polar)" is not a number in the reals; the double 1.6e16, or NaN, is not less than
    "max_r_gnomonic". *)
Definition line (max_r : R) (v : vec) : option segment :=
  if Req_EM_T (rho v) 0 then None
  else
    let hesse_distance := tan (0.5 * PI - polar v) in
    if rltb (Rabs hesse_distance) max_r && rltb (-1/100000) (vz v) then
      let hesse_alpha := acos (hesse_distance / max_r) in
      let a1 := azimuth v - PI + hesse_alpha in
      let a2 := azimuth v - PI - hesse_alpha in
      Some ((max_r * cos a1, max_r * sin a1), (max_r * cos a2, max_r * sin a2))
    else None.

(** KikuchiPatternZoneAxis (105-128); the division by a z of 0 gives infinities or NaN. *)
Definition zone_axis (max_r : R) (v : vec) : option point :=
  if Req_EM_T (vz v) 0 then None
  else
    let x := vx v / vz v in
    let y := vy v / vz v in
    if rltb (sqrt (x ^ 2 + y ^ 2)) max_r && rltb (-1/100000) (vz v) then Some (x, y) else None.

(** ** Pixel coordinates (_kikuchi_pattern_simulation.py 468-534) *)

Definition pixel (d : detector) (p : pc3) (c : point) : point :=
  ((fst c + (pcx p / pcz p) * aspect_ratio d) / x_scale d p, (- snd c + pcy p / pcz p) / y_scale d p).
(** Gnomonic bounds extended by one pixel (509-530, and on_detector 312-333) *)
Definition within_bounds (d : detector) (p : pc3) (c : point) : bool :=
  rleb (x_min d p - x_scale d p) (fst c) && rleb (fst c) (x_max d p + x_scale d p) &&
  rleb (y_min d p - y_scale d p) (snd c) && rleb (snd c) (y_max d p + y_scale d p).

Definition line_pixels (d : detector) (p : pc3) (l : option segment) : option segment :=
  option_map (fun s => (pixel d p (fst s), pixel d p (snd s))) l.
(** A NaN is not within any bounds. *)
Definition zone_axis_pixels (d : detector) (p : pc3) (c : option point) : option point :=
  match c with
  | Some c => if within_bounds d p c then Some (pixel d p c) else None
  | None => None
  end.

(** ** on_detector *)

(** The rotation and PC of each pattern: one common PC for the navigation shape (1,), by broadcasting *)
Definition views (d : detector) (rotations : list quat) : list (quat * pc3) :=
  match nav_shape (d_pc d), pcs (d_pc d) with
  | [1%nat], p :: _ => map (fun q => (q, p)) rotations
  | _, ps => combine rotations ps
  end.

Definition cross_index (a b : index) : index :=
  Index (i2 a * i3 b - i3 a * i2 b) (i3 a * i1 b - i1 a * i3 b) (i1 a * i2 b - i2 a * i1 b).
(** Pairwise cross products without [000] *)
Definition cross_products (hkl : list index) : list index :=
  filter (fun u => negb (index_eqb u (Index 0 0 0))) (flat_map (fun a => map (cross_index a) hkl) hkl).
Fixpoint unique (l : list index) : list index :=
  match l with
  | [] => []
  | a :: r => if existsb (index_eqb a) r then unique r else a :: unique r
  end.

Definition direction_xy (v : vec) : point := (vx v / vz v, vy v / vz v).

Record simulation := Simulation {
  visible : list index;  (* "reflectors" *)
  zones : list index;
  lines_gnomonic : list (list (option segment));   (* pattern, visible reflector *)
  lines_pixel : list (list (option segment));
  zones_gnomonic : list (list (option point));     (* pattern, zone axis *)
  zones_pixel : list (list (option point))
}.

(** on_detector (217-380), GeometricalKikuchiPatternSimulation.__init__ (68-83).  None: ValueError.
    [reduce]: "uvw_miller.round()", which gives the smallest integers with this direction (orix).  The
    order of "uvw_miller.unique()" (orix) is not modelled: here, that of the last occurrences.
    For a vector with z = 0 the comparisons with the bounds are of infinities or NaN, hence False. *)
Definition on_detector (reduce : index -> index) (base : mat) (reflectors : list index) (d : detector)
    (rot_shape : list nat) (rotations : list quat) : option simulation :=
  let det_shape := nav_shape (d_pc d) in
  if (negb (if list_eq_dec Nat.eq_dec det_shape [1%nat] then true else false) &&
      negb (if list_eq_dec Nat.eq_dec det_shape rot_shape then true else false))%bool then None
  else
    let hkl_in_a_pattern := fun h => existsb (fun q => rltb 0 (vz (hkl_d base d q h))) rotations in
    let visible_reflectors := filter hkl_in_a_pattern reflectors in
    let uvw := unique (map reduce (cross_products visible_reflectors)) in
    let vs := views d rotations in
    let uvw_in_a_pattern := fun u =>
      (existsb (fun q => rltb 0 (vz (uvw_d base d q u))) rotations &&
       existsb (fun qp =>
           let v := uvw_d base d (fst qp) u in
           if Req_EM_T (vz v) 0 then false else within_bounds d (snd qp) (direction_xy v)) vs)%bool in
    let zone_axes := filter uvw_in_a_pattern uvw in
    let max_r := fold_right Rmax 0 (map (r_max d) (pcs (d_pc d))) in
    let lines_gn := map (fun qp => map (fun h => line max_r (hkl_d base d (fst qp) h)) visible_reflectors) vs in
    let zones_gn := map (fun qp => map (fun u => zone_axis max_r (uvw_d base d (fst qp) u)) zone_axes) vs in
    Some (Simulation visible_reflectors zone_axes
            lines_gn (map (fun qpl => map (line_pixels d (snd (fst qpl))) (snd qpl)) (combine vs lines_gn))
            zones_gn (map (fun qpl => map (zone_axis_pixels d (snd (fst qpl))) (snd qpl)) (combine vs zones_gn))).

(** lines_coordinates and zone_axes_coordinates (280-321, 423-464) of pattern [i], without NaN
    ("exclude_nan=True"); None: IndexError.  *)
Inductive coordinates := InPixels | Gnomonic.
Definition exclude_nan {A} (l : list (option A)) : list A :=
  flat_map (fun o => match o with Some a => [a] | None => [] end) l.
Definition lines_coordinates (s : simulation) (i : nat) (c : coordinates) : option (list segment) :=
  option_map exclude_nan (nth_error (match c with InPixels => lines_pixel s | Gnomonic => lines_gnomonic s end) i).
Definition zone_axes_coordinates (s : simulation) (i : nat) (c : coordinates) : option (list point) :=
  option_map exclude_nan (nth_error (match c with InPixels => zones_pixel s | Gnomonic => zones_gnomonic s end) i).

(** Markers of 2D navigation shapes (nr, nc): the marker at HyperSpy position (x, y) (620-635, 671-685) *)
Definition marker_index (nc x y : nat) : nat := y * nc + x.
Definition lines_marker (s : simulation) (nc x y : nat) : option (list segment) :=
  option_map exclude_nan (nth_error (lines_pixel s) (marker_index nc x y)).
(** Offset of the PC marker (648-669) *)
Definition pc_marker (d : detector) (p : pc3) : point :=
  (if Z.ltb 1 (d_nx d) then pcx p * (ncols d - 1) else pcx p, if Z.ltb 1 (d_ny d) then pcy p * (nrows d - 1) else pcy p).

(** ** Interactive detector plot (_geometrical_simulation.py) *)

(** np.arctan2 *)
Definition arctan2 (y x : R) : R :=
  let r := sqrt (x * x + y * y) in if Rle_dec 0 y then acos (x / r) else - acos (x / r).

(** The first loop of _bands_and_zone_axes_kernel (62-85) *)
Definition band (max_r : R) (v : vec) : list segment :=
  if Rlt_dec (vz v) 0 then []
  else
    let xy_norm := sqrt (vx v * vx v + vy v * vy v) in
    if Req_EM_T xy_norm 0 then []
    else
      let hesse := vz v / xy_norm in
      if Rle_dec max_r (Rabs hesse) then []
      else
        let alpha := acos (hesse / max_r) in
        let az := arctan2 (vy v) (vx v) - PI in
        [((max_r * cos (az + alpha), max_r * sin (az + alpha)), (max_r * cos (az - alpha), max_r * sin (az - alpha)))].
(** The second loop (88-103) *)
Definition zone (max_r : R) (v : vec) : list point :=
  if Rle_dec (vz v) 0 then []
  else
    let xg := vx v / vz v in
    let yg := vy v / vz v in
    if Rle_dec max_r (sqrt (xg * xg + yg * yg)) then [] else [(xg, yg)].

(** _get_zone_axes_from_hkl (108-125), for integers; np.unique also sorts. *)
Definition zone_axes_from_hkl (hkl : list index) : list index := unique (cross_products hkl).

(** _get_geometrical_simulation (128-264) for a detector with one PC and one rotation *)
Definition geometrical_simulation (base : mat) (reflectors : list index) (d : detector) (p : pc3) (q : quat)
    (c : coordinates) : list segment * list point :=
  let max_r := r_max d p in
  let bands := flat_map (fun h => band max_r (hkl_d base d q h)) reflectors in
  let za := flat_map (fun u => zone max_r (uvw_d base d q u)) (zone_axes_from_hkl reflectors) in
  let within := filter (within_bounds d p) za in
  match c with
  | Gnomonic => (bands, within)
  | InPixels => (map (fun s => (pixel d p (fst s), pixel d p (snd s))) bands, map (pixel d p) within)
  end.
