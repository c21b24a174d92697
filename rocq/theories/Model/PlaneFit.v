(** Fitting a plane to projection centers (PCs): _fit_projection_center.py lines 41-175 (here "fit"),
    and estimate_xtilt, estimate_xtilt_ztilt and fit_pc (detectors/_ebsd_detector.py lines 1110-1313 and
    1450-1596, here "det").

    Simplifications: real numbers.  The singular value decomposition and the estimate of a projective
    transformation are not computed: the direction and the matrix they return are arguments, and what is
    known about them is stated in Spec/PlaneSpec.v.  Log messages, warnings and plots are left out, as
    is the estimate with detection of outliers (RANSAC). *)
From Coq Require Import List Arith ZArith Reals.
From Verif Require Import Model.Detector Model.Rotations.
Import ListNotations.
Local Open Scope R_scope.

Definition vadd (u v : vec) : vec := Vec (vx u + vx v) (vy u + vy v) (vz u + vz v).
Definition vsub (u v : vec) : vec := Vec (vx u - vx v) (vy u - vy v) (vz u - vz v).
Definition vneg (v : vec) : vec := Vec (- vx v) (- vy v) (- vz v).
Definition vec_of (p : pc3) : vec := Vec (pcx p) (pcy p) (pcz p).
Definition pc_of (v : vec) : pc3 := PC (vx v) (vy v) (vz v).

(** scipy.stats.trim_mean(a, proportiontocut=0.1) of one column: int(0.1 * n) of the smallest and as many
    of the largest values are left out.  (0.1 * n is not below n / 10 in doubles, so that its integer part
    is the quotient.) *)
Fixpoint insert (x : R) (l : list R) : list R :=
  match l with [] => [x] | y :: r => if Rle_dec x y then x :: l else y :: insert x r end.
Fixpoint sort (l : list R) : list R := match l with [] => [] | x :: r => insert x (sort r) end.
Definition trim_mean (a : list R) : R :=
  let n := length a in
  let lowercut := (n / 10)%nat in
  let uppercut := (n - lowercut)%nat in
  meanR (skipn lowercut (firstn uppercut (sort a))).
(** ... along axis 0 of an array with three columns *)
Definition trim_mean3 (l : list vec) : vec := Vec (trim_mean (map vx l)) (trim_mean (map vy l)) (trim_mean (map vz l)).
(** pc.mean(axis=0) *)
Definition mean3 (l : list vec) : vec := Vec (meanR (map vx l)) (meanR (map vy l)) (meanR (map vz l)).

(** np.arctan2(y, x) *)
Definition atan2 (y x : R) : R :=
  if Rlt_dec 0 x then atan (y / x)
  else if Rlt_dec x 0 then if Rle_dec 0 y then atan (y / x) + PI else atan (y / x) - PI
  else if Rlt_dec 0 y then PI / 2
  else if Rlt_dec y 0 then - (PI / 2)
  else 0.

(** orix Rotation.from_axes_angles of a unit axis; products with vectors are [rotate_vector] (active) *)
Definition from_axes_angles (u : vec) (angle : R) : quat :=
  Quat (cos (angle / 2)) (sin (angle / 2) * vx u) (sin (angle / 2) * vy u) (sin (angle / 2) * vz u).
(** orix Quaternion.__mul__ and __invert__ of unit quaternions *)
Definition qmul (p q : quat) : quat :=
  Quat (qa p * qa q - qb p * qb q - qc p * qc q - qd p * qd q)
       (qa p * qb q + qb p * qa q + qc p * qd q - qd p * qc q)
       (qa p * qc q - qb p * qd q + qc p * qa q + qd p * qb q)
       (qa p * qd q + qb p * qc q - qc p * qb q + qd p * qa q).
Definition qinv (q : quat) : quat := Quat (qa q) (- qb q) (- qc q) (- qd q).

(** fit_hyperplane (fit 41-78).  [svd l] is the third row of the matrix vh of the array with the rows [l];
    with fewer than three rows vh is not square and np.linalg.det(vh) raises LinAlgError (None).
    [trimmed] has the rows of the decomposed array. *)
Record hyperplane := Hyperplane { h_xtilt : R; h_ztilt : R; h_rot : quat; h_mean : vec }.
Definition trimmed (pc_centered : list vec) : list vec :=
  map (fun p => vsub p (trim_mean3 pc_centered)) pc_centered.
(** sample_normal (fit 57-62) *)
Definition sample_normal (v : vec) : vec :=
  let u := Vec (vx v / norm v) (vy v / norm v) (vz v / norm v) in
  if Rlt_dec (vz u) 0 then vneg u else u.
Definition fit_hyperplane (svd : list vec -> vec) (pc_centered : list vec) : option hyperplane :=
  if (length pc_centered <? 3)%nat then None
  else
    let n := sample_normal (svd (trimmed pc_centered)) in
    let x_tilt := acos (vz n) in
    let z_tilt := PI / 2 - atan2 (vy n) (vx n) in
    let rot_xtilt := from_axes_angles (Vec 1 0 0) (- x_tilt) in
    let rot_ztilt := from_axes_angles (Vec 0 0 1) (- z_tilt) in
    Some (Hyperplane x_tilt z_tilt (qmul rot_ztilt rot_xtilt) (trim_mean3 pc_centered)).

(** estimate_xtilt (det 1203-1240) with plot=False and detect_outliers=False: LinearRegression of PCz
    vs. PCy.  None: ValueError.  (With all PCz equal the slope is 0, which [slope] returns as well.) *)
Definition estimate_xtilt (degrees : bool) (pcs : list pc3) : option R :=
  if (length pcs =? 1)%nat then None
  else Some (if degrees then rad2deg (x_tilt pcs) else x_tilt pcs).

(** estimate_xtilt_ztilt (det 1288-1313).  A mask is either an array or a list; only an array is used. *)
Inductive outliers := NoMask | ArrayMask (m : list bool) | ListMask (m : list bool).
Definition used_pcs (is_outlier : outliers) (pcs : list pc3) : list pc3 :=
  match is_outlier with ArrayMask m => select (map negb m) pcs | _ => pcs end.
Definition centered (l : list vec) : list vec := map (fun p => vsub p (mean3 l)) l.
Definition estimate_xtilt_ztilt (svd : list vec -> vec) (degrees : bool) (is_outlier : outliers) (pcs : list pc3)
    : option (R * R) :=
  if (length pcs =? 1)%nat then None
  else
    match fit_hyperplane svd (centered (map vec_of (used_pcs is_outlier pcs))) with
    | Some h => Some (if degrees then (rad2deg (h_xtilt h), rad2deg (h_ztilt h)) else (h_xtilt h, h_ztilt h))
    | None => None
    end.

(** np.dot(indices, matrix) with a column of ones and matrix = params.T (fit 93-94, 147, 175): the product
    of the parameters and the vector (row, column, 1); division by the third component (fit 148).
    None: inf or nan. *)
Definition dot3 (u v : vec) : R := vx u * vx v + vy u * vy v + vz u * vz v.
Definition project (params : mat) (i : R * R) : option (R * R) :=
  let h := Vec (fst i) (snd i) 1 in
  let w := dot3 (r2 params) h in
  if Req_EM_T w 0 then None else Some (dot3 (r0 params) h / w, dot3 (r1 params) h / w).

(** fit_pc_projective (fit 132-160); [estimate src dst] are the parameters of the projective
    transformation.  None: an error in fit_hyperplane. *)
Definition plane_coordinates (h : hyperplane) (p : vec) : R * R :=
  let v := rotate_vector (qinv (h_rot h)) (vsub p (h_mean h)) in (vx v, vy v).
Definition back (h : hyperplane) (c : R * R) : vec :=
  vadd (rotate_vector (h_rot h) (Vec (fst c) (snd c) 0)) (h_mean h).
Definition fit_pc_projective (svd : list vec -> vec) (estimate : list (R * R) -> list (R * R) -> mat)
    (pc_centered : list vec) (pc_indices map_indices : list (R * R)) : option (list (option vec) * list (option vec)) :=
  match fit_hyperplane svd pc_centered with
  | None => None
  | Some h =>
      let matrix := estimate pc_indices (map (plane_coordinates h) pc_centered) in
      let fit i := option_map (back h) (project matrix i) in
      Some (map fit pc_indices, map fit map_indices)
  end.

(** fit_plane_to_pc (fit 81-129) with transformation="projective": the fitted PCs, those of the map, and
    the x tilt.  None: an error, or a fitted PC which is not a number; scipy's linregress raises ValueError
    if all fitted PCz are equal. *)
Fixpoint all_some {A} (l : list (option A)) : option (list A) :=
  match l with
  | [] => Some []
  | None :: _ => None
  | Some a :: r => option_map (cons a) (all_some r)
  end.
Definition all_equal (l : list R) : bool :=
  forallb (fun x => if Req_EM_T x (hd 0 l) then true else false) l.
Definition fit_plane_to_pc (svd : list vec -> vec) (estimate : list (R * R) -> list (R * R) -> mat)
    (pcs : list pc3) (pc_indices map_indices : list (R * R)) (is_outlier : option (list bool))
    : option (list pc3 * list pc3 * R) :=
  let keep {A} (l : list A) := match is_outlier with Some m => select (map negb m) l | None => l end in
  let pc_flat := map vec_of (keep pcs) in
  let pc_indices := keep pc_indices in
  let average := mean3 pc_flat in
  match fit_pc_projective svd estimate (centered pc_flat) pc_indices map_indices with
  | None => None
  | Some (fit, fit_map) =>
      match all_some fit, all_some fit_map with
      | Some fit, Some fit_map =>
          let shift := map (fun v => pc_of (vadd v average)) in
          if all_equal (map pcz (shift fit)) then None
          else Some (shift fit, shift fit_map, x_tilt (shift fit))
      | _, _ => None
      end
  end.

(** fit_pc (det 1527-1576): the new PCs and the new sample tilt of the detector.  Arrays of map indices are
    flattened, so that the number of dimensions is not checked here.  None: ValueError. *)
Definition fit_pc (svd : list vec -> vec) (estimate : list (R * R) -> list (R * R) -> mat) (d : detector)
    (pc_indices map_indices : list (R * R)) (is_outlier : option (list bool)) : option (list pc3 * R) :=
  let l := pcs (d_pc d) in
  if (length l =? 1)%nat then None
  else if negb (length pc_indices =? length l)%nat then None
  else if match is_outlier with Some m => negb (length m =? length l)%nat | None => false end then None
  else
    match fit_plane_to_pc svd estimate l pc_indices map_indices is_outlier with
    | Some (fit, fit_map, _) => Some (fit_map, fitted_sample_tilt d fit)
    | None => None
    end.
