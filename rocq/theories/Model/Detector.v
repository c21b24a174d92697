(** Model of the EBSD detector geometry.
    Source: /repo/src/kikuchipy/detectors/_ebsd_detector.py (called "det" below) and
    /repo/src/kikuchipy/detectors/_convert_detector_coordinates.py ("conv").
    Floats are real numbers: rounding is not modelled. *)
From Coq Require Import Ascii String.
From Coq Require Import ZArith Reals List Lra.
Import ListNotations.
Open Scope R_scope.

(** One projection center (PC), in whatever convention the context says. *)
Record pc3 := PC { pcx : R; pcy : R; pcz : R }.

(** The PC array: navigation shape and the PCs in C order ([pc] has shape
    [nav_shape + (3,)], det lines 439-462). *)
Record pcarray := PCArray { nav_shape : list nat; pcs : list pc3 }.

(** Detector attributes (det lines 282-319). [d_binning] is the float [_binning]. *)
Record detector := Det {
  d_ny : Z; d_nx : Z;
  d_px_size : R; d_binning : R;
  d_tilt : R; d_azimuthal : R; d_twist : R; d_sample_tilt : R;
  d_pc : pcarray }.

Definition with_pc (d : detector) (p : pcarray) : detector :=
  Det (d_ny d) (d_nx d) (d_px_size d) (d_binning d) (d_tilt d) (d_azimuthal d)
      (d_twist d) (d_sample_tilt d) p.

Definition map_pc (f : pc3 -> pc3) (a : pcarray) : pcarray :=
  PCArray (nav_shape a) (map f (pcs a)).

(** [nrows], [ncols], [aspect_ratio], [height], [width] (det lines 641-711). *)
Definition nrows (d : detector) : R := IZR (d_ny d).
Definition ncols (d : detector) : R := IZR (d_nx d).
Definition aspect_ratio (d : detector) : R := ncols d / nrows d.
Definition height (d : detector) : R := nrows d * d_px_size d * d_binning d.
Definition width (d : detector) : R := ncols d * d_px_size d * d_binning d.
(** [specimen_scintillator_distance] (det lines 721-726). *)
Definition specimen_scintillator_distance (d : detector) (p : pc3) : R := pcz p * height d.

(** ** PC conventions *)

(** Python's [str.lower] on ASCII text. *)
Definition lower_ascii (c : ascii) : ascii :=
  let n := nat_of_ascii c in
  if andb (Nat.leb 65 n) (Nat.leb n 90) then ascii_of_nat (n + 32) else c.
Fixpoint lower (s : string) : string :=
  match s with EmptyString => EmptyString | String c s' => String (lower_ascii c) (lower s') end.

Inductive convention := Bruker | Tsl | Oxford | Emsoft.

(** [PC_CONVENTIONS_ALIASES] and [_get_pc_convention_or_raise] (det lines 86-91,
    2206-2218). [None] is the ValueError. *)
Definition get_pc_convention (s : string) : option convention :=
  let l := lower s in
  if String.eqb l "bruker" then Some Bruker
  else if orb (String.eqb l "tsl") (orb (String.eqb l "edax") (String.eqb l "amatek")) then Some Tsl
  else if orb (String.eqb l "oxford") (String.eqb l "aztec") then Some Oxford
  else if orb (String.eqb l "emsoft") (orb (String.eqb l "emsoft4") (String.eqb l "emsoft5")) then Some Emsoft
  else None.

(** [int(convention[-1])], 5 if that is not a digit (det lines 2243-2246, 2273-2276). *)
Fixpoint last_char (s : string) : option ascii :=
  match s with
  | EmptyString => None
  | String c EmptyString => Some c
  | String _ s' => last_char s'
  end.
Definition emsoft_version (s : string) : nat :=
  match last_char s with
  | Some c => let n := nat_of_ascii c in
              if andb (Nat.leb 48 n) (Nat.leb n 57) then n - 48 else 5
  | None => 5
  end.

(** det lines 2295-2303. *)
Definition pc_emsoft2bruker (version : nat) (d : detector) (p : pc3) : pc3 :=
  let x := if Nat.ltb version 5 then - pcx p else pcx p in
  PC (/2 - x / (ncols d * d_binning d))
     (/2 - pcy p / (nrows d * d_binning d))
     (pcz p / (nrows d * d_binning d * d_px_size d)).

(** det lines 2305-2309. *)
Definition pc_tsl2bruker (d : detector) (p : pc3) : pc3 :=
  PC (pcx p) (1 - pcy p) (pcz p * (Rmin (nrows d) (ncols d) / nrows d)).

(** det lines 2311-2315. *)
Definition pc_oxford2bruker (d : detector) (p : pc3) : pc3 :=
  PC (pcx p) (1 - pcy p * aspect_ratio d) (pcz p * aspect_ratio d).

(** det lines 2317-2324. *)
Definition pc_bruker2emsoft (version : nat) (d : detector) (p : pc3) : pc3 :=
  let x := (/2 - pcx p) * ncols d * d_binning d in
  PC (if Nat.ltb version 5 then - x else x)
     ((/2 - pcy p) * nrows d * d_binning d)
     (pcz p * nrows d * d_binning d * d_px_size d).

(** det lines 2326-2330. *)
Definition pc_bruker2tsl (d : detector) (p : pc3) : pc3 :=
  PC (pcx p) (1 - pcy p) (pcz p / (Rmin (nrows d) (ncols d) / nrows d)).

(** det lines 2332-2336. *)
Definition pc_bruker2oxford (d : detector) (p : pc3) : pc3 :=
  PC (pcx p) ((1 - pcy p) / aspect_ratio d) (pcz p / aspect_ratio d).

(** [_get_pc_in_bruker_convention] for one PC (det lines 2220-2248). *)
Definition to_bruker (conv : string) (d : detector) (p : pc3) : option pc3 :=
  match get_pc_convention conv with
  | None => None
  | Some Tsl => Some (pc_tsl2bruker d p)
  | Some Oxford => Some (pc_oxford2bruker d p)
  | Some Emsoft => Some (pc_emsoft2bruker (emsoft_version conv) d p)
  | Some Bruker => Some p
  end.

(** [_get_pc_in_convention] for one PC (det lines 2250-2279). *)
Definition from_bruker (conv : string) (d : detector) (p : pc3) : option pc3 :=
  match get_pc_convention conv with
  | None => None
  | Some Tsl => Some (pc_bruker2tsl d p)
  | Some Oxford => Some (pc_bruker2oxford d p)
  | Some Emsoft => Some (pc_bruker2emsoft (emsoft_version conv) d p)
  | Some Bruker => Some p
  end.

(** Creating a detector with PCs in a convention: the PCs are stored first, then
    replaced by the converted ones (det lines 298-319, 2338-2341); the conversion works
    on all PCs at once, element-wise. [None]: ValueError. *)
Definition new_detector (ny nx : Z) (px_size binning tilt azimuthal twist sample_tilt : R)
    (pc : pcarray) (conv : string) : option detector :=
  let d := Det ny nx px_size binning tilt azimuthal twist sample_tilt pc in
  match get_pc_convention conv with
  | None => None
  | Some c =>
      let f := match c with
               | Tsl => pc_tsl2bruker d
               | Oxford => pc_oxford2bruker d
               | Emsoft => pc_emsoft2bruker (emsoft_version conv) d
               | Bruker => fun p => p
               end in
      Some (with_pc d (map_pc f pc))
  end.

(** [pc_tsl()], [pc_oxford()], [pc_emsoft(version)], [pc_bruker()] (det lines
    1660-1775) and [_get_pc_in_convention] on the whole array. *)
Definition detector_pc_in (conv : string) (d : detector) : option pcarray :=
  match get_pc_convention conv with
  | None => None
  | Some c =>
      let f := match c with
               | Tsl => pc_bruker2tsl d
               | Oxford => pc_bruker2oxford d
               | Emsoft => pc_bruker2emsoft (emsoft_version conv) d
               | Bruker => fun p => p
               end in
      Some (map_pc f (d_pc d))
  end.

(** ** Gnomonic coordinates *)

(** det lines 730-773. *)
Definition x_min (d : detector) (p : pc3) : R := - aspect_ratio d * (pcx p / pcz p).
Definition x_max (d : detector) (p : pc3) : R := aspect_ratio d * (1 - pcx p) / pcz p.
Definition y_min (d : detector) (p : pc3) : R := - (1 - pcy p) / pcz p.
Definition y_max (d : detector) (p : pc3) : R := pcy p / pcz p.

(** [x_scale], [y_scale] (det lines 784-808). *)
Definition x_scale (d : detector) (p : pc3) : R :=
  if Z.eqb (d_nx d) 1 then x_max d p - x_min d p
  else (x_max d p - x_min d p) / (ncols d - 1).
Definition y_scale (d : detector) (p : pc3) : R :=
  if Z.eqb (d_ny d) 1 then y_max d p - y_min d p
  else (y_max d p - y_min d p) / (nrows d - 1).

(** [r_max] (det lines 820-833). The [atleast_2d] is left out. *)
Definition r_max (d : detector) (p : pc3) : R :=
  let c0 := (x_min d p)^2 + (y_min d p)^2 in
  let c1 := (x_max d p)^2 + (y_min d p)^2 in
  let c2 := (x_max d p)^2 + (y_max d p)^2 in
  let c3 := (x_min d p)^2 + (y_min d p)^2 in
  sqrt (Rmax (Rmax c0 c1) (Rmax c2 c3)).

(** Conversion factors (conv lines 55-85), [bounds] being (0, nx-1, 0, ny-1). *)
Record factors := Factors { m_x : R; c_x : R; m_y : R; c_y : R }.
Definition pix_to_gn (d : detector) (p : pc3) : factors :=
  Factors ((x_max d p - x_min d p) / ((ncols d - 1) + 1)) (x_min d p)
          ((y_min d p - y_max d p) / ((nrows d - 1) + 1)) (y_max d p).
Definition gn_to_pix (d : detector) (p : pc3) : factors :=
  let mx := ((ncols d - 1) + 1) / (x_max d p - x_min d p) in
  let my := ((nrows d - 1) + 1) / (y_min d p - y_max d p) in
  Factors mx (- x_min d p * mx) my (- y_max d p * my).

(** [_convert_coordinates] for one point given as (y, x) (conv lines 184-203). *)
Definition apply_factors (f : factors) (yx : R * R) : R * R :=
  (m_y f * fst yx + c_y f, m_x f * snd yx + c_x f).

(** Coordinates of one PC, for one point: [to_gnomonic_coords], [to_pixel_coords]. *)
Definition to_gnomonic (d : detector) (p : pc3) (yx : R * R) : R * R :=
  apply_factors (pix_to_gn d p) yx.
Definition to_pixel (d : detector) (p : pc3) (yx : R * R) : R * R :=
  apply_factors (gn_to_pix d p) yx.

(** [convert_coordinates] without [pos] (conv lines 122-156), for a 1D navigation
    shape (n,): coordinates of shape (m, 2) are the same for each PC; coordinates of
    shape (n, m, 2) are one set per PC. The result has shape (n, m, 2). For coordinates
    of shape (k, m, 2) with k <> n every PC gets all of them, shape (n, k, m, 2). *)
Inductive coords := Shared (l : list (R * R)) | Stacked (l : list (list (R * R))).
Inductive coords_out := PerPC (l : list (list (R * R))) | PerPCStacked (l : list (list (list (R * R)))).
Definition convert_coordinates (fs : list factors) (c : coords) : coords_out :=
  match c with
  | Shared l => PerPC (map (fun f => map (apply_factors f) l) fs)
  | Stacked ls =>
      if Nat.eqb (length ls) (length fs)
      then PerPC (map (fun fl => map (apply_factors (fst fl)) (snd fl)) (combine fs ls))
      else PerPCStacked (map (fun f => map (map (apply_factors f)) ls) fs)
  end.
Definition to_gnomonic_coords (d : detector) (c : coords) : coords_out :=
  convert_coordinates (map (pix_to_gn d) (pcs (d_pc d))) c.
Definition to_pixel_coords (d : detector) (c : coords) : coords_out :=
  convert_coordinates (map (gn_to_pix d) (pcs (d_pc d))) c.

(** ** Cropping (det lines 986-1032) *)

(** [np.dstack] of the three PC coordinate arrays of shape [nav_shape]: a 1D array of
    length n is treated as (1, n). *)
Definition dstack_shape (nav : list nat) : list nat :=
  match nav with [n] => [1%nat; n] | _ => nav end.

(** Python's [int] of a float. *)
Definition trunc (x : R) : Z := if Rle_dec 0 x then (up x - 1)%Z else (- (up (- x) - 1))%Z.

(** [None]: ValueError. The check that the extent is of integers is left out: the model
    only takes integers. *)
Definition crop (d : detector) (extent : Z * Z * Z * Z) : option detector :=
  let '(top_, bottom_, left_, right_) := extent in
  let top_ := Z.max top_ 0 in
  let bottom_ := Z.min bottom_ (d_ny d) in
  let left_ := Z.max left_ 0 in
  let right_ := Z.min right_ (d_nx d) in
  let ny_new := (bottom_ - top_)%Z in
  let nx_new := (right_ - left_)%Z in
  if orb (Z.leb ny_new 0) (Z.leb nx_new 0) then None
  else
    let f p := PC ((pcx p * ncols d - IZR left_) / IZR nx_new)
                  ((pcy p * nrows d - IZR top_) / IZR ny_new)
                  (pcz p * nrows d / IZR ny_new) in
    Some (Det ny_new nx_new (d_px_size d) (IZR (trunc (d_binning d))) (d_tilt d)
              (d_azimuthal d) 0 (d_sample_tilt d)
              (PCArray (dstack_shape (nav_shape (d_pc d))) (map f (pcs (d_pc d))))).

(** ** Sample-to-detector matrix (det lines 94-149) *)

Record vec := Vec { vx : R; vy : R; vz : R }.
Record mat := Mat { r0 : vec; r1 : vec; r2 : vec }.

Definition norm (v : vec) : R := sqrt (vx v * vx v + vy v * vy v + vz v * vz v).

(** The inner loop body (det lines 133-147): row [v] rotated about the axis [u]. *)
Definition rodrigues (u : vec) (angle : R) (v : vec) : vec :=
  let c := cos angle in
  let s := sin angle in
  let one_minus_c := 1 - c in
  let dot := vx u * vx v + vy u * vy v + vz u * vz v in
  let cx := vy u * vz v - vz u * vy v in
  let cy := vz u * vx v - vx u * vz v in
  let cz := vx u * vy v - vy u * vx v in
  Vec (vx v * c + cx * s + vx u * dot * one_minus_c)
      (vy v * c + cy * s + vy u * dot * one_minus_c)
      (vz v * c + cz * s + vz u * dot * one_minus_c).

Definition row (i : nat) (m : mat) : vec :=
  match i with O => r0 m | S O => r1 m | _ => r2 m end.

(** One pass of the outer loop (det lines 123-147). The axis is copied before the rows
    are overwritten. *)
Definition rotate_basis (m : mat) (ia : nat * R) : mat :=
  let (i, angle) := ia in
  let u := row i m in
  let n := norm u in
  let u' := Vec (vx u / n) (vy u / n) (vz u / n) in
  Mat (rodrigues u' angle (r0 m)) (rodrigues u' angle (r1 m)) (rodrigues u' angle (r2 m)).

Definition sample_to_detector_matrix (sigma theta omega gamma : R) : mat :=
  let basis := Mat (Vec 0 1 0) (Vec 0 0 1) (Vec 1 0 0) in
  fold_left rotate_basis
    [(0%nat, - sigma); (0%nat, theta); (1%nat, - omega); (2%nat, - gamma)] basis.

(** [np.deg2rad], and [sample_to_detector] (det lines 835-845) up to the conversion of
    the matrix to an orix rotation. *)
Definition deg2rad (x : R) : R := x * (PI / 180).
Definition rad2deg (x : R) : R := x * (180 / PI).
Definition sample_to_detector (d : detector) : mat :=
  sample_to_detector_matrix (deg2rad (d_sample_tilt d)) (deg2rad (d_tilt d))
    (deg2rad (d_azimuthal d)) (deg2rad (d_twist d)).

(** ** Extrapolating PCs (det lines 1381-1425) *)

Definition sumR (l : list R) : R := fold_right Rplus 0 l.
Definition meanR (l : list R) : R := sumR l / INR (length l).
Definition mean_pc (l : list pc3) : pc3 :=
  PC (meanR (map pcx l)) (meanR (map pcy l)) (meanR (map pcz l)).

(** [np.round]: to the nearest integer, ties to even. *)
Definition round_half_even (x : R) : Z :=
  let f := (up x - 1)%Z in
  let r := x - IZR f in
  if Rlt_dec r (/2) then f
  else if Rlt_dec (/2) r then (f + 1)%Z
  else if Z.even f then f else (f + 1)%Z.

(** The index of the mean position. [pc_indices] is the array given by the caller as a
    list of rows. It is transposed (line 1382), outliers are dropped along the first
    axis of the transposed array (line 1400), and the mean is taken along axis 1 (line
    1404), i.e. along each row of the transposed array. [inlier] is [None] when no
    outliers are given. *)
Fixpoint transpose (rows : list (list R)) (ncol : nat) : list (list R) :=
  match ncol with
  | O => []
  | S k => map (fun r => hd 0 r) rows :: transpose (map (fun r => tl r) rows) k
  end.
Fixpoint select {A} (m : list bool) (l : list A) : list A :=
  match m, l with
  | b :: m', x :: l' => if b then x :: select m' l' else select m' l'
  | _, _ => []
  end.
Definition pc_indices_mean (pc_indices : list (list R)) (ncol : nat)
    (inlier : option (list bool)) : list Z :=
  let t := transpose pc_indices ncol in
  let t := match inlier with Some m => select m t | None => t end in
  map (fun r => round_half_even (meanR r)) t.

(** The PC at map position (row [y], column [x]) from the mean PC at [ybar], [xbar]. *)
Definition extrapolated_pc (d : detector) (rows cols px_size binning dy dx : R)
    (ybar xbar : Z) (mean : pc3) (y x : R) : pc3 :=
  let alpha := deg2rad (90 - d_sample_tilt d + d_tilt d) in
  let factor := px_size * binning in
  let d_pcx := - (IZR xbar - x) * dx / (factor * cols) in
  let d_pcy := - (IZR ybar - y) * dy * cos alpha / (factor * rows) in
  let d_pcz := (IZR ybar - y) * dy * sin alpha / (factor * rows) in
  PC (pcx mean - d_pcx) (pcy mean - d_pcy) (pcz mean - d_pcz).

(** [extrapolate_pc] with [shape], [px_size], [binning] not given, so that [binning] is
    the integer [self.binning]. [None]: IndexError (fewer than two mean indices). *)
Definition extrapolate_pc (d : detector) (pc_indices : list (list R)) (ncol : nat)
    (inlier : option (list bool)) (ny nx : nat) (dy dx : R) : option (list pc3) :=
  let l := match inlier with Some m => select m (pcs (d_pc d)) | None => pcs (d_pc d) end in
  match pc_indices_mean pc_indices ncol inlier with
  | ybar :: xbar :: _ =>
      Some (flat_map (fun y => map (fun x =>
              extrapolated_pc d (nrows d) (ncols d) (d_px_size d) (IZR (trunc (d_binning d)))
                dy dx ybar xbar (mean_pc l) (INR y) (INR x)) (seq 0 nx)) (seq 0 ny))
  | _ => None
  end.

(** ** Fitting PCs: affine transformation and tilt estimate
    (/repo/src/kikuchipy/detectors/_fit_projection_center.py lines 81-129, 178-208 and
    det lines 1560-1576) *)

(** [scipy.stats.linregress(x, y).slope]: covariance over variance of x. *)
Definition cov (xs ys : list R) : R :=
  sumR (map (fun xy => (fst xy - meanR xs) * (snd xy - meanR ys)) (combine xs ys)).
Definition slope (xs ys : list R) : R := cov xs ys / cov xs xs.

(** x tilt in radians from fitted PCs (fit lines 120-122); also [estimate_xtilt_linear]
    (fit lines 195-208), whose ordinary least squares slope is the same. *)
Definition x_tilt (fit : list pc3) : R := PI / 2 + atan (slope (map pcz fit) (map pcy fit)).

(** [new_detector.sample_tilt] of [fit_pc] (det line 1575). *)
Definition fitted_sample_tilt (d : detector) (fit : list pc3) : R :=
  90 - rad2deg (x_tilt fit) - d_tilt d.

(** Least squares fit of an affine map from (row, column) to one PC coordinate: row i of
    the design matrix is (row_i, column_i, 1) (fit lines 93-94, 178-192). [lstsq] returns
    some minimiser of the sum of squared residuals. *)
Record affine := Affine { a_y : R; a_x : R; a_1 : R }.
Definition affine_at (a : affine) (p : R * R) : R := fst p * a_y a + snd p * a_x a + a_1 a.
Definition residual (a : affine) (pts : list (R * R)) (ys : list R) : R :=
  sumR (map (fun py => (affine_at a (fst py) - snd py)^2) (combine pts ys)).
Definition lstsq (pts : list (R * R)) (ys : list R) (a : affine) : Prop :=
  forall b, residual a pts ys <= residual b pts ys.
