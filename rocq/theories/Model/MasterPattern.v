(** Master pattern signals: conversion to the Lambert projection, choice of energy and hemispheres
    (signals/_kikuchi_master_pattern.py) and fitness for projection
    (signals/ebsd_master_pattern.py 328-373).

    Simplifications: real numbers; navigation axes are hemisphere and energy, in this order in the array, both
    optional; images are functions of row and column with [size] rows and columns; of the phase, only
    the point group's inversion is kept.  Facts about other libraries: "StereographicProjection().vector2xy" (orix) is
    [vector2xy]; indexing an axis by a float (HyperSpy) gives the position of a closest value, and an error
    outside of the axis; the interpolation of SciPy ("interpn", spline) is any function of the values and the
    coordinates. *)
From Coq Require Import List Arith ZArith Reals Bool String.
From Verif Require Import Model.Detector Model.Lambert.
Import ListNotations.
Local Open Scope R_scope.

Definition image := nat -> nat -> R.

(** [patterns]: hemispheres (one or two), for each its energies (one if there is no energy axis) *)
Record master_signal := MasterSignal {
  patterns : list (list image); size : nat; energy_axis : option (list R);
  hemisphere : string; projection : string; lazy : bool; point_group_inversion : option bool }.

(** ** as_lambert (135-205) *)

(** np.linspace(-1, 1, n)[k] *)
Definition linspace (n k : nat) : R := -1 + INR k * (2 / INR (n - 1)).
(** StereographicProjection().vector2xy (orix) *)
Definition vector2xy (v : vec) : R * R := (vx v / (1 + vz v), vy v / (1 + vz v)).

Section AsLambert.
(** interpn(points, values, xi): size, values, and the coordinates along rows and columns *)
Variable interpn : nat -> image -> R * R -> R.
(** Coordinates in the stereographic projection of the pixel at row and column (162-180) *)
Definition xi (n row col : nat) : R * R :=
  let v := lambert2vector (linspace n col) (linspace n row) in
  let (x_stereo, y_stereo) := vector2xy v in
  (y_stereo + 1, x_stereo + 1).
Definition as_lambert (s : master_signal) : option master_signal :=
  if (projection s =? "lambert")%string then Some s
  else if lazy s then None
  else
    Some (MasterSignal (map (map (fun values row col => interpn (size s) values (xi (size s) row col))) (patterns s))
            (size s) (energy_axis s) (hemisphere s) "lambert" false (point_group_inversion s)).
End AsLambert.

(** ** _get_master_pattern_arrays_from_energy (314-345) *)

(** Position of a closest value on the axis; None outside of the axis *)
Fixpoint closest (axis : list R) (e : R) : nat :=
  match axis with
  | [] => 0
  | [_] => 0
  | a :: rest =>
      let k := closest rest e in
      if Rle_dec (Rabs (a - e)) (Rabs (nth k rest 0 - e)) then 0 else S k
  end.
Definition low (axis : list R) : R := fold_right Rmin (hd 0 axis) axis.
Definition high (axis : list R) : R := fold_right Rmax (hd 0 axis) axis.
Definition value2index (axis : list R) (e : R) : option nat :=
  if Rle_dec (low axis) e then if Rle_dec e (high axis) then Some (closest axis e) else None else None.

Definition arrays_from_energy (s : master_signal) (energy : option R) : option (image * image) :=
  let k :=
    match energy_axis s with
    | Some axis => value2index axis (match energy with Some e => e | None => last axis 0 end)
    | None => Some 0%nat
    end in
  match k with
  | None => None
  | Some k =>
      let master_patterns := map (fun l => nth k l (fun _ _ => 0)) (patterns s) in
      if (hemisphere s =? "both")%string then
        match master_patterns with [upper; lower] => Some (upper, lower) | _ => None end
      else match master_patterns with [m] => Some (m, m) | _ => None end
  end.

(** ** _is_suitable_for_projection (ebsd_master_pattern.py 328-373) *)
Definition suitable (s : master_signal) : bool :=
  (projection s =? "lambert")%string &&
  match point_group_inversion s with
  | None => false
  | Some inversion => (hemisphere s =? "both")%string || inversion
  end.

(** Intensity of a direction in a pattern simulated from the master pattern (get_patterns,
    ebsd_master_pattern.py 190, 248-253, and Model/Lambert.v) *)
Definition simulated_pixel (s : master_signal) (energy : option R) (v : vec) : option R :=
  if suitable s then
    match arrays_from_energy s energy with
    | Some (upper, lower) =>
        Some (pixel_from_master_pattern (fun r c => upper (Z.to_nat r) (Z.to_nat c)) (fun r c => lower (Z.to_nat r) (Z.to_nat c)) (Z.of_nat (size s)) v)
    | None => None
    end
  else None.
