(** Kinematical intensity of a direction: the sum of the intensities of the Kikuchi bands it lies in.
    Independent of the model, apart from the type of vectors. *)
From Coq Require Import List Reals.
From Verif Require Import Model.Detector Spec.Euler.
Import ListNotations.
Local Open Scope R_scope.

(** A lattice plane: its normal (of any length), its Bragg angle and its intensity. *)
Record plane := Plane { normal : vec; bragg : R; strength : R }.
Definition length3 (v : vec) : R := sqrt (dot3 v v).
(** Sine of the angle of the direction v (a unit vector) above the plane *)
Definition elevation (p : plane) (v : vec) : R := dot3 (normal p) v / length3 (normal p).
(** v makes an angle of at most the Bragg angle with the plane. *)
Definition in_band (p : plane) (v : vec) : Prop := Rabs (elevation p v) <= sin (bragg p).
Definition in_band_dec (p : plane) (v : vec) : {in_band p v} + {~ in_band p v} := Rle_dec _ _.

Definition total (l : list R) : R := fold_right Rplus 0 l.
Definition band_intensity (planes : list plane) (v : vec) : R :=
  total (map (fun p => if in_band_dec p v then strength p else 0) planes).

Definition negated (v : vec) : vec := Vec (- vx v) (- vy v) (- vz v).
(** The same plane seen from its other side: reflector (-h -k -l) of reflector (hkl) *)
Definition other_side (p : plane) : plane := Plane (negated (normal p)) (bragg p) (strength p).

(** Bragg angles of planes which are resolved: bands wider than the tolerance of 1e-7 *)
Definition proper (p : plane) : Prop := normal p <> Vec 0 0 0 /\ / 10000000 <= sin (bragg p) /\ 0 < bragg p < PI / 2.

(** Stereographic projection of a direction from the south pole (upper hemisphere inside the unit circle)
    and from the north pole *)
Definition from_south (v : vec) : R * R := (vx v / (1 + vz v), vy v / (1 + vz v)).
Definition from_north (v : vec) : R * R := (vx v / (1 - vz v), vy v / (1 - vz v)).
