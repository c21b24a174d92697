(** Kikuchi bands and zone axes: what is seen where on the detector. *)
From Coq Require Import Reals ZArith List.
From Verif Require Import Model.Detector Model.Rotations Spec.Euler.
Local Open Scope R_scope.

Definition times (m : mat) (v : vec) : vec := Vec (dot3 (r0 m) v) (dot3 (r1 m) v) (dot3 (r2 m) v).

(** [v] is a direction, in the crystal's Cartesian reference frame, seen at the gnomonic coordinates (x, y)
    (to the right and upwards from the PC, in units of the distance to the detector) in the pattern with
    orientation [q]: an electron leaving the sample in the direction w, given in the sample's reference
    frame, hits the detector there, and the orientation takes w to v. *)
Definition seen_at (d : detector) (q : quat) (x y : R) (v : vec) : Prop :=
  exists w, times (sample_to_detector d) w = Vec x y 1 /\ v = rotate_vector q w.

(** [g] is the reciprocal lattice vector h a* + k b* + l c* of the crystal with lattice vectors
    a, b, c (the rows of [base]). *)
Definition reciprocal_vector (base : mat) (h k l : R) (g : vec) : Prop :=
  dot3 g (r0 base) = h /\ dot3 g (r1 base) = k /\ dot3 g (r2 base) = l.

(** The lattice plane (hkl), extended from the source point, cuts the detector plane at (x, y). *)
Definition on_trace (base : mat) (d : detector) (q : quat) (h k l : R) (x y : R) : Prop :=
  exists g v, reciprocal_vector base h k l g /\ seen_at d q x y v /\ dot3 g v = 0.

(** The lattice direction u a + v b + w c is seen at (x, y): it points there. *)
Definition lattice_direction (base : mat) (u v w : R) : vec :=
  Vec (u * vx (r0 base) + v * vx (r1 base) + w * vx (r2 base))
      (u * vy (r0 base) + v * vy (r1 base) + w * vy (r2 base))
      (u * vz (r0 base) + v * vz (r1 base) + w * vz (r2 base)).
Definition direction_seen_at (base : mat) (d : detector) (q : quat) (u v w : R) (x y : R) : Prop :=
  exists k, 0 < k /\ seen_at d q x y
    (let t := lattice_direction base u v w in Vec (k * vx t) (k * vy t) (k * vz t)).

Definition unit_quaternion (q : quat) : Prop := qa q * qa q + qb q * qb q + qc q * qc q + qd q * qd q = 1.
(** The lattice vectors are not in one plane. *)
Definition proper_lattice (base : mat) : Prop := dot3 (r0 base) (cross3 (r1 base) (r2 base)) <> 0.
