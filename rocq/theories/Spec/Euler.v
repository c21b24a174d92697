(** Rotations in the Bunge convention. *)
From Coq Require Import Reals.
From Verif Require Import Model.Detector.
Local Open Scope R_scope.

Definition dot3 (u v : vec) : R := vx u * vx v + vy u * vy v + vz u * vz v.
Definition cross3 (u v : vec) : vec :=
  Vec (vy u * vz v - vz u * vy v) (vz u * vx v - vx u * vz v) (vx u * vy v - vy u * vx v).

(** Change of coordinates by turning the axes: about the third axis, and about the first. *)
Definition turn_z (angle : R) (v : vec) : vec :=
  Vec (cos angle * vx v + sin angle * vy v) (- sin angle * vx v + cos angle * vy v) (vz v).
Definition turn_x (angle : R) (v : vec) : vec :=
  Vec (vx v) (cos angle * vy v + sin angle * vz v) (- sin angle * vy v + cos angle * vz v).
(** Bunge Euler angles: first phi1 about z, then Phi about the new x, then phi2 about the new z. *)
Definition bunge (phi1 Phi phi2 : R) (v : vec) : vec := turn_z phi2 (turn_x Phi (turn_z phi1 v)).
