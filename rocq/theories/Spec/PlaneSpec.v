(** Planes through projection centers, independently of how they are fitted. *)
From Coq Require Import List Reals Permutation.
From Verif Require Import Model.Detector.
Import ListNotations.
Local Open Scope R_scope.

Definition dot (u v : vec) : R := vx u * vx v + vy u * vy v + vz u * vz v.
Definition minus (u v : vec) : vec := Vec (vx u - vx v) (vy u - vy v) (vz u - vz v).
Definition cross (u v : vec) : vec :=
  Vec (vy u * vz v - vz u * vy v) (vz u * vx v - vx u * vz v) (vx u * vy v - vy u * vx v).
Definition unit_length (v : vec) : Prop := dot v v = 1.
Definition point (p : pc3) : vec := Vec (pcx p) (pcy p) (pcz p).

(** All points are in a plane with the unit normal [n]. *)
Definition in_plane (n : vec) (l : list pc3) : Prop :=
  unit_length n /\ exists c, forall p, In p l -> dot n (point p) = c.
(** Three of the points are not on a line. *)
Definition spread (l : list pc3) : Prop :=
  exists p q r, In p l /\ In q l /\ In r l /\ cross (minus (point q) (point p)) (minus (point r) (point p)) <> Vec 0 0 0.

(** The active rotations about the first and the third axis of the detector. *)
Definition about_x (a : R) (v : vec) : vec := Vec (vx v) (cos a * vy v - sin a * vz v) (sin a * vy v + cos a * vz v).
Definition about_z (a : R) (v : vec) : vec := Vec (cos a * vx v - sin a * vy v) (sin a * vx v + cos a * vy v) (vz v).
(** The direction reached by the detector normal [001] after the two tilts. *)
Definition tilted_normal (x_tilt z_tilt : R) : vec := about_z (- z_tilt) (about_x (- x_tilt) (Vec 0 0 1)).

(** What is known of numpy.linalg.svd: the last row of vh is a unit vector [v] for which the length of the
    product of the array and [v] is the smallest possible. *)
Definition square_sum (l : list vec) (v : vec) : R := fold_right Rplus 0 (map (fun a => dot a v * dot a v) l).
Definition smallest_singular (l : list vec) (v : vec) : Prop :=
  unit_length v /\ forall w, unit_length w -> square_sum l v <= square_sum l w.
Definition is_svd (svd : list vec -> vec) : Prop := forall l, (3 <= length l)%nat -> smallest_singular l (svd l).

(** Projective transformations of the plane of (row, column). *)
Definition det3 (m : mat) : R := dot (r0 m) (cross (r1 m) (r2 m)).
Definition sends (m : mat) (a b : R * R) : Prop :=
  let h := Vec (fst a) (snd a) 1 in
  dot (r2 m) h <> 0 /\ fst b * dot (r2 m) h = dot (r0 m) h /\ snd b * dot (r2 m) h = dot (r1 m) h.
Definition not_on_a_line (a b c : R * R) : Prop :=
  (fst b - fst a) * (snd c - snd a) - (fst c - fst a) * (snd b - snd a) <> 0.
(** Four of the points, no three of which are on a line. *)
Definition quadrangle (l : list (R * R)) : Prop :=
  exists a b c d, In a l /\ In b l /\ In c l /\ In d l /\
    not_on_a_line a b c /\ not_on_a_line a b d /\ not_on_a_line a c d /\ not_on_a_line b c d.
(** What is known of skimage's ProjectiveTransform: points which are related by a projective transformation
    and determine it are related by the estimated one. *)
Definition is_estimate (estimate : list (R * R) -> list (R * R) -> mat) : Prop :=
  forall src dst t, length src = length dst -> quadrangle src -> det3 t <> 0 ->
    Forall2 (sends t) src dst -> Forall2 (sends (estimate src dst)) src dst.

(** Points of the plane through [o] spanned by [u] and [w], reached from map positions by a projective
    transformation. *)
Definition plus (u v : vec) : vec := Vec (vx u + vx v) (vy u + vy v) (vz u + vz v).
Definition scaled (c : R) (v : vec) : vec := Vec (c * vx v) (c * vy v) (c * vz v).
Definition image_of (t : mat) (o u w : vec) (i : R * R) (p : pc3) : Prop :=
  exists b, sends t i b /\ point p = plus o (plus (scaled (fst b) u) (scaled (snd b) w)).

(** The points come in pairs placed symmetrically about [c]. *)
Definition reflected (c : vec) (p : pc3) : pc3 := PC (2 * vx c - pcx p) (2 * vy c - pcy p) (2 * vz c - pcz p).
Definition symmetric (l : list pc3) : Prop := exists c, Permutation (map (reflected c) l) l.

(** The elements of [l] which are not marked. *)
Definition inliers {A} (is_outlier : list bool) (l : list A) : list A :=
  map snd (filter (fun bx => negb (fst bx)) (combine is_outlier l)).
