(** Where patterns, points of a crystal map and detector pixels are. *)
From Coq Require Import String.
From Coq Require Import List Arith ZArith QArith.
From Verif Require Import Model.Calibration.
Import ListNotations.
Local Open Scope Q_scope.

Definition of_nat (n : nat) : Q := inject_Z (Z.of_nat n).
(** Position along an axis of what has index i *)
Definition position (a : axis) (i : nat) : Q := offset a + scale a * of_nat i.
(** Position along axis [k] (slowest first) of the map point which belongs to the patterns of index i along it *)
Definition map_position (m : cmap) (k i : nat) (q : Q) : Prop :=
  exists p d j, nth_error (points m) k = Some p /\ nth_error (steps m) k = Some d /\ nth_error p i = Some j /\ q == d * of_nat j.
(** Two patterns are as far from each other in the signal as their points are in the map *)
Definition same_distances (s : signal) (m : cmap) : Prop :=
  forall k a i i', nth_error (nav s) k = Some a -> (i < size a)%nat -> (i' < size a)%nat ->
    exists q q', map_position m k i q /\ map_position m k i' q' /\ position a i' - position a i == q' - q.
(** An assignment of the map to the signal is accepted without a warning *)
Definition accepted_silently (s : signal) (m : cmap) : Prop := compatible s m = (true, 0%nat).
(** The axes of maps: y and x *)
Definition map_axes (s : signal) : Prop := exists y x, nav s = [y; x] /\ name y = "y"%string /\ name x = "x"%string.
Definition several_points (s : signal) : Prop := Forall (fun a => (2 <= size a)%nat) (nav s).
