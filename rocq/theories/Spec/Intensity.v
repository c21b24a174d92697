(** What rescaling of intensities and staying inside a range mean. *)
From Coq Require Import List Reals.
Import ListNotations.
Local Open Scope R_scope.

(** [q] comes from [p] by applying the function [f] to every pixel. *)
Definition pixelwise (f : R -> R) (p q : list R) : Prop :=
  length q = length p /\ forall i x, nth_error p i = Some x -> nth_error q i = Some (f x).

(** All pixels inside [lo, hi]. *)
Definition within (lo hi : R) (p : list R) : Prop := forall x, In x p -> lo <= x <= hi.

(** All pixels inside [lo, hi], both ends reached. *)
Definition spans (lo hi : R) (p : list R) : Prop := within lo hi p /\ In lo p /\ In hi p.

Definition nondecreasing (f : R -> R) : Prop := forall x y, x <= y -> f x <= f y.

(** The straight line through (a, c) and (b, d). *)
Definition line_through (a c b d : R) (x : R) : R := c + (d - c) * (x - a) / (b - a).

(** Smallest and largest value of a list. *)
Definition is_min (p : list R) (m : R) : Prop := In m p /\ forall x, In x p -> m <= x.
Definition is_max (p : list R) (m : R) : Prop := In m p /\ forall x, In x p -> x <= m.
