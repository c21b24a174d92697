(** Where the points of a crystal map lie, and what is stored where. *)
From Coq Require Import List Arith ZArith QArith.
From Verif Require Import Spec.Merging.
Import ListNotations.
Local Open Scope nat_scope.

(** Rows and columns of a map of one or two dimensions. *)
Definition rows (shape : list nat) : nat := match shape with [_] => 1 | [r; _] => r | _ => 0 end.
Definition columns (shape : list nat) : nat := match shape with [c] => c | [_; c] => c | _ => 0 end.
(** The point that a map has in row r and column c, if any: its points are listed row by row, without those left out. *)
Definition stored_at {P} (shape : list nat) (kept : list bool) (points : list P) (r c : nat) : option P :=
  entry_at (Some (map negb kept)) points (r * columns shape + c).
(** The smallest rectangle with all points that are kept: h rows from r0 and w columns from c0. *)
Definition is_kept (shape : list nat) (kept : list bool) (r c : nat) : Prop :=
  r < rows shape /\ c < columns shape /\ nth (r * columns shape + c) kept false = true.
Definition rectangle (shape : list nat) (kept : list bool) (r0 h c0 w : nat) : Prop :=
  (forall r c, is_kept shape kept r c -> r0 <= r < r0 + h /\ c0 <= c < c0 + w) /\
  (exists c, is_kept shape kept r0 c) /\ (exists c, is_kept shape kept (r0 + h - 1) c) /\
  (exists r, is_kept shape kept r c0) /\ (exists r, is_kept shape kept r (c0 + w - 1)) /\ 1 <= h /\ 1 <= w.
(** Its shape has as many dimensions as the map. *)
Definition of_dimensions (shape : list nat) (h w : nat) : list nat := match shape with [_] => [w] | _ => [h; w] end.
(** Position (y, x) of a point on the sample. *)
Definition position (dy dx : Q) (r c : nat) : Q * Q := (inject_Z (Z.of_nat r) * dy, inject_Z (Z.of_nat c) * dx)%Q.
