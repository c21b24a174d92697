(** What it means for a 3x3 real matrix to be a proper rotation. Matrices are given by
    their nine entries. *)
From Coq Require Import Reals.
Open Scope R_scope.

Definition matrix := (nat -> nat -> R)%type.
Definition entry3 (f : nat -> R) : R := f 0%nat + f 1%nat + f 2%nat.

Definition det3 (m : matrix) : R :=
  m 0%nat 0%nat * (m 1%nat 1%nat * m 2%nat 2%nat - m 1%nat 2%nat * m 2%nat 1%nat)
  - m 0%nat 1%nat * (m 1%nat 0%nat * m 2%nat 2%nat - m 1%nat 2%nat * m 2%nat 0%nat)
  + m 0%nat 2%nat * (m 1%nat 0%nat * m 2%nat 1%nat - m 1%nat 1%nat * m 2%nat 0%nat).

(** M M^T = 1 and det M = 1. *)
Definition proper_rotation (m : matrix) : Prop :=
  (forall i j, (i < 3)%nat -> (j < 3)%nat ->
     entry3 (fun k => m i k * m j k) = if Nat.eqb i j then 1 else 0) /\
  det3 m = 1.
