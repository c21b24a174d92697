(** Means over blocks of pixels. *)
From Coq Require Import List Arith Reals.
From Verif Require Import Spec.Tiles.
Local Open Scope R_scope.

(** Mean of the f x f pixels of block (r, c) of an image. *)
Definition block_mean (f : nat) (p : nat -> nat -> R) (r c : nat) : R :=
  sum_below f (fun i => sum_below f (fun j => p (r * f + i)%nat (c * f + j)%nat)) / (INR f * INR f).

(** m is the smallest, or largest, of the values v r c for r < ny, c < nx. *)
Definition least (ny nx : nat) (v : nat -> nat -> R) (m : R) : Prop :=
  (exists r c, (r < ny)%nat /\ (c < nx)%nat /\ v r c = m) /\ forall r c, (r < ny)%nat -> (c < nx)%nat -> m <= v r c.
Definition greatest (ny nx : nat) (v : nat -> nat -> R) (m : R) : Prop :=
  (exists r c, (r < ny)%nat /\ (c < nx)%nat /\ v r c = m) /\ forall r c, (r < ny)%nat -> (c < nx)%nat -> v r c <= m.
