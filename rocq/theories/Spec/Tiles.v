(** Sums over the pixels of a detector, and rounding to a nearest integer. *)
From Coq Require Import List Arith ZArith Bool Reals.
Import ListNotations.
Local Open Scope R_scope.

(** Sum of f k for k < n. *)
Fixpoint sum_below (n : nat) (f : nat -> R) : R :=
  match n with O => 0 | S k => sum_below k f + f k end.
(** Sum over the pixels (y, x) of a detector with ny rows and nx columns that satisfy a condition. *)
Definition sum_pixels (ny nx : nat) (keep : nat -> nat -> bool) (p : nat -> nat -> R) : R :=
  sum_below ny (fun y => sum_below nx (fun x => if keep y x then p y x else 0)).

(** Rounding functions: they keep integers and order. *)
Definition rounding (rnd : R -> Z) : Prop :=
  (forall n, rnd (IZR n) = n) /\ (forall x y, x <= y -> (rnd x <= rnd y)%Z).
(** To a nearest integer, with any rule for values half way between two. *)
Definition nearest (rnd : R -> Z) : Prop := forall x, x - / 2 <= IZR (rnd x) <= x + / 2.
