(** What a user expects of rebinned patterns, without the model. *)
From Coq Require Import List Arith Reals.
Import ListNotations.
Local Open Scope R_scope.

(** The sum of g over 0 <= k < n. *)
Fixpoint sum_of (n : nat) (g : nat -> R) : R := match n with O => 0 | S k => sum_of k g + g k end.
(** The length of what the intervals from a to b and from c to d have in common. *)
Definition common (a b c d : R) : R := Rmax 0 (Rmin b d - Rmax a c).
(** How much of old pixel j, from j to j + 1, is in new pixel i of f old pixels. *)
Definition share (f : R) (i j : nat) : R := common (INR i * f) (INR (i + 1) * f) (INR j) (INR (j + 1)).
(** A new pixel of fy times fx old pixels of an image with ny rows and nx columns. *)
Definition binned_pixel (ny nx : nat) (fy fx : R) (a : nat -> nat -> R) (y x : nat) : R :=
  sum_of ny (fun u => sum_of nx (fun v => share fy y u * share fx x v * a u v)).
(** m new pixels of f old ones: as many as there are whole ones in n, or, if nothing is to be cut off, as many as n takes. *)
Definition sized (crop : bool) (n : nat) (f : R) (m : nat) : Prop :=
  if crop then INR m * f <= INR n < INR (m + 1) * f else (INR m - 1) * f < INR n <= INR m * f.
