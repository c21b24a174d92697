(** What filtering a pattern with a window means, without transforms or padding. *)
From Coq Require Import Reals Arith ZArith.
Local Open Scope R_scope.

(** The pattern continued outside its edges by the nearest edge pixel. *)
Definition nearest (n : nat) (i : Z) : nat := Z.to_nat (Z.max 0 (Z.min i (Z.of_nat n - 1))).
Definition extended (iy ix : nat) (image : nat -> nat -> R) (y x : Z) : R := image (nearest iy y) (nearest ix x).
Fixpoint total (n : nat) (f : nat -> R) : R := match n with O => 0 | S n => total n f + f n end.
(** The window-weighted sum around a pixel, with entry (wy // 2, wx // 2) of the window on the pixel. *)
Definition weighted (iy ix wy wx : nat) (image window : nat -> nat -> R) (y x : nat) : R :=
  total wy (fun u => total wx (fun v =>
    window u v * extended iy ix image (Z.of_nat y + Z.of_nat u - Z.of_nat (wy / 2)) (Z.of_nat x + Z.of_nat v - Z.of_nat (wx / 2)))).
