(** What a plot of the detector screen is expected to show. *)
From Coq Require Import Reals ZArith.
Local Open Scope R_scope.

(** The direction towards gnomonic (x, y) makes this angle with the normal to the screen, which is the direction towards the PC. *)
Definition makes_angle (angle x y : R) : Prop := cos angle * sqrt (x * x + y * y + 1) = 1.

(** (x, y) is on the circle *)
Definition on_circle (circle : (R * R) * R) (x y : R) : Prop :=
  (x - fst (fst circle)) ^ 2 + (y - snd (fst circle)) ^ 2 = snd circle ^ 2 /\ 0 < snd circle.

(** All of [a, b], in any order, is between the ends of the axis. *)
Definition between (ends : R * R) (x : R) : Prop := fst ends <= x <= snd ends \/ snd ends <= x <= fst ends.
