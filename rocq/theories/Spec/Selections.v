(** What start:stop:step selects on an axis with n elements (Python's rule, without its clipping of ends). *)
From Coq Require Import ZArith List Sorted.
From Verif Require Import Spec.Slices.
Local Open Scope Z_scope.

(** Counting starts at [start], or at the first (last, if the step is negative) element of the axis if [start] is omitted or beyond it. *)
Definition first_of (n : Z) (start : option Z) (step : Z) : Z :=
  if 0 <? step
  then match start with Some s => Z.max 0 (from_end n s) | None => 0 end
  else match start with Some s => Z.min (n - 1) (from_end n s) | None => n - 1 end.
Definition chosen (n : Z) (start stop : option Z) (step : Z) (k : Z) : Prop :=
  0 <= k < n /\ (step | k - first_of n start step)
  /\ (0 < step -> first_of n start step <= k /\ match stop with Some t => k < from_end n t | None => True end)
  /\ (step < 0 -> k <= first_of n start step /\ match stop with Some t => from_end n t < k | None => True end).
(** In the order of the axis, or in reverse. *)
Definition in_order (step : Z) (l : list nat) : Prop :=
  (0 < step -> StronglySorted lt l) /\ (step < 0 -> StronglySorted gt l).
