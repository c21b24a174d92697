(** Standard scores: how many standard deviations a value of an image is above the median. *)
From Coq Require Import List Reals Sorting.Permutation.
Import ListNotations.
Local Open Scope R_scope.

Definition mean (p : list R) : R := fold_right Rplus 0 p / INR (length p).
Definition variance (p : list R) : R := mean (map (fun x => (x - mean p) ^ 2) p).
(** The middle one of the values in order, or the mean of the two in the middle. *)
Definition is_median (p : list R) (m : R) : Prop :=
  exists s, Permutation s p /\ (forall i j, (i <= j < length s)%nat -> nth i s 0 <= nth j s 0)
  /\ m = (nth ((length s - 1) / 2) s 0 + nth (length s / 2) s 0) / 2.
Definition is_score (p : list R) (x z : R) : Prop := exists m, is_median p m /\ x = m + z * sqrt (variance p).
(** Images that are equal up to contrast and brightness. *)
Definition same_up_to_contrast (p q : list R) : Prop := exists a b, 0 < a /\ q = map (fun x => a * x + b) p.
(** The value that is q percent of the way through the values in order, in a straight line between neighbours. *)
Definition is_percentile (q : R) (l : list R) (v : R) : Prop :=
  exists s k f, Permutation s l /\ (forall i j, (i <= j < length s)%nat -> nth i s 0 <= nth j s 0) /\ (k < length s)%nat
  /\ 0 <= f < 1 /\ INR k + f = q / 100 * INR (length s - 1) /\ v = (1 - f) * nth k s 0 + f * nth (k + 1) s 0.
