(** The image quality of a pattern, from the sums that define its Fourier spectrum. *)
From Coq Require Import Reals Arith.
From Verif Require Import Spec.FilterSpec.
Local Open Scope R_scope.

Definition total2 (h w : nat) (f : nat -> nat -> R) : R := total h (fun y => total w (fun x => f y x)).
Definition cosine_part (h w : nat) (p : nat -> nat -> R) (k l : nat) : R :=
  total2 h w (fun y x => p y x * cos (2 * PI * (INR k * INR y / INR h + INR l * INR x / INR w))).
Definition sine_part (h w : nat) (p : nat -> nat -> R) (k l : nat) : R :=
  total2 h w (fun y x => p y x * sin (2 * PI * (INR k * INR y / INR h + INR l * INR x / INR w))).
(** s is the magnitude of the spectrum of p. *)
Definition magnitude (h w : nat) (p s : nat -> nat -> R) : Prop :=
  forall k l, (k < h)%nat -> (l < w)%nat -> 0 <= s k l /\ s k l * s k l = cosine_part h w p k l * cosine_part h w p k l + sine_part h w p k l * sine_part h w p k l.
(** Steps along one axis: frequencies counted from 1 upwards, the upper half downwards from n. *)
Definition steps (n j : nat) : nat := if (2 * (j + 1) <=? n)%nat then (j + 1)%nat else (n - j)%nat.
Definition weight (h w i j : nat) : R := INR (steps h i) * INR (steps h i) + INR (steps w j) * INR (steps w j) - 1.
Definition mean_weight (h w : nat) : R := total2 h w (weight h w) / (INR h * INR w).
(** All pixels alike *)
Definition constant (h w : nat) (p : nat -> nat -> R) : Prop := forall y x y' x', (y < h)%nat -> (x < w)%nat -> (y' < h)%nat -> (x' < w)%nat -> p y x = p y' x'.
