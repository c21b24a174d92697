(** Which direction a pixel of a stereographic master pattern shows, for any number of pixels. *)
From Coq Require Import List Reals.
From Verif Require Import Model.Detector Spec.Euler Spec.KikuchiBandIntensity.
Local Open Scope R_scope.

Inductive half := Above | Below.
(** The unit vector whose stereographic projection, from the pole of the other hemisphere, is the pixel: the n pixels
    along x (columns) and y (rows) are evenly spaced from -1 to 1. *)
Definition direction (side : half) (n row col : nat) (v : vec) : Prop :=
  dot3 v v = 1 /\
  let xy := (2 * INR col / INR (n - 1) - 1, 2 * INR row / INR (n - 1) - 1) in
  match side with Above => vz v <> -1 /\ from_south v = xy | Below => vz v <> 1 /\ from_north v = xy end.
(** A hemisphere shows an intensity which is a function of the direction. *)
Definition shows (side : half) (n : nat) (f : vec -> R) (values : nat -> nat -> R) : Prop :=
  forall row col v, (row < n)%nat -> (col < n)%nat -> direction side n row col v -> values row col = f v.
