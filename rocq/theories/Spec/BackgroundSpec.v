(** The blur of a pattern with a Gaussian. *)
From Coq Require Import List Reals Arith ZArith.
From Verif Require Import Spec.FilterSpec.
Import ListNotations.
Local Open Scope R_scope.

(** The Gaussian of a distance. *)
Definition weight (std dy dx : R) : R := exp (- (dy ^ 2 + dx ^ 2) / (2 * std ^ 2)).
(** The mean of [n] x [n] pixels around pixel (y, x), weighted with a Gaussian whose centre is that of the [n] x [n]
    pixels, of which number n // 2 of each axis is the pixel.  Beyond the edges of the pattern are its edge pixels. *)
Definition blurred (ny nx n : nat) (std : R) (image : nat -> nat -> R) (y x : nat) : R :=
  let w u v := weight std (INR u - (INR n - 1) / 2) (INR v - (INR n - 1) / 2) in
  total n (fun u => total n (fun v => w u v * extended ny nx image (Z.of_nat y + Z.of_nat u - Z.of_nat (n / 2)) (Z.of_nat x + Z.of_nat v - Z.of_nat (n / 2))))
  / total n (fun u => total n (fun v => w u v)).

Definition flipped_columns (nx : nat) (image : nat -> nat -> R) : nat -> nat -> R := fun y x => image y (nx - 1 - x)%nat.
Definition flipped_rows (ny : nat) (image : nat -> nat -> R) : nat -> nat -> R := fun y x => image (ny - 1 - y)%nat x.
Definition pixels_between (ny nx : nat) (lo hi : R) (image : nat -> nat -> R) : Prop :=
  forall y x, (y < ny)%nat -> (x < nx)%nat -> lo <= image y x <= hi.
