(** Specification of windows (C102), in terms of what a user does, not of memory. *)
From Coq Require Import String List Arith ZArith Reals.
From Verif Require Import Model.WindowObject.
Import ListNotations.

(** The array whose elements an array shows: its own, if NumPy makes a new array, and those of the array it was made from if it is a slice, is
    reshaped or is a window of an array. *)
Definition owner_step (owners : list nat) (o : op) : list nat :=
  match o with
  | WindowOf k _ _ | Rows k _ _ | Reshape k _ => owners ++ [nth k owners 0]
  | NewArray _ _ | NewWindow _ _ _ | Copy _ | Times _ _ => owners ++ [length owners]
  | MakeCircular _ | Assign _ _ _ => owners
  end.
Definition owners (os : list op) : list nat := fold_left owner_step os [].
(** The array an operation changes. *)
Definition changes (o : op) : option nat := match o with MakeCircular k | Assign k _ _ => Some k | _ => None end.

(** Element (y, x) of an array of ny by nx elements is farther from the origin, element (ny // 2, nx // 2), than the larger half width. *)
Definition beyond (ny nx y x : nat) : Prop :=
  let dy := (Z.of_nat y - Z.of_nat (ny / 2))%Z in
  let dx := (Z.of_nat x - Z.of_nat (nx / 2))%Z in
  let r := Z.of_nat (Nat.max (ny / 2) (nx / 2)) in (r * r < dy * dy + dx * dx)%Z.
(** Element (y, x) in row-major order. *)
Definition element (vs : list R) (nx y x : nat) : option R := nth_error vs (y * nx + x).
(** SciPy's windows have as many coefficients as asked for. *)
Definition right_length (taper : string -> nat -> option (list R)) : Prop := forall name n l, taper name n = Some l -> length l = n.
