(** What is shown where in a map: positions of patterns, and labels of zone axes. *)
From Coq Require Import String DecimalString List ZArith.
From Verif Require Import Model.KikuchiLines.
Import ListNotations.

(** In a map of this shape (n,) or (rows, columns), pattern number i (counted row by row from the top left) is at this position:
    the column, then the row. *)
Inductive pattern_at : list nat -> list nat -> nat -> Prop :=
| On_line n x : x < n -> pattern_at [n] [x] x
| In_map rows columns x y : x < columns -> y < rows -> pattern_at [rows; columns] [x; y] (y * columns + x).

(** The label of the zone axis [uvw]: the three integers, without anything between. *)
Definition decimal (z : Z) : string := NilZero.string_of_int (Z.to_int z).
Definition label_of (u : index) : string := (decimal (i1 u) ++ decimal (i2 u) ++ decimal (i3 u))%string.
