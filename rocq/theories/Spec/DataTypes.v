(** The ranges of intensities of the data types of patterns: all values of an integer type with its
    number of bits, and -1 to 1 for floating point types. *)
From Coq Require Import Reals.
From Verif Require Import Model.Intensity.
Local Open Scope R_scope.

Inductive kind := Unsigned (bits : nat) | Signed (bits : nat) | Floating.
Definition kind_of (t : dtype) : kind :=
  match t with
  | UInt8 => Unsigned 8 | UInt16 => Unsigned 16 | UInt32 => Unsigned 32
  | Int8 => Signed 8 | Int16 => Signed 16 | Int32 => Signed 32
  | Float32 | Float64 => Floating
  end.
Definition lowest (t : dtype) : R :=
  match kind_of t with Unsigned _ => 0 | Signed b => - 2 ^ (b - 1) | Floating => -1 end.
Definition highest (t : dtype) : R :=
  match kind_of t with Unsigned b => 2 ^ b - 1 | Signed b => 2 ^ (b - 1) - 1 | Floating => 1 end.
