(** What it means to convert an array of coordinates, one point at a time. *)
From Coq Require Import List Arith ZArith Reals Bool.
From Verif Require Import Model.NdArray.
Import ListNotations.

(** An index within a shape. *)
Inductive within : list nat -> list nat -> Prop :=
| within_nil : within [] []
| within_cons n s k i : k < n -> within s i -> within (n :: s) (k :: i).

(** The point (y, x) stored in the last axis of an array. *)
Definition point (a : arr R) (i : list nat) : R * R := (at_ a (i ++ [0]), at_ a (i ++ [1])).

(** The points of an array: shapes end with an axis of size 2. *)
Definition points_shape (s : list nat) : list nat := s ++ [2].

(** Python's meaning of an integer k for an axis of size n. *)
Definition counts_to (n : nat) (z : Z) (k : nat) : Prop :=
  k < n /\ (Z.of_nat k = z \/ Z.of_nat k = z + Z.of_nat n)%Z.
(** The positions p of an axis of size n with lo <= p < hi; bounds below 0 count from the end. *)
Definition from_end (n : nat) (z : Z) : Z := if (z <? 0)%Z then (z + Z.of_nat n)%Z else z.
Definition chosen (n : nat) (lo hi : option Z) : list nat :=
  filter (fun p =>
    match lo with None => true | Some z => (from_end n z <=? Z.of_nat p)%Z end &&
    match hi with None => true | Some z => (Z.of_nat p <? from_end n z)%Z end) (seq 0 n).
(** Element i of a selection from a map of the given shape is the element k of the map: integers leave no axis, slices
    leave one. *)
Inductive selects : list nat -> list entry -> list nat -> list nat -> Prop :=
| selects_nil : selects [] [] [] []
| selects_at n s z es k i ks : counts_to n z k -> selects s es i ks -> selects (n :: s) (At z :: es) i (k :: ks)
| selects_slice n s lo hi es j k i ks : nth_error (chosen n lo hi) j = Some k -> selects s es i ks ->
    selects (n :: s) (Slice lo hi :: es) (j :: i) (k :: ks).
(** The shape of a selection. *)
Fixpoint selected_shape (s : list nat) (es : list entry) : list nat :=
  match s, es with
  | n :: s', At _ :: es' => selected_shape s' es'
  | n :: s', Slice lo hi :: es' => length (chosen n lo hi) :: selected_shape s' es'
  | _, _ => []
  end.
(** Integers must be in range. *)
Definition in_range (s : list nat) (es : list entry) : Prop :=
  length es = length s /\ forall j n z, nth_error s j = Some n -> nth_error es j = Some (At z) -> (- Z.of_nat n <= z < Z.of_nat n)%Z.
