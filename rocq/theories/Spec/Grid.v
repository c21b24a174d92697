(** What an evenly spaced, centred set of indices into a row of [n] map points is. *)
From Coq Require Import List ZArith.
Import ListNotations.
Local Open Scope Z_scope.

(** All indices exist in the map. *)
Definition inside (n : Z) (l : list Z) : Prop := Forall (fun v => 0 <= v < n) l.

(** Each index is [s] larger than the one before it. *)
Definition evenly_spaced (s : Z) (l : list Z) : Prop :=
  forall i a b, nth_error l i = Some a -> nth_error l (S i) = Some b -> b = a + s.

(** The first index is as far from the start of the map (0) as the last one is from its end (n),
    up to one. *)
Definition centred (n : Z) (l : list Z) : Prop :=
  forall a b, nth_error l 0 = Some a -> nth_error l (List.length l - 1) = Some b ->
    Z.abs (a - (n - b)) <= 1.

(** Numbers of map points before the first index and after the last. *)
Definition points_before (l : list Z) : Z := hd 0 l.
Definition points_after (n : Z) (l : list Z) : Z := n - 1 - last l 0.
