(** What it means for chunks to cover an axis, independent of the model. *)
From Coq Require Import List Arith.
Import ListNotations.

(** Chunk number k of sizes [cs] holds index i: i lies between the end of the chunks before it and
    its own end. *)
Definition holds (cs : list nat) (k i : nat) : Prop :=
  exists before c after, cs = before ++ c :: after /\ length before = k
    /\ list_sum before <= i < list_sum before + c.

(** The chunks split an axis of n elements: every index below n is in exactly one chunk, and no
    chunk reaches beyond. *)
Definition splits (n : nat) (cs : list nat) : Prop :=
  (forall i, i < n -> exists k, holds cs k i /\ forall k', holds cs k' i -> k' = k)
  /\ (forall i k, holds cs k i -> i < n).

(** An index within an array of some shape. *)
Definition within_shape (sh idx : list nat) : Prop := Forall2 (fun n i => i < n) sh idx.
