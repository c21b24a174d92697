(** Python slices [start:stop] on an axis with n elements. *)
From Coq Require Import ZArith.
Local Open Scope Z_scope.

(** k is selected by [start:stop]: omitted ends are the ends of the axis, negative ones count from
    the end. *)
Definition from_end (n i : Z) : Z := if i <? 0 then n + i else i.
Definition selected (n : Z) (start stop : option Z) (k : Z) : Prop :=
  0 <= k < n
  /\ match start with Some s => from_end n s <= k | None => True end
  /\ match stop with Some t => k < from_end n t | None => True end.
