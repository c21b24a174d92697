(** What the user expects of a loaded master pattern file. *)
From Coq Require Import List Arith QArith Qabs.
Import ListNotations.
Local Open Scope Q_scope.

(** Energies are stored in increasing order. *)
Definition increasing (l : list Q) : Prop :=
  forall i j a b, (i <= j)%nat -> nth_error l i = Some a -> nth_error l j = Some b -> a <= b.
(** Evenly spaced by step. *)
Definition evenly_spaced (l : list Q) (step : Q) : Prop :=
  forall i a b, nth_error l i = Some a -> nth_error l (S i) = Some b -> b == a + step.

(** Which stored energies, given by their position, the user asked for: all... *)
Definition wanted_all (l : list Q) (i : nat) : Prop := (i < length l)%nat.
(** ... those in a closed range... *)
Definition wanted_range (l : list Q) (lo hi : Q) (i : nat) : Prop :=
  exists e, nth_error l i = Some e /\ lo <= e <= hi.
(** ... or the (first) closest one. *)
Definition wanted_one (l : list Q) (e : Q) (i : nat) : Prop :=
  exists x, nth_error l i = Some x /\
    (forall j y, nth_error l j = Some y -> Qabs (x - e) <= Qabs (y - e)) /\
    (forall j y, (j < i)%nat -> nth_error l j = Some y -> Qabs (x - e) < Qabs (y - e)).
