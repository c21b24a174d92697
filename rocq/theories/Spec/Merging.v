(** What merging crystal maps should give. *)
From Coq Require Import List ZArith QArith.
Import ListNotations.

(** Entry of map point number p in a list of the points a map has: all (no mask), or those not hidden. *)
Definition entry_at {P} (hidden : option (list bool)) (points : list P) (p : nat) : option P :=
  match hidden with
  | None => nth_error points p
  | Some h => if nth p h true then None else nth_error points (length (filter negb (firstn p h)))
  end.

(** v is the mean of the first n scores of the list (of all if there are fewer). *)
Definition mean_of_first (n : nat) (l : list Q) (v : Q) : Prop :=
  l <> [] /\ (v * inject_Z (Z.of_nat (length (firstn n l))) == fold_right Qplus 0 (firstn n l))%Q.

(** Whether score a is at least as good as score b. *)
Definition at_least_as_good (greater : bool) (a b : Q) : Prop := if greater then (b <= a)%Q else (a <= b)%Q.
Definition better (greater : bool) (a b : Q) : Prop := if greater then (b < a)%Q else (a < b)%Q.

(** Best first; entries without a score last. *)
Definition ordered_best_first {B} (greater : bool) (l : list (option Q * B)) : Prop :=
  forall i j a b, (i < j)%nat -> nth_error l i = Some a -> nth_error l j = Some b ->
    match fst a, fst b with
    | _, None => True
    | None, Some _ => False
    | Some x, Some y => at_least_as_good greater x y
    end.
