(** NumPy's and Python's sorting of integers: library functions, not part of kikuchipy. *)
From Coq Require Import List Arith ZArith Bool.
Import ListNotations.
Local Open Scope Z_scope.

(** np.unique(l) or sorted(set(l)). *)
Fixpoint put (x : Z) (l : list Z) : list Z :=
  match l with [] => [x] | y :: r => if x <? y then x :: l else if x =? y then l else y :: put x r end.
Definition unique (l : list Z) : list Z := fold_right put [] l.
Definition count (l : list Z) (x : Z) : Z := Z.of_nat (count_occ Z.eq_dec l x).
(** np.unique(l, return_counts=True)[1]. *)
Definition unique_counts (l : list Z) : list Z := map (count l) (unique l).

(** np.argsort(keys). Entries with the same key keep their order here; NumPy's default may order them otherwise. *)
Fixpoint put_key (keys : list Z) (i : nat) (l : list nat) : list nat :=
  match l with [] => [i] | j :: r => if nth i keys 0 <=? nth j keys 0 then i :: l else j :: put_key keys i r end.
Definition argsort (keys : list Z) : list nat := fold_right (put_key keys) [] (seq 0 (length keys)).

(** np.min and np.max; ValueError (None) for an empty array. *)
Definition minimum (l : list Z) : option Z := match l with [] => None | x :: r => Some (fold_right Z.min x r) end.
Definition maximum (l : list Z) : option Z := match l with [] => None | x :: r => Some (fold_right Z.max x r) end.

(** np.diff. *)
Fixpoint diff (l : list Z) : list Z := match l with x :: ((y :: _) as r) => (y - x) :: diff r | _ => [] end.

(** list.index(x); ValueError (None) if not in the list. *)
Fixpoint index_of (x : Z) (l : list Z) : option nat :=
  match l with [] => None | y :: r => if y =? x then Some 0%nat else option_map S (index_of x r) end.
