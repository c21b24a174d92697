(** Crystal map from Hough indexing results: xmap_from_hough_indexing_data, src/kikuchipy/indexing/_hough_indexing.py
    43-118. Coordinates (made by orix) are left out. *)
From Coq Require Import List Arith ZArith Bool.
From Verif Require Import Model.Binary.
Import ListNotations.
Local Open Scope Z_scope.

Section Hough.
(** Quaternions with the identity [1, 0, 0, 0], and the other results (fit, cm, pq, nmatch) of any type. *)
Variables (Quat Other : Type) (identity : Quat).
Record entry := Entry { quat : Quat; phase : Z; other : Other }.
(** One list per solution with an entry for each point: the array of shape (solutions, points). *)
Definition results := list (list entry).
Record xmap := Xmap { rotations : list Quat; phase_ids : list Z; props : list Other }.

(** Position of data[index]; IndexError is None. *)
Definition py_index (n : nat) (i : Z) : option nat :=
  if (0 <=? i) && (i <? Z.of_nat n) then Some (Z.to_nat i)
  else if (i <? 0) && (- Z.of_nat n <=? i) then Some (Z.to_nat (Z.of_nat n + i)) else None.
Fixpoint set_row (d : results) (i : nat) (r : list entry) : results :=
  match d, i with [], _ => [] | _ :: d', O => r :: d' | x :: d', S i' => x :: set_row d' i' r end.
(** rot_arr[not_indexed] = [1, 0, 0, 0], lines 96-100, writes into the row of the array itself: data[index]["quat"] is a view. *)
Definition reset (e : entry) : entry := if phase e =? -1 then Entry identity (phase e) (other e) else e.

(** Result: the map and the caller's array after the call. Errors are None. [ids] are the phase IDs of the phase list,
    [nav_dims] the number of entries of navigation_shape (1 if not given). *)
Definition xmap_from_data (data : results) (ids : list Z) (index : Z) (nav_dims : nat) : option (xmap * results) :=
  if (2 <? nav_dims)%nat then None else
  if negb (index =? -1) && negb (existsb (Z.eqb index) ids) then None else
  let? i := py_index (length data) index in
  let? row := nth_error data i in
  let row' := map reset row in
  Some (Xmap (map quat row') (map phase row') (map other row'), set_row data i row').
End Hough.
Arguments Entry {Quat Other}. Arguments quat {Quat Other}. Arguments phase {Quat Other}. Arguments other {Quat Other}.
Arguments Xmap {Quat Other}. Arguments rotations {Quat Other}. Arguments phase_ids {Quat Other}. Arguments props {Quat Other}.
Arguments xmap_from_data {Quat Other}. Arguments set_row {Quat Other}. Arguments reset {Quat Other}.
