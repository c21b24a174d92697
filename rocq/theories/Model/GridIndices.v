(** kikuchipy.signals.util.grid_indices: /repo/src/kikuchipy/signals/util/array_tools.py,
    lines 21-107.

    Simplifications: the shapes are natural numbers (negative sizes raise in NumPy or make no
    sense); int64 overflow is not modelled; the ceiling of the float quotient on line 82 is the
    exact ceiling (the quotient of two integers below 2^53 never rounds onto an integer it is
    above).  An exception is [None].  Index values are integers (Z) since the centring on lines
    91-104 subtracts. *)
From Coq Require Import List Arith ZArith.
From Verif Require Import Model.PyArray.
Import ListNotations.

(** Lines 82-83, one dimension. *)
Definition spacing (grid nav : nat) : nat := ceil_div nav (grid + 1).

(** Lines 91-95, one dimension: (first - (nav - last)) // 2, floor division. *)
Definition subtract_to_center (nav : nat) (first last : Z) : Z :=
  ((first - (Z.of_nat nav - last)) / 2)%Z.

(** Lines 85-104 for one dimension.  A step of zero (empty map) raises ValueError on line 89,
    an empty selection raises IndexError on line 95. *)
Definition grid_indices_1d (grid nav : nat) : option (list Z) :=
  let s := spacing grid nav in
  match s with
  | O => None
  | _ =>
    let idx := map Z.of_nat (skipn 1 (every s (seq 0 nav))) in
    match idx with
    | [] => None
    | first :: _ =>
      let c := subtract_to_center nav first (last idx 0%Z) in
      Some (map (fun v => (v - c)%Z) idx)
    end
  end.

(** Lines 85-104 for two dimensions.  [idx_1d] are flat indices, selected with a step in both
    directions after which the first row and column are dropped; they are unravelled, and each
    coordinate is shifted by its own centring.  The result is the pair (row, column) at each grid
    point, grid row by grid row; in NumPy it is two arrays stacked. *)
Definition grid_indices_2d (grid nav : nat * nat) : option (list (list (Z * Z))) :=
  let (g0, g1) := grid in
  let (n0, n1) := nav in
  let s0 := spacing g0 n0 in
  let s1 := spacing g1 n1 in
  match s0, s1 with
  | O, _ | _, O => None
  | _, _ =>
    let idx_1d := map (skipn 1) (skipn 1 (map (every s1) (every s0 (arange2 n0 n1)))) in
    let idx_2d := map (map (fun i => let (y, x) := unravel2 n1 i in (Z.of_nat y, Z.of_nat x))) idx_1d in
    match idx_2d with
    | (((y0, x0) :: _) :: _) =>
      let (yl, xl) := last (last idx_2d []) (0%Z, 0%Z) in
      let cy := subtract_to_center n0 y0 yl in
      let cx := subtract_to_center n1 x0 xl in
      Some (map (map (fun p : Z * Z => ((fst p - cy)%Z, (snd p - cx)%Z))) idx_2d)
    | _ => None
    end
  end.

(** Result: the arrays of indices and the spacing. *)
Inductive grid_result :=
| Grid1 (idx : list Z) (s : nat)
| Grid2 (idx : list (list (Z * Z))) (s0 s1 : nat).

(** Lines 70-79: an integer is a shape of one dimension; the numbers of dimensions must be the
    same.  Shapes of three or more dimensions are treated by the code as one-dimensional after
    the check and are outside the documented use: None here. *)
Definition grid_indices (grid nav : list nat) : option grid_result :=
  match grid, nav with
  | [g], [n] => option_map (fun i => Grid1 i (spacing g n)) (grid_indices_1d g n)
  | [g0; g1], [n0; n1] =>
    option_map (fun i => Grid2 i (spacing g0 n0) (spacing g1 n1)) (grid_indices_2d (g0, g1) (n0, n1))
  | _, _ => None
  end.
