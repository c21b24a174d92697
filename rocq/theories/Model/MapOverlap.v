(** Two-dimensional maps (navigation axes) and dask's [map_overlap] on them, as used in
    signals/ebsd.py average_neighbour_patterns (lines 1071-1082), get_neighbour_dot_product_matrices
    (1281-1294) and get_average_neighbour_dot_product_map (1456-1467), always with boundary="none".

    Simplifications: dask itself is outside the repository; what is modelled here is its documented
    behaviour.  A one-dimensional map is a map with one row.  Maps are functions on indices with a
    number of rows and columns. *)
From Coq Require Import List Arith ZArith Bool.
Import ListNotations.

Record amap (A : Type) := AMap { nrows : nat; ncols : nat; at_ : nat -> nat -> A }.
Arguments AMap {A}.  Arguments nrows {A}.  Arguments ncols {A}.  Arguments at_ {A}.

(** The element at (y, x) if the map has one there. *)
Definition inside {A} (m : amap A) (y x : Z) : bool :=
  ((0 <=? y) && (y <? Z.of_nat (nrows m)) && (0 <=? x) && (x <? Z.of_nat (ncols m)))%Z.
Definition look {A} (m : amap A) (y x : Z) : option A :=
  if inside m y x then Some (at_ m (Z.to_nat y) (Z.to_nat x)) else None.

(** m[y0:y1, x0:x1] *)
Definition sub {A} (m : amap A) (y0 y1 x0 x1 : nat) : amap A :=
  AMap (y1 - y0) (x1 - x0) (fun y x => at_ m (y0 + y) (x0 + x)).

(** The chunk (first index and size) that contains index i. *)
Fixpoint locate (start i : nat) (chunks : list nat) : option (nat * nat) :=
  match chunks with
  | [] => None
  | c :: r => if i <? start + c then Some (start, c) else locate (start + c) i r
  end.
Definition total (chunks : list nat) : nat := fold_right Nat.add 0 chunks.

(** map_overlap(F, depth=(dy, dx), boundary="none"): every chunk is extended by the depth into its
    neighbours, as far as the map goes, F is applied to the extended chunk, and what was added is
    cut away.  The result at (y, x) is thus the value that F gives for the extended chunk around
    (y, x), at the position of (y, x) in it.  Before, dask merges chunks smaller than the depth:
    [merge depth chunks] stands for this step, see [merges].  None: ValueError, because the depth is
    larger than the axis. *)
Definition map_overlap {A B} (merge : nat -> list nat -> list nat) (F : amap A -> nat -> nat -> B)
    (ychunks xchunks : list nat) (dy dx : nat) (m : amap A) : option (nat -> nat -> option B) :=
  if ((nrows m <? dy) || (ncols m <? dx))%bool then None
  else Some (fun y x =>
    match locate 0 y (merge dy ychunks), locate 0 x (merge dx xchunks) with
    | Some (ys, yc), Some (xs, xc) =>
      let y0 := ys - dy in
      let y1 := Nat.min (nrows m) (ys + yc + dy) in
      let x0 := xs - dx in
      let x1 := Nat.min (ncols m) (xs + xc + dx) in
      Some (F (sub m y0 y1 x0 x1) (y - y0) (x - x0))
    | _, _ => None
    end).

(** What is assumed of the merging of chunks: chunks still cover the same axis, and nothing is
    merged if no chunk is smaller than the depth. *)
Definition merges (merge : nat -> list nat -> list nat) : Prop :=
  (forall d c, total (merge d c) = total c) /\ (forall d c, Forall (fun k => d <= k) c -> merge d c = c).
