(** Dot products between a pattern and its neighbours: signals/util/_map_helper.py,
    signals/util/_dask.py _get_chunk_overlap_depth, signals/ebsd.py
    get_neighbour_dot_product_matrices (1221-1313) and get_average_neighbour_dot_product_map (1377-1491).

    Simplifications: real arithmetic, NaN is None; one-dimensional maps and windows have one row;
    the window is given by its coefficients converted to bool (line 316). *)
From Coq Require Import List Arith ZArith Bool Reals.
From Verif Require Import Model.Pattern Model.MapOverlap.
Import ListNotations.

Record bwindow := BWindow { wny : nat; wnx : nat; wflat : list bool }.

(** _setup_window_indices, lines 311-324: the flat index of the origin, the flat indices of the true
    coefficients, and the position of the origin among them (None: IndexError, since the coefficient
    in the origin is 0). *)
Definition window_origin (w : bwindow) : nat := wny w / 2 * wnx w + wnx w / 2.
Definition truthy (w : bwindow) : list nat :=
  filter (fun k => nth k (wflat w) false) (seq 0 (wny w * wnx w)).
Fixpoint position (k : nat) (l : list nat) : option nat :=
  match l with
  | [] => None
  | a :: r => if a =? k then Some 0 else option_map S (position k r)
  end.
Definition center_index (w : bwindow) : option nat := position (window_origin w) (truthy w).

(** _zero_mean and _normalize as called in lines 165-170, with a division by zero giving NaN pixels (None). *)
Definition prepare (zm nz : bool) (p : pattern) : option pattern :=
  let p := if zm then zero_mean p else p in
  if nz then if Req_EM_T (dot p p) 0%R then None else Some (normalize p) else Some p.
(** One element of [neighbour_patterns @ pattern], line 173. *)
Definition dot_product (zm nz : bool) (neighbour p : pattern) : option R :=
  match prepare zm nz neighbour, prepare zm nz p with
  | Some a, Some b => Some (dot a b)
  | _, _ => None
  end.

(** np.nanmean: the mean of what is not NaN, NaN if there is nothing. *)
Definition not_nan (l : list (option R)) : list R :=
  flat_map (fun v => match v with Some r => [r] | None => [] end) l.
Definition nanmean (l : list (option R)) : option R :=
  match not_nan l with [] => None | v => Some (vmean v) end.

(** generic_filter with a footprint, lines 70-93: what it passes to the function at (y, x): the
    flat indices of the elements under the true coefficients, -1 outside the map. *)
Definition flat {A} (m : amap A) (y x : Z) : Z := (y * Z.of_nat (ncols m) + x)%Z.
Definition under (w : bwindow) (y x k : nat) : Z * Z :=
  (Z.of_nat y + Z.of_nat (k / wnx w) - Z.of_nat (wny w / 2),
   Z.of_nat x + Z.of_nat (k mod wnx w) - Z.of_nat (wnx w / 2))%Z.
Definition index_under {A} (m : amap A) (w : bwindow) (y x k : nat) : Z :=
  let (yy, xx) := under w y x k in if inside m yy xx then flat m yy xx else (-1)%Z.
Definition indices_at {A} (m : amap A) (w : bwindow) (y x : nat) : list Z :=
  map (index_under m w y x) (truthy w).

(** patterns[np.unravel_index(i, nav_shape)], lines 154 and 161. *)
Definition unravel {A} (m : amap A) (i : Z) : A :=
  at_ m (Z.to_nat (i / Z.of_nat (ncols m))) (Z.to_nat (i mod Z.of_nat (ncols m))).

(** _neighbour_dot_products, lines 145-183. *)
Definition neighbour_idx (indices : list Z) (pat_idx : Z) : list nat :=
  filter (fun j => negb (nth j indices (-1) =? pat_idx)%Z && negb (nth j indices (-1) =? -1)%Z)
         (seq 0 (length indices)).
Definition dot_products (zm nz : bool) (m : amap pattern) (indices : list Z) (pat_idx : Z) : list (option R) :=
  map (fun j => dot_product zm nz (unravel m (nth j indices (-1)%Z)) (unravel m pat_idx))
      (neighbour_idx indices pat_idx).
(** output is None: line 176. *)
Definition average_dot_product (zm nz : bool) (w : bwindow) (ci : nat) (m : amap pattern) (y x : nat) : option R :=
  let indices := indices_at m w y x in
  nanmean (dot_products zm nz m indices (nth ci indices (-1)%Z)).
(** With output: lines 178-183.  The row written is row pat_idx, that of the point (y, x) itself. *)
Fixpoint upd {A} (l : list A) (i : nat) (v : A) : list A :=
  match l, i with
  | [], _ => []
  | _ :: r, O => v :: r
  | a :: r, S j => a :: upd r j v
  end.
Definition write {A} (out : list A) (positions : list nat) (values : list A) : list A :=
  fold_left (fun o pv => upd o (fst pv) (snd pv)) (combine positions values) out.
Definition dot_product_matrix (zm nz : bool) (w : bwindow) (ci : nat) (m : amap pattern) (y x : nat)
    : list (option R) :=
  let indices := indices_at m w y x in
  let pat_idx := nth ci indices (-1)%Z in
  let out := repeat None (wny w * wnx w) in
  let out := upd out (nth ci (truthy w) 0) (dot_product zm nz (unravel m pat_idx) (unravel m pat_idx)) in
  write out (map (fun j => nth j (truthy w) 0) (neighbour_idx indices pat_idx))
        (dot_products zm nz m indices pat_idx).

(** _get_chunk_overlap_depth, signals/util/_dask.py lines 198-216: n_neighbours of the window
    (filters/window.py 232-237) in an axis whose (largest) chunk is not the whole axis, no overlap
    in the others.  A size of 0 is not possible, so shape - origin - 1 is not negative. *)
Definition chunksize (chunks : list nat) : nat := fold_right Nat.max 0 chunks.
Definition overlap_depth (window_size axis : nat) (chunks : list nat) : nat :=
  if chunksize chunks =? axis then 0 else window_size - window_size / 2 - 1.

(** The two methods.  None: the call raises an error. *)
Definition get_average_neighbour_dot_product_map (merge : nat -> list nat -> list nat)
    (zm nz : bool) (w : bwindow) (ychunks xchunks : list nat) (m : amap pattern)
    : option (nat -> nat -> option (option R)) :=
  match center_index w with
  | None => None
  | Some ci =>
    map_overlap merge (average_dot_product zm nz w ci) ychunks xchunks
      (overlap_depth (wny w) (nrows m) ychunks) (overlap_depth (wnx w) (ncols m) xchunks) m
  end.
Definition get_neighbour_dot_product_matrices (merge : nat -> list nat -> list nat)
    (zm nz : bool) (w : bwindow) (ychunks xchunks : list nat) (m : amap pattern)
    : option (nat -> nat -> option (list (option R))) :=
  match center_index w with
  | None => None
  | Some ci =>
    map_overlap merge (dot_product_matrix zm nz w ci) ychunks xchunks
      (overlap_depth (wny w) (nrows m) ychunks) (overlap_depth (wnx w) (ncols m) xchunks) m
  end.

(** get_average_neighbour_dot_product_map(dp_matrices=...), lines 1432-1441: NaN in the origin of
    each matrix, then the mean of each matrix. *)
Definition average_from_matrix (w : bwindow) (matrix : list (option R)) : option R :=
  nanmean (upd matrix (window_origin w) None).
