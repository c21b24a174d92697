(** Orientation similarity maps: src/kikuchipy/indexing/_orientation_similarity_map.py. Means are exact
    rationals; the rounding to float32 is left out. *)
From Coq Require Import List Arith ZArith QArith Bool.
Import ListNotations.
Local Open Scope Z_scope.

(** Truthy positions of a footprint in row-major order, relative to its centre: SciPy's generic_filter puts
    the centre at (height // 2, width // 2). *)
Definition offsets (footprint : list (list bool)) : list (Z * Z) :=
  let h := length footprint in
  let w := length (hd [] footprint) in
  flat_map (fun i => flat_map (fun j =>
      if nth j (nth i footprint []) false then [(Z.of_nat i - Z.of_nat (h / 2), Z.of_nat j - Z.of_nat (w / 2))] else [])
    (seq 0 w)) (seq 0 h).

(** scipy.ndimage.generic_filter(flat_index_map, ..., mode="constant", cval=-1): the values handed to the
    function for the point in row r and column c of a map of ny rows and nx columns. *)
Definition picked (footprint : list (list bool)) (ny nx r c : nat) : list Z :=
  map (fun o => let y := Z.of_nat r + fst o in
                let x := Z.of_nat c + snd o in
                if (0 <=? y) && (y <? Z.of_nat ny) && (0 <=? x) && (x <? Z.of_nat nx)
                then y * Z.of_nat nx + x else -1)
      (offsets footprint).

(** Indexing an array along its first axis with an integer that may be negative. *)
Definition row_at {A} (rows : list (list A)) (i : Z) : list A :=
  nth (Z.to_nat (if i <? 0 then Z.of_nat (length rows) + i else i)) rows [].

(** len(np.intersect1d(a, b)): the number of different values in both. *)
Definition len_intersect1d (a b : list Z) : nat :=
  length (nodup Z.eq_dec (filter (fun x => existsb (Z.eqb x) b) a)).

(** np.nanmean of a list of integers; None is nan (of an empty list). *)
Definition mean (l : list nat) : option Q :=
  match l with
  | [] => None
  | _ => Some (inject_Z (Z.of_nat (list_sum l)) / inject_Z (Z.of_nat (length l)))%Q
  end.

(** _orientation_similarity_per_pixel, 131-152. The outer option is the IndexError of a center_index
    outside the truthy values, the inner one nan. *)
Definition per_pixel (v : list Z) (center_index : nat) (match_indices : list (list Z)) (n : nat) (normalize : bool)
  : option (option Q) :=
  match nth_error v center_index with
  | None => None
  | Some center_value =>
      let neighbours := filter (fun x => negb (x =? -1) && negb (x =? center_value)) v in
      let equal := map (fun i => len_intersect1d (row_at match_indices center_value) (row_at match_indices i)) neighbours in
      Some (match mean equal with
            | None => None
            | Some m => if normalize then (if (n =? 0)%nat then None else Some (m / inject_Z (Z.of_nat n))%Q) else Some m
            end)
  end.

(** One layer of the map, as rows of columns. *)
Definition layer (footprint : list (list bool)) (center_index ny nx : nat) (simulation_indices : list (list Z))
  (n : nat) (normalize : bool) : list (list (option (option Q))) :=
  let match_indices := map (firstn n) simulation_indices in
  map (fun r => map (fun c => per_pixel (picked footprint ny nx r c) center_index match_indices n normalize) (seq 0 nx)) (seq 0 ny).

Definition default_footprint : list (list bool) :=
  [[false; true; false]; [true; true; true]; [false; true; false]].

(** orientation_similarity_map, 32-116, for maps with two navigation axes (with one, osm[:, :, i] raises an
    IndexError), keep_n simulation indices per point, n_best and from_n_best not negative. None is the
    ValueError of n_best > keep_n or of a negative number of layers. Simplifications: the layers are a list
    instead of the last axis; the final squeeze, which removes axes of length 1, is in SimilarityShape.v. *)
Definition orientation_similarity_map (ny nx keep_n : nat) (simulation_indices : list (list Z)) (n_best : option nat)
  (normalize : bool) (from_n_best : option nat) (footprint : option (list (list bool))) (center_index : nat)
  : option (list (list (list (option (option Q))))) :=
  let n_best := match n_best with None => keep_n | Some n => n end in
  if (keep_n <? n_best)%nat then None else
  let from_n_best := match from_n_best with None => n_best | Some n => n end in
  if (n_best + 1 <? from_n_best)%nat then None else
  let footprint := match footprint with None => default_footprint | Some f => f end in
  Some (map (fun i => layer footprint center_index ny nx simulation_indices (n_best - i) normalize)
            (seq 0 (n_best + 1 - from_n_best))).
