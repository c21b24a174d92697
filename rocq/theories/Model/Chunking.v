(** Chunked (dask) arrays and signals/util/_dask.py (get_chunking, lines 33-111, get_dask_array,
    114-160, and _reduce_chunks, 163-195).

    dask is outside the repository.  What is modelled of it is its documented behaviour: how a chunk
    specification per axis becomes a tuple of chunk sizes, [from_array], [rechunk], [map_blocks] and
    [compute].  The way dask chooses sizes for axes marked "auto" from the byte limit is a parameter
    [auto]: any function that gives every axis a size of at least one.  Data types are left out (they
    only enter the byte limit and the final cast, which acts on each value). *)
From Coq Require Import List Arith ZArith Bool.
Import ListNotations.

(** ** dask arrays *)

(** Index of an element in an array with any number of axes. *)
Definition index := list nat.

(** A dask array: for every axis the chunk sizes; for every block (its number along each axis) the
    block, a function of the index within the block. *)
Record darray (A : Type) := DArray { chunks : list (list nat); block : list nat -> index -> A }.
Arguments DArray {A}.  Arguments chunks {A}.  Arguments block {A}.

Definition axis_length (cs : list nat) : nat := fold_right Nat.add 0 cs.
Definition shape {A} (d : darray A) : list nat := map axis_length (chunks d).

(** First index of block k along an axis. *)
Definition start (cs : list nat) (k : nat) : nat := axis_length (firstn k cs).
(** Number of the block that holds index i, and the index within this block. *)
Fixpoint block_of (cs : list nat) (i : nat) : nat * nat :=
  match cs with
  | [] => (0, i)
  | c :: r => if i <? c then (0, i) else let (k, o) := block_of r (i - c) in (S k, o)
  end.

Fixpoint map2 {A B C} (f : A -> B -> C) (l : list A) (m : list B) : list C :=
  match l, m with a :: l', b :: m' => f a b :: map2 f l' m' | _, _ => [] end.

(** da.from_array(data, chunks) *)
Definition from_array {A} (data : index -> A) (cs : list (list nat)) : darray A :=
  DArray cs (fun ks os => data (map2 Nat.add (map2 start cs ks) os)).
(** darray.compute(): every element is taken from the block that holds it *)
Definition compute {A} (d : darray A) : index -> A :=
  fun i => let bs := map2 block_of (chunks d) i in block d (map fst bs) (map snd bs).
(** darray.rechunk(chunks) *)
Definition rechunk {A} (d : darray A) (cs : list (list nat)) : darray A := from_array (compute d) cs.
(** Size of a block along each axis. *)
Definition block_shape {A} (d : darray A) (ks : list nat) : list nat := map2 (fun cs k => nth k cs 0) (chunks d) ks.
(** da.map_blocks(f, darray): f gets the shape of a block and the block *)
Definition map_blocks {A B} (f : list nat -> (index -> A) -> (index -> B)) (d : darray A) : darray B :=
  DArray (chunks d) (fun ks => f (block_shape d ks) (block d ks)).

(** ** Chunk specifications *)

(** What chunks_dict holds for an axis: "auto", an integer, or -1 *)
Inductive spec := Auto | Size (c : nat) | Whole.

(** dask's rule for an axis of n elements and integer chunk size c (greater c are cut to n):
    (c,) * (n // c), then the rest if there is one; (0,) if the axis is empty *)
Definition blockdims (n c : nat) : list nat :=
  if n =? 0 then [0]
  else let c := Nat.min c n in
       repeat c (n / c) ++ (if n mod c =? 0 then [] else [n mod c]).

(** da.core.normalize_chunks(chunks=chunks_dict, shape=shape, limit=.., dtype=..); [auto] is the
    choice of sizes for "auto" axes, which depends on the specification, shape and limit.
    None: an exception, for a chunk size of 0. *)
Definition normalize_chunks (auto : list spec -> list nat -> nat -> nat) (specs : list spec) (sh : list nat)
    : option (list (list nat)) :=
  if existsb (fun s => match s with Size 0 => true | _ => false end) specs then None
  else Some (map2 (fun i s => let n := nth i sh 0 in
                              match s with
                              | Auto => blockdims n (auto specs sh i)
                              | Size c => blockdims n c
                              | Whole => [n]
                              end) (seq 0 (length specs)) specs).

(** signals/util/_dask.py 33-111: "auto" or chunk_shape for the navigation axes, -1 for the signal
    axes.  nav_dim + sig_dim is the number of axes of the data. *)
Definition get_chunking auto (data_shape : list nat) (nav_dim sig_dim : nat) (chunk_shape : option nat)
    : option (list (list nat)) :=
  let nav := match chunk_shape with None => Auto | Some c => Size c end in
  normalize_chunks auto (repeat nav nav_dim ++ repeat Whole sig_dim) data_shape.

(** np.argmin of two values *)
Definition argmin2 (a b : nat) : nat := if b <? a then 1 else 0.
(** dask_array.chunksize: the largest chunk of each axis *)
Definition chunksize {A} (d : darray A) : list nat := map (fold_right Nat.max 0) (chunks d).

(** signals/util/_dask.py 163-195.  There are always two signal axes.  The byte limit is in bytes. *)
Definition reduce_chunks auto {A} (d : darray A) (chunk_bytes : nat) : option (list (list nat)) :=
  let size := chunksize d in
  let nav_ndim := length size - 2 in
  let nav := repeat Auto nav_ndim in
  let nav := match size with
             | [a; b; sy; sx] =>
               let k := argmin2 a b in
               if (nth k [a; b] 0 * (sy * sx) * 4 <? chunk_bytes) then
                 (if k =? 0 then [Whole; Auto] else [Auto; Whole])
               else nav
             | _ => nav
             end in
  let specs := nav ++ [Whole; Whole] in
  match normalize_chunks auto specs (shape d) with
  | None => None
  | Some new => Some (map2 (fun s on => match s with Whole => fst on | _ => snd on end)
                           specs (combine (chunks d) new))
  end.

(** The data of a signal: a NumPy array with its shape, or a dask array if it is lazy. *)
Inductive sdata (A : Type) := InMemory (sh : list nat) (data : index -> A) | Lazy (d : darray A).
Arguments InMemory {A}.  Arguments Lazy {A}.
Definition value {A} (s : sdata A) : index -> A :=
  match s with InMemory _ data => data | Lazy d => compute d end.
Definition data_shape {A} (s : sdata A) : list nat :=
  match s with InMemory sh _ => sh | Lazy d => shape d end.

(** signals/util/_dask.py 114-160, without the final cast to a data type.  The signal has two signal
    axes.  [auto] is given the byte limit by the caller. *)
Definition get_dask_array auto {A} (s : sdata A) (chunk_shape : option nat) (do_rechunk : bool) (chunk_bytes : nat)
    : option (darray A) :=
  match s with
  | Lazy d => if do_rechunk then option_map (rechunk d) (reduce_chunks auto d chunk_bytes) else Some d
  | InMemory sh data =>
    option_map (from_array data) (get_chunking auto sh (length sh - 2) 2 chunk_shape)
  end.
