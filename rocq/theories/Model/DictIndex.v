(** Model of dictionary indexing.
    Source: /repo/src/kikuchipy/indexing/_dictionary_indexing.py *)
From Coq Require Import List ZArith Permutation Sorting.Sorted.
Import ListNotations.
Open Scope Z_scope.

(** A candidate match: (dictionary index, score).
    Scores are integers: only their order and the placeholder value matter, and every
    finite float is an integer multiple of the smallest float. NaN scores (constant
    patterns) are added in Model/DictUnscored.v. *)
Notation entry := (nat * Z)%type.
Definition eidx (e : entry) : nat := fst e.
Definition escore (e : entry) : Z := snd e.

(** [TopK key k cands out]: [out] is a possible outcome of "sort the candidates by
    decreasing [key] and keep the first [k]", ties being broken arbitrarily. Models
    - dask [argtopk]/[topk] (lines 197-198) with [key = escore]; both are sorted
      largest first, and return fewer than [k] columns when there are fewer
      candidates;
    - [np.argsort(negative_sign * all_scores, axis=1)[:, :keep_n]] followed by
      [take_along_axis] (lines 124-128) with [key e = sgn * escore e]; the default
      NumPy sort is not stable, hence a relation and not a function. *)
Definition TopK (key : entry -> Z) (k : nat) (cands out : list entry) : Prop :=
  exists rest,
    Permutation cands (out ++ rest) /\
    StronglySorted (fun a b => key b <= key a) out /\
    length out = Nat.min k (length cands) /\
    (forall a b, In a out -> In b rest -> key b <= key a).

(** A deterministic instance (insertion sort), used to run the model. *)
Fixpoint insert_desc (key : entry -> Z) (x : entry) (l : list entry) : list entry :=
  match l with
  | [] => [x]
  | y :: l' => if key y <? key x then x :: l else y :: insert_desc key x l'
  end.
Fixpoint sort_desc (key : entry -> Z) (l : list entry) : list entry :=
  match l with [] => [] | x :: l' => insert_desc key x (sort_desc key l') end.
Definition topk_fun (key : entry -> Z) (k : nat) (l : list entry) : list entry :=
  firstn k (sort_desc key l).

(** Python slice [l[start:end]] with 0 <= start; the end is clipped to the length. *)
Definition slice {A} (l : list A) (start stop : nat) : list A :=
  firstn (stop - start) (skipn start l).

(** Similarities of one experimental pattern with a part of the dictionary, with the
    positions within that part (lines 195-198: [metric.match], [argtopk], [topk]).
    [row] is the row of the full similarity table for this pattern: the similarity
    with a dictionary entry does not depend on the part it is in. *)
Definition chunk_entries (row : list Z) (start stop : nat) : list entry :=
  let s := slice row start stop in combine (seq 0 (length s)) s.

(** [_match_chunk] (lines 172-203). The metric's sign is not used. *)
Definition match_chunk (row : list Z) (start stop k : nat) (out : list entry) : Prop :=
  TopK escore k (chunk_entries row start stop) out.

(** [simulation_indices_i += start] (line 118). *)
Definition shift (start : nat) (l : list entry) : list entry :=
  map (fun e => ((start + eidx e)%nat, escore e)) l.

(** One iteration of the loop (lines 105-128) for one experimental pattern. *)
Definition loop_step (sgn : Z) (row : list Z) (keep_n : nat) (bounds : nat * nat)
    (prev next : list entry) : Prop :=
  let (start, stop) := bounds in
  exists top, match_chunk row start stop (Nat.min keep_n (stop - start)) top /\
    TopK (fun e => sgn * escore e) keep_n (prev ++ shift start top) next.

Inductive loop (sgn : Z) (row : list Z) (keep_n : nat) :
    list (nat * nat) -> list entry -> list entry -> Prop :=
| loop_done : forall acc, loop sgn row keep_n [] acc acc
| loop_more : forall b bs acc acc' res,
    loop_step sgn row keep_n b acc acc' ->
    loop sgn row keep_n bs acc' res ->
    loop sgn row keep_n (b :: bs) acc res.

(** [np.cumsum] of a list. *)
Fixpoint cumsum_from (a : nat) (l : list nat) : list nat :=
  match l with [] => [] | x :: l' => (a + x)%nat :: cumsum_from (a + x) l' end.
Definition cumsum := cumsum_from 0.

(** Ceiling division, [int(np.ceil(a / b))]. *)
Definition ceil_div (a b : nat) : nat := Nat.div (a + b - 1) b.

(** [l[-1] = max(l[-1], m)]. *)
Fixpoint raise_last (l : list nat) (m : nat) : list nat :=
  match l with
  | [] => []
  | [x] => [Nat.max x m]
  | x :: l' => x :: raise_last l' m
  end.

(** Chunk bounds (lines 68, 102-104). *)
Definition n_iterations (dict_size n_per : nat) : nat := ceil_div dict_size n_per.
Definition chunk_bounds (dict_size n_per : nat) : list (nat * nat) :=
  let n_it := n_iterations dict_size n_per in
  let starts := cumsum (0%nat :: repeat n_per (n_it - 1)) in
  let ends := raise_last (cumsum (repeat n_per n_it)) dict_size in
  combine starts ends.

(** [_dictionary_indexing] for one experimental pattern (lines 66-128).
    [one] stands for the score 1.0 in the integer scale of the scores, so the
    placeholder score is [- sgn * one] and the placeholder index 0 (lines 95-98).
    Reshaping, progress bars, timing and the lazy/non-lazy distinction are left out. *)
Definition index_row (one sgn : Z) (row : list Z) (keep_n n_per : nat)
    (res : list entry) : Prop :=
  let dict_size := length row in
  let keep := Nat.min keep_n dict_size in
  if Nat.eqb dict_size n_per then match_chunk row 0 dict_size keep res
  else loop sgn row keep (chunk_bounds dict_size n_per)
         (repeat (0%nat, - sgn * one) keep) res.

(** All experimental patterns (rows of the similarity table) are treated alike: the
    array operations act along axis 1 or element-wise. *)
Definition index_all (one sgn : Z) (rows : list (list Z)) (keep_n n_per : nat)
    (res : list (list entry)) : Prop :=
  Forall2 (fun row r => index_row one sgn row keep_n n_per r) rows res.

(** A runnable version with the insertion sort. *)
Definition loop_step_fun (sgn : Z) (row : list Z) (keep_n : nat) (acc : list entry)
    (bounds : nat * nat) : list entry :=
  let (start, stop) := bounds in
  let top := topk_fun escore (Nat.min keep_n (stop - start))
               (chunk_entries row start stop) in
  topk_fun (fun e => sgn * escore e) keep_n (acc ++ shift start top).
Definition index_row_fun (one sgn : Z) (row : list Z) (keep_n n_per : nat) : list entry :=
  let dict_size := length row in
  let keep := Nat.min keep_n dict_size in
  if Nat.eqb dict_size n_per then topk_fun escore keep (chunk_entries row 0 dict_size)
  else fold_left (loop_step_fun sgn row keep) (chunk_bounds dict_size n_per)
         (repeat (0%nat, - sgn * one) keep).

(** Navigation mask (metric.prepare_experimental, _normalized_cross_correlation.py
    lines 117-118: [patterns[~navigation_mask.ravel()]]). *)
Fixpoint compress {A} (keep : list bool) (l : list A) : list A :=
  match keep, l with
  | b :: keep', x :: l' => if b then x :: compress keep' l' else compress keep' l'
  | _, _ => []
  end.

(** [full[nav_mask] = values] (lines 147, 150, 154): boolean-mask assignment into an
    array filled with [fill]. NumPy raises an error when the number of values differs
    from the number of True entries: [None]. *)
Fixpoint scatter {A} (fill : A) (keep : list bool) (vals : list A) : option (list A) :=
  match keep, vals with
  | [], [] => Some []
  | [], _ :: _ => None
  | true :: _, [] => None
  | true :: keep', v :: vals' =>
      option_map (cons v) (scatter fill keep' vals')
  | false :: keep', _ => option_map (cons fill) (scatter fill keep' vals)
  end.

(** Result of indexing with a mask for a map with points 0 .. n-1 (lines 142-163):
    for each point, whether it is in the data and the entry stored there. [f] gives
    the result of one pattern. *)
Definition index_masked {P A} (f : P -> A) (fill : A) (nav_mask : list bool)
    (patterns : list P) : option (list (bool * A)) :=
  let keep := map negb nav_mask in
  match scatter fill keep (map f (compress keep patterns)) with
  | Some l => Some (combine keep l)
  | None => None
  end.
