(** Model of dictionary indexing when some scores are not numbers (NaN).
    Source: /repo/src/kikuchipy/indexing/_dictionary_indexing.py and
    indexing/similarity_metrics/_normalized_cross_correlation.py *)
From Coq Require Import List ZArith Reals Permutation Sorting.Sorted.
From Verif Require Import Model.DictIndex.
Import ListNotations.
Open Scope Z_scope.

(** * Scores which are not numbers *)

(** [np.mean] and [np.sum] of the pixels of a pattern, over the reals. *)
Definition total (p : list R) : R := fold_right Rplus 0%R p.
Definition mean (p : list R) : R := (total p / INR (length p))%R.

(** [_zero_mean_normalize_patterns_numpy] (_normalized_cross_correlation.py lines
    228-233), and the Dask version (236-241), for one pattern: subtract the mean and
    divide by the norm. Division by a norm of 0 gives NaN for every pixel: [None].
    Simplified: over the reals, so that no rounding happens in the mean. *)
Definition centred (p : list R) : list R := map (fun x => x - mean p)%R p.
Definition squares (p : list R) : R := total (map (fun x => x * x)%R p).
Definition normalised (p : list R) : option (list R) :=
  let c := centred p in
  let n := sqrt (squares c) in
  if Req_EM_T n 0 then None else Some (map (fun x => x / n)%R c).

(** [NormalizedCrossCorrelationMetric.match] (lines 161-183) for one experimental and
    one dictionary pattern: sum of products. A NaN in either gives NaN. *)
Definition score (e d : list R) : option R :=
  match normalised e, normalised d with
  | Some a, Some b => Some (total (map (fun xy => fst xy * snd xy)%R (combine a b)))
  | _, _ => None
  end.

(** * Choosing matches *)

(** A candidate match: (dictionary index, score), the score being [None] when it is
    NaN and otherwise an integer as in Model/DictIndex.v. *)
Notation uentry := (nat * option Z)%type.

(** [a] may come before [b] when sorted by decreasing score with [topk]/[argtopk]
    (lines 197-198). NumPy's [partition] and [sort] put NaN after all numbers, and
    these functions reverse that order, so NaN comes first. *)
Definition before_topk (a b : uentry) : Prop :=
  match snd a, snd b with
  | None, _ => True
  | Some _, None => False
  | Some x, Some y => y <= x
  end.

(** [a] may come before [b] in [np.argsort(negative_sign * all_scores)] (line 124):
    NaN comes last, also when multiplied by -1. *)
Definition before_argsort (sgn : Z) (a b : uentry) : Prop :=
  match snd a, snd b with
  | _, None => True
  | None, Some _ => False
  | Some x, Some y => sgn * y <= sgn * x
  end.

(** The first [k] candidates in an order, ties being broken arbitrarily (compare
    [TopK] of Model/DictIndex.v). *)
Definition First (before : uentry -> uentry -> Prop) (k : nat)
    (cands out : list uentry) : Prop :=
  exists rest,
    Permutation cands (out ++ rest) /\
    StronglySorted before out /\
    length out = Nat.min k (length cands) /\
    (forall a b, In a out -> In b rest -> before a b).

(** [_match_chunk] (lines 172-203) for one experimental pattern and the dictionary
    entries from [start] to [stop], and line 118 [simulation_indices_i += start]. *)
Definition chunk_scores (row : list (option Z)) (start stop : nat) : list uentry :=
  let s := slice row start stop in combine (seq 0 (length s)) s.
Definition match_part (row : list (option Z)) (start stop k : nat)
    (out : list uentry) : Prop :=
  First before_topk k (chunk_scores row start stop) out.
Definition from_start (start : nat) (l : list uentry) : list uentry :=
  map (fun e => ((start + fst e)%nat, snd e)) l.

(** One iteration of the loop (lines 105-128). *)
Definition part_step (sgn : Z) (row : list (option Z)) (keep : nat)
    (bounds : nat * nat) (prev next : list uentry) : Prop :=
  let (start, stop) := bounds in
  exists top, match_part row start stop (Nat.min keep (stop - start)) top /\
    First (before_argsort sgn) keep (prev ++ from_start start top) next.
Inductive parts (sgn : Z) (row : list (option Z)) (keep : nat) :
    list (nat * nat) -> list uentry -> list uentry -> Prop :=
| parts_done : forall acc, parts sgn row keep [] acc acc
| parts_more : forall b bs acc acc' res,
    part_step sgn row keep b acc acc' ->
    parts sgn row keep bs acc' res ->
    parts sgn row keep (b :: bs) acc res.

(** [_dictionary_indexing] (lines 66-128) for one experimental pattern; [one] and
    [sgn] as in Model/DictIndex.v. *)
Definition match_row (one sgn : Z) (row : list (option Z)) (keep_n n_per : nat)
    (res : list uentry) : Prop :=
  let dict_size := length row in
  let keep := Nat.min keep_n dict_size in
  if Nat.eqb dict_size n_per then match_part row 0 dict_size keep res
  else parts sgn row keep (chunk_bounds dict_size n_per)
         (repeat (0%nat, Some (- sgn * one)) keep) res.
