(** Similarity metrics with scores which are not numbers:
    indexing/similarity_metrics/_normalized_cross_correlation.py (83-86, 113-128, 152-159, 181-197, 228-241) and
    _normalized_dot_product.py (75-78, 105-120, 143-150, 172-174, 176-194).

    As in Model/Similarity.v, with the outcome of a division by zero (Model/FlatPatterns.v): None is NaN. *)
From Coq Require Import List Reals.
From Verif Require Import Model.Pattern Model.Similarity Model.FlatPatterns.
Import ListNotations.
Local Open Scope R_scope.

(** _zero_mean_normalize_patterns_* (228-241) and _normalize_patterns (181-194 of _normalized_dot_product.py): one row. *)
Definition prepared_row (m : metric) (p : pattern) : list (option R) :=
  let p := match m with NCC => zero_mean p | NDP => p end in
  map (fun x => divided x (sqrt (dot p p))) p.
(** One element of einsum("ik,mk->im", ...) (181-183): a sum with NaN in it is NaN. *)
Fixpoint summed (p q : list (option R)) : option R :=
  match p, q with
  | x :: p', y :: q' =>
      match x, y, summed p' q' with Some a, Some b, Some s => Some (a * b + s) | _, _, _ => None end
  | _, _ => Some 0
  end.
(** __call__ (83-86): masking, preparation and match. *)
Definition scores_shown (m : metric) (nav_mask sig_mask : option (list bool)) (experimental dictionary : list pattern) : list (list (option R)) :=
  let experimental := map (fun p => prepared_row m (apply_mask sig_mask p)) (apply_mask nav_mask experimental) in
  let dictionary := map (fun p => prepared_row m (apply_mask sig_mask p)) dictionary in
  map (fun e => map (fun d => summed e d) dictionary) experimental.
