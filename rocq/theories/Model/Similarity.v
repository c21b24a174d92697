(** Similarity metrics: indexing/similarity_metrics/_normalized_cross_correlation.py,
    _normalized_dot_product.py, and the objective of refinement,
    indexing/_refinement/_objective_functions.py.

    Simplification: real arithmetic, see Model/Pattern.v; dask chunking of the arrays in einsum
    and of the rows is not modelled (each score depends on one pair of rows); casting to
    [self.dtype] is the identity. *)
From Coq Require Import List Reals.
From Verif Require Import Model.Pattern.
Import ListNotations.
Local Open Scope R_scope.

(** [patterns[:, ~mask.ravel()]] on one row and [patterns[~mask.ravel()]] on rows:
    keep what is False in the mask. None: no mask. (lines 117-121, 185-188) *)
Fixpoint select {A} (mask : list bool) (l : list A) : list A :=
  match mask, l with
  | m :: mask', x :: l' => if m then select mask' l' else x :: select mask' l'
  | _, _ => []
  end.
Definition apply_mask {A} (mask : option (list bool)) (l : list A) : list A :=
  match mask with None => l | Some m => select m l end.

(** _zero_mean_normalize_patterns_*, lines 190-197 and 228-241, one row. *)
Definition zero_mean_normalize (p : pattern) : pattern := normalize (zero_mean p).

(** A metric: how a row is prepared after masking.  _sign is 1 for both. *)
Inductive metric := NCC | NDP.
Definition prepare_row (m : metric) (p : pattern) : pattern :=
  match m with NCC => zero_mean_normalize p | NDP => normalize p end.

(** prepare_experimental, lines 113-128 (105-120 in _normalized_dot_product.py). *)
Definition prepare_experimental (m : metric) (nav_mask sig_mask : option (list bool))
    (patterns : list pattern) : list pattern :=
  map (fun p => prepare_row m (apply_mask sig_mask p)) (apply_mask nav_mask patterns).
(** prepare_dictionary, lines 152-159 (143-150). *)
Definition prepare_dictionary (m : metric) (sig_mask : option (list bool))
    (patterns : list pattern) : list pattern :=
  map (fun p => prepare_row m (apply_mask sig_mask p)) patterns.
(** match, lines 181-183 (172-174). *)
Definition match_patterns (experimental dictionary : list pattern) : list (list R) :=
  map (fun e => map (fun d => dot e d) dictionary) experimental.
(** __call__, lines 83-86 (75-78). *)
Definition scores (m : metric) (nav_mask sig_mask : option (list bool))
    (experimental dictionary : list pattern) : list (list R) :=
  match_patterns (prepare_experimental m nav_mask sig_mask experimental)
                 (prepare_dictionary m sig_mask dictionary).

(** _ncc_single_patterns_1d_float32_exp_centered, lines 200-225. *)
Definition ncc_single (exp sim : pattern) (exp_squared_norm : R) : R :=
  let sim := zero_mean sim in
  dot exp sim / sqrt (exp_squared_norm * dot sim sim).

(** _refinement/_solvers.py _prepare_pattern, lines 50-72, with
    pattern/_pattern.py _zero_mean_sum_square_1d_float32, lines 136-139. *)
Definition prepare_pattern (rescale : bool) (p : pattern) : pattern * R :=
  let p := if rescale then rescale_without_min_max p else p in
  let p := zero_mean p in
  (p, dot p p).

(** The value returned by the three objective functions (lines 36-200) for an experimental pattern
    prepared by [_prepare_pattern] and the pattern simulated for the current parameters. *)
Definition objective (rescale : bool) (exp sim : pattern) : R :=
  let (p, n2) := prepare_pattern rescale exp in
  1 - ncc_single p sim n2.
