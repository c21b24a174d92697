(** Arithmetic on one pattern (a flat list of pixel intensities).

    Simplification: pixel values and all intermediate results are real numbers; the code uses
    float32 or float64.  NaN and infinities do not exist here: a division by zero in the code is
    covered by no theorem (hypotheses exclude it) or is modelled with [option]. *)
From Coq Require Import List Reals.
Import ListNotations.
Local Open Scope R_scope.

Notation pattern := (list R).

(** np.sum, np.mean, and the sum of products that [neighbour_patterns @ pattern]
    (signals/util/_map_helper.py line 149) and einsum "ik,mk->im" compute for one pair. *)
Definition vsum (p : pattern) : R := fold_right Rplus 0 p.
Definition vmean (p : pattern) : R := vsum p / INR (length p).
Fixpoint dot (p q : pattern) : R :=
  match p, q with
  | x :: p', y :: q' => x * y + dot p' q'
  | _, _ => 0
  end.

(** pattern/_pattern.py _zero_mean, lines 142-144; first half of
    _zero_mean_normalize_patterns_numpy/_dask, similarity_metrics/
    _normalized_cross_correlation.py lines 228-241. *)
Definition zero_mean (p : pattern) : pattern := map (fun x => x - vmean p) p.

(** pattern/_pattern.py _normalize, lines 147-151; second half of the same functions;
    _normalized_dot_product.py _normalize_patterns lines 181-194. *)
Definition normalize (p : pattern) : pattern := map (fun x => x / sqrt (dot p p)) p.

(** np.min and np.max of a non-empty pattern (0 for an empty one, on which NumPy raises). *)
Definition vmin (p : pattern) : R := match p with [] => 0 | x :: r => fold_right Rmin x r end.
Definition vmax (p : pattern) : R := match p with [] => 0 | x :: r => fold_right Rmax x r end.

(** pattern/_pattern.py _rescale_with_min_max, lines 96-112. *)
Definition rescale_with_min_max (imin imax omin omax : R) (p : pattern) : pattern :=
  map (fun x => (x - imin) / (imax - imin) * (omax - omin) + omin) p.

(** pattern/_pattern.py _rescale_without_min_max and its 1D twin, lines 115-134. *)
Definition rescale_without_min_max (p : pattern) : pattern :=
  rescale_with_min_max (vmin p) (vmax p) (-1) 1 p.

(** pattern/_pattern.py _normalize_intensity, lines 199-210: np.std is the population standard
    deviation. *)
Definition vstd (p : pattern) : R := sqrt (vmean (map (fun x => (x - vmean p) * (x - vmean p)) p)).
Definition normalize_intensity (num_std : R) (divide_by_square_root : bool) (p : pattern) : pattern :=
  let d := if divide_by_square_root
           then num_std * vstd p * sqrt (INR (length p))
           else num_std * vstd p in
  map (fun x => (x - vmean p) / d) p.
