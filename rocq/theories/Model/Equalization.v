(** Adaptive histogram equalization: signals/_kikuchipy_signal.py adaptive_histogram_equalization (340-469, "sig") and
    pattern/_pattern.py _adaptive_histogram_equalization (810-840, "pat"), the same for patterns, master patterns and
    virtual images.

    Simplifications: real numbers; skimage.exposure.equalize_adapthist is a parameter, which gets the shape of its
    contextual regions as (rows, columns), the clip limit, the number of bins and the image with its shape;
    HyperSpy's [map] applies the function to each pattern (inplace and lazy output are in Model/SignalHeap.v). *)
From Coq Require Import List Reals ZArith Bool.
From Verif Require Import Model.Pattern Model.Intensity.
From Verif Require Model.Detector.
Import ListNotations.
Local Open Scope R_scope.

(** The argument kernel_size: None, a number, or a tuple or list of numbers. *)
Inductive kernel_argument := Default | OneNumber (k : R) | Numbers (l : list R).

(** sig 437-445. HyperSpy's signal_shape is (columns, rows). None is the ValueError. *)
Definition signal_shape (nrows ncols : nat) : nat * nat := (ncols, nrows).
Definition kernel_size (nrows ncols : nat) (k : kernel_argument) : option (list Z) :=
  let sig_shape := signal_shape nrows ncols in
  option_map (map Detector.trunc)
    match k with
    | Default => Some [INR (fst sig_shape / 4); INR (snd sig_shape / 4)]
    | OneNumber k => Some [k; k]
    | Numbers l => if Nat.eqb (length l) 2 then Some l else None
    end.

Section Equalize.
Variable equalize_adapthist : list Z -> R -> nat -> nat * nat -> pattern -> pattern.

(** pat 838-840 *)
Definition equalize_pattern (t : dtype) (shape : nat * nat) (kernel : list Z) (clip_limit : R) (nbins : nat) (p : pattern) : pattern :=
  let image_eq := equalize_adapthist kernel clip_limit nbins shape p in
  rescale_intensity None None t None image_eq.

(** sig 423-469: the new data. None is the ValueError on kernel_size. *)
Definition adaptive_histogram_equalization (t : dtype) (shape : nat * nat) (k : kernel_argument) (clip_limit : R) (nbins : nat)
    (data : list pattern) : option (list pattern) :=
  option_map (fun kernel => map (equalize_pattern t shape kernel clip_limit nbins) data) (kernel_size (fst shape) (snd shape) k).
End Equalize.

(** The warning (sig 426-435): data with NaN is only looked for in signals in memory. *)
Inductive warning := NaNWarning | FloatWarning.
Definition equalization_warning (lazy has_nan : bool) (t : dtype) : option warning :=
  if negb lazy && has_nan then Some NaNWarning else if is_float t then Some FloatWarning else None.
