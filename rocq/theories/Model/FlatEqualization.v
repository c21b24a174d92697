(** Adaptive histogram equalization of patterns without contrast: signals/_kikuchipy_signal.py
    adaptive_histogram_equalization (340-469) and pattern/_pattern.py _adaptive_histogram_equalization (810-840).

    As in Model/Equalization.v, with the same parameter for the equalizer of scikit-image, here with the outcome of a
    division by zero in the final rescaling (Model/FlatPatterns.v). *)
From Coq Require Import List Reals ZArith.
From Verif Require Import Model.Pattern Model.Intensity Model.Equalization Model.FlatPatterns.
Import ListNotations.
Local Open Scope R_scope.

Section Equalize.
Variable equalize_adapthist : list Z -> R -> nat -> nat * nat -> pattern -> pattern.

(** _adaptive_histogram_equalization (838-840) *)
Definition equalized_pattern (t : dtype) (shape : nat * nat) (kernel : list Z) (clip_limit : R) (nbins : nat) (p : pattern) : list (option R) :=
  rescaled_pattern None None t None (equalize_adapthist kernel clip_limit nbins shape p).

(** adaptive_histogram_equalization (423-469); None is the ValueError on kernel_size. *)
Definition equalized_signal (t : dtype) (shape : nat * nat) (k : kernel_argument) (clip_limit : R) (nbins : nat)
    (data : list pattern) : option (list (list (option R))) :=
  option_map (fun kernel => map (equalized_pattern t shape kernel clip_limit nbins) data) (kernel_size (fst shape) (snd shape) k).
End Equalize.
