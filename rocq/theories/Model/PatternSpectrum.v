(** Fourier transforms of patterns and the image quality, src/kikuchipy/pattern/_pattern.py 213-389 and 698-773, and
    EBSD.get_image_quality, src/kikuchipy/signals/ebsd.py 1312-1375. Arrays and transforms as in Model/FftBarnes.v: real
    numbers instead of floats, scipy.fft's transforms by their defining sums. *)
From Coq Require Import String Reals Arith ZArith List Bool.
From Verif Require Import Model.FftBarnes Model.Pattern.
Import ListNotations.
Local Open Scope R_scope.

(** A transform: its shape and values. *)
Record spectrum2 := Spectrum { rows : nat; columns : nat; at_frequency : nat -> nat -> C }.
(** numpy.fft.fftshift and ifftshift over both axes: np.roll by n // 2 and -(n // 2). *)
Definition roll (n k i : nat) : nat := ((i + n - k mod n) mod n)%nat.
Definition fftshift (s : spectrum2) : spectrum2 :=
  Spectrum (rows s) (columns s) (fun k l => at_frequency s (roll (rows s) (rows s / 2) k) (roll (columns s) (columns s / 2) l)).
Definition ifftshift (s : spectrum2) : spectrum2 :=
  Spectrum (rows s) (columns s) (fun k l => at_frequency s ((k + rows s / 2) mod rows s)%nat ((l + columns s / 2) mod columns s)%nat).
(** scipy.fft.fft2 and rfft2: the latter keeps the columns 0 to width // 2. *)
Definition fft2 (h w : nat) (p : array) : spectrum2 := Spectrum h w (dft2 h w p).
Definition rfft2 (h w : nat) (p : array) : spectrum2 := Spectrum h (w / 2 + 1) (dft2 h w p).
(** scipy.fft.ifft2, and irfft2 without the argument s: 2 (columns - 1) columns, the others from Hermitian symmetry. The imaginary
    parts of the first and last column that irfft2 ignores are zero for transforms of real arrays. *)
Definition conj (c : C) : C := (fst c, - snd c).
Definition ifft2 (s : spectrum2) : nat * nat * (nat -> nat -> C) := (rows s, columns s, idft2 (rows s) (columns s) (at_frequency s)).
Definition irfft2 (s : spectrum2) : nat * nat * (nat -> nat -> C) :=
  let w := (2 * (columns s - 1))%nat in
  (rows s, w, idft2 (rows s) w (fun k l => if (l <? columns s)%nat then at_frequency s k l else conj (at_frequency s ((rows s - k) mod rows s)%nat (w - l)%nat))).

(** fft, 213-264. *)
Definition fft (h w : nat) (p : array) (apodization : option array) (shift real_fft_only : bool) : spectrum2 :=
  let p := match apodization with None => p | Some a => fun y x => p y x * a y x end in
  let out := if real_fft_only then rfft2 h w p else fft2 h w p in
  if shift then fftshift out else out.
(** ifft, 267-309: height, width and values of the pattern. *)
Definition ifft (s : spectrum2) (shift real_fft_only : bool) : nat * nat * array :=
  let s := if shift then ifftshift s else s in
  let '(h, w, p) := if real_fft_only then irfft2 s else ifft2 s in
  (h, w, fun y x => fst (p y x)).
(** The names of keyword arguments: scipy.fft's functions accept those in the list, ifftshift only the axes. With shift=True the
    arguments go to ifftshift (303-304). None is a TypeError. Only names that do not change the values are modelled. *)
Definition transform_options : list string := ["overwrite_x"; "workers"; "plan"]%string.
Definition ifft_with (s : spectrum2) (shift real_fft_only : bool) (options : list string) : option (nat * nat * array) :=
  let accepted := if shift then [] else transform_options in
  if forallb (fun o => existsb (String.eqb o) accepted) options then Some (ifft s shift real_fft_only) else None.
Definition fft_with (h w : nat) (p : array) (apodization : option array) (shift real_fft_only : bool) (options : list string) : option spectrum2 :=
  if forallb (fun o => existsb (String.eqb o) transform_options) options then Some (fft h w p apodization shift real_fft_only) else None.
(** fft_filter, 312-345. *)
Definition times (s : spectrum2) (t : array) : spectrum2 := Spectrum (rows s) (columns s) (fun k l => Cmul (at_frequency s k l) (real (t k l))).
Definition fft_filter (h w : nat) (p transfer : array) (apodization : option array) (shift : bool) : nat * nat * array :=
  ifft (times (fft h w p apodization shift false) transfer) shift false.

(** fft_spectrum, 348-362. *)
Definition modulus (c : C) : R := sqrt (fst c * fst c + snd c * snd c).
(** fft_frequency_vectors, 365-389: one axis, and the array. *)
Definition line (n j : nat) : Z := if (j <? n / 2)%nat then (Z.of_nat j + 1)%Z else (Z.of_nat j + 1 - (Z.of_nat n + 1))%Z.
Definition frequency_vectors (h w : nat) : array := fun i j => IZR (line h i ^ 2 + line w j ^ 2 - 1).

Fixpoint rsum (n : nat) (f : nat -> R) : R := match n with O => 0 | S n => rsum n f + f n end.
Definition sum2 (h w : nat) (a : array) : R := rsum h (fun y => rsum w (fun x => a y x)).
(** _get_image_quality_numba, 763-773. None is nan or infinite. *)
Definition image_quality_of (h w : nat) (t : nat -> nat -> C) (weights : array) (inertia_max : R) : option R :=
  let s := sum2 h w (fun k l => modulus (t k l)) in
  if Req_EM_T s 0 then None else if Req_EM_T inertia_max 0 then None else
  Some (1 - sum2 h w (fun k l => modulus (t k l) * weights k l) / s / inertia_max).
(** The pixels in a list, and normalize_intensity (154-195, num_std 1) on arrays; None if all pixels are equal (division by zero). *)
Definition pixels (h w : nat) (p : array) : list R := flat_map (fun y => map (fun x => p y x) (seq 0 w)) (seq 0 h).
Definition normalized (h w : nat) (p : array) : option array :=
  let m := vmean (pixels h w p) in let d := vstd (pixels h w p) in
  if Req_EM_T d 0 then None else Some (fun y x => (p y x - m) / (1 * d)).
(** get_image_quality, 698-741, without the two optional arrays, and _get_image_quality, 744-760. *)
Definition inertia_max (h w : nat) (weights : array) : R := sum2 h w weights / (INR h * INR w).
Definition get_image_quality (h w : nat) (p : array) (normalize : bool) : option R :=
  let weights := frequency_vectors h w in
  match (if normalize then normalized h w p else Some p) with
  | None => None
  | Some p => image_quality_of h w (dft2 h w p) weights (inertia_max h w weights)
  end.
(** EBSD.get_image_quality: the frequency vectors and the largest inertia are computed once for the signal shape (sx, sy). *)
Definition image_quality_map (sx sy : nat) (patterns : list array) (normalize : bool) : list (option R) :=
  let weights := frequency_vectors sy sx in
  let top := sum2 sy sx weights / (INR sy * INR sx) in
  map (fun p => match (if normalize then normalized sy sx p else Some p) with
                | None => None
                | Some p => image_quality_of sy sx (dft2 sy sx p) weights top
                end) patterns.
