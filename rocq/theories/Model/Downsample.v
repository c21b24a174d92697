(** Downsampling of one pattern (pattern/_pattern.py _bin2d, lines 777-792, and _downsample2d,
    795-808) and of a detector (signals/ebsd.py downsample, lines 1199-1201).

    Simplification: real numbers instead of float32. *)
From Coq Require Import List Arith ZArith Reals.
From Verif Require Import Model.Pattern Model.Intensity Model.MapOverlap.
From Verif Require Model.Detector.
Import ListNotations.
Local Open Scope R_scope.

(** An image: number of rows and columns, intensity at row and column. *)
Notation image := (amap R).

(** The loops of _bin2d: for the new pixel (r, c), over the rows rr of the block the columns cc of
    the block are added to the value. *)
Definition bin2d (factor : nat) (m : image) : image :=
  AMap (nrows m / factor) (ncols m / factor)
    (fun r c => fold_left (fun value rr => fold_left (fun value cc => value + at_ m rr cc)
                                             (seq (c * factor) factor) value)
                  (seq (r * factor) factor) 0).

(** All pixels in reading order. *)
Definition pixels (m : image) : pattern :=
  flat_map (fun r => map (at_ m r) (seq 0 (ncols m))) (seq 0 (nrows m)).

(** _downsample2d, with omin and omax the range of the data type: bin, rescale from the extremes of
    the binned pattern to the range (formula of _rescale_with_min_max, lines 96-112), cast *)
Definition downsample2d (factor : nat) (t : dtype) (m : image) : image :=
  let b := bin2d factor m in
  let imin := vmin (pixels b) in
  let imax := vmax (pixels b) in
  AMap (nrows b) (ncols b)
    (fun r c => cast t ((at_ b r c - imin) / (imax - imin) * (dtype_max t - dtype_min t) + dtype_min t)).

(** ebsd.py 1199-1201: detector.shape = new shape; detector.binning *= factor.  The getter of binning
    truncates to an integer (detectors/_ebsd_detector.py 681-695). *)
Definition downsample_detector (factor : nat) (ny nx : nat) (d : Detector.detector) : Detector.detector :=
  Detector.Det (Z.of_nat ny) (Z.of_nat nx) (Detector.d_px_size d)
    (IZR (Detector.trunc (Detector.d_binning d)) * INR factor)
    (Detector.d_tilt d) (Detector.d_azimuthal d) (Detector.d_twist d) (Detector.d_sample_tilt d) (Detector.d_pc d).
