(** Downsampling of patterns whose blocks are equally bright: pattern/_pattern.py _bin2d (lines
    777-792) and _downsample2d (795-808), and the checks of EBSD.downsample()
    (signals/ebsd.py 1167-1184).

    As in Model/Downsample.v, here with the outcome of a division by zero (Model/FlatPatterns.v).
    Simplification: real numbers instead of float32. *)
From Coq Require Import List Arith Reals Bool.
From Verif Require Import Model.Pattern Model.Intensity Model.MapOverlap Model.Downsample Model.FlatPatterns.
Import ListNotations.
Local Open Scope R_scope.

(** _downsample2d (795-808): the pixels of the new pattern in reading order. *)
Definition downsampled (factor : nat) (t : dtype) (m : amap R) : list (option R) :=
  let b := Downsample.pixels (bin2d factor m) in
  map (option_map (cast t)) (rescaled (vmin b) (vmax b) (dtype_min t) (dtype_max t) b).

(** EBSD.downsample() (1167-1184) of all patterns; None for a ValueError. *)
Definition downsampled_signal (factor : nat) (t : dtype) (ny nx : nat) (data : list (amap R))
    : option (list (list (option R))) :=
  if (factor <=? 1)%nat then None
  else if negb ((ny mod factor =? 0)%nat && (nx mod factor =? 0)%nat) then None
  else Some (map (downsampled factor t) data).
