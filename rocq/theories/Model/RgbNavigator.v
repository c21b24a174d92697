(** Colour navigators: draw/_navigators.py get_rgb_navigator (27-54), with skimage.exposure.rescale_intensity, which it
    calls with the range of the whole image as in_range and the range of the data type as out_range.

    Simplifications: real numbers before the cast; an image is the list of its rows of pixels; other data types than
    uint8 and uint16, for which the dictionary has no key, are None (KeyError). *)
From Coq Require Import List Reals ZArith.
From Verif Require Import Model.Pattern Model.Intensity.
Import ListNotations.
Local Open Scope R_scope.

Record rgb := Rgb { red : R; green : R; blue : R }.
Definition channels (c : rgb) : list R := [red c; green c; blue c].
Definition map_rgb (f : R -> R) (c : rgb) : rgb := Rgb (f (red c)) (f (green c)) (f (blue c)).
Definition values (image : list (list rgb)) : list R := flat_map channels (concat image).

(** skimage's rescale_intensity of one value, for an image from imin to imax. *)
Definition rescale_value (imin imax omin omax x : R) : R :=
  let x := clip imin imax x in
  if Req_EM_T imin imax then clip omin omax x else (x - imin) / (imax - imin) * (omax - omin) + omin.

(** Lines 49-54. The transposition and the data types rgb8 and rgb16 of HyperSpy make an image of the same rows and
    columns, with one colour for each pixel. *)
Definition get_rgb_navigator (image : list (list rgb)) (t : dtype) : option (list (list rgb)) :=
  match t with
  | UInt8 | UInt16 =>
      let imin := vmin (values image) in let imax := vmax (values image) in
      Some (map (map (map_rgb (fun x => cast t (rescale_value imin imax (dtype_min t) (dtype_max t) x)))) image)
  | _ => None
  end.
