(** Colour images from virtual backscatter electron images, src/kikuchipy/imaging/vbse.py: _normalize_image (419-458), _get_rgb_image (461-527)
    and the part of VirtualBSEImager.get_rgb_image (134-236) after the summation of the channels, which is in Model/VirtualGrid.v.
    An image is the flat list of its values. None is NaN; real numbers otherwise, without rounding to 32-bit floats. Every division by zero
    here is 0 / 0, since a dividend is the difference of two values of an image and the divisor is zero only if all its values are equal.
    The cast of NaN to an integer has no defined result and is None too. *)
From Coq Require Import List Reals ZArith.
From Verif Require Import Model.Pattern Model.Intensity.
Import ListNotations.
Local Open Scope R_scope.

Definition bind {A B} (o : option A) (f : A -> option B) : option B := match o with Some x => f x | None => None end.
Definition quotient (a b : R) : option R := if Req_EM_T b 0 then None else Some (a / b).
(** The values that are numbers; np.nanmin and np.nanmax use these. *)
Definition defined (l : list (option R)) : list R := flat_map (fun o => match o with Some x => [x] | None => [] end) l.
Definition nan_range (l : list (option R)) : option (R * R) := match defined l with [] => None | d => Some (vmin d, vmax d) end.
(** np.median. *)
Definition median (p : list R) : R := let s := sort p in (nth ((length p - 1) / 2) s 0 + nth (length p / 2) s 0) / 2.

(** _normalize_image, 419-458. *)
Definition normalize_image (t : dtype) (add_bright contrast : R) (image : list R) : list (option R) :=
  let max := dtype_max t in
  let offset := IZR (snd (dtype_range t) / 2) + add_bright in
  let contrast := contrast * (max * (3125 / 10000)) in
  let median := median image in
  let std := vstd image in
  map (fun x => option_map (fun q => clip 0 max (offset + q)) (quotient (contrast * (x - median)) std)) image.

(** Lines 512-516: the alpha channel rescaled to 0 to 1, and the product with a channel. *)
Definition rescaled_alpha (alpha : list (option R)) : list (option R) :=
  map (fun o => bind o (fun x => bind (nan_range alpha) (fun r => quotient (x - fst r) (snd r - fst r)))) alpha.
Definition multiplied (channel alpha : list (option R)) : list (option R) :=
  map (fun ca => bind (fst ca) (fun x => bind (snd ca) (fun a => Some (x * a)))) (combine channel alpha).

(** Lines 518-527: np.percentile, which is NaN if any value is, and rescale_intensity of pattern/_pattern.py (31-94) with the range. *)
Definition all_defined (l : list (option R)) : bool := forallb (fun o => match o with Some _ => true | None => false end) l.
Definition stretch (t : dtype) (percentiles : option (R * R)) (channels : list (list (option R))) : list (list (option R)) :=
  let image := concat channels in
  let to_range := fun range v => quotient (v - fst range) (snd range - fst range) in
  let out := fun q => cast t (q * (dtype_max t - dtype_min t) + dtype_min t) in
  let value := match percentiles with
    | Some (a, b) =>
        fun x => if all_defined image then
                   let range := (percentile a (defined image), percentile b (defined image)) in to_range range (clip (fst range) (snd range) x)
                 else None
    | None => fun x => bind (nan_range image) (fun range => to_range range x)
    end in
  map (map (fun o => bind o (fun x => option_map out (value x)))) channels.

(** _get_rgb_image, 461-527, for a list of channels of the same length. *)
Definition get_rgb_image (channels : list (list R)) (percentiles : option (R * R)) (normalize : bool) (alpha : option (list (option R)))
    (t : dtype) (add_bright contrast : R) : list (list (option R)) :=
  let image := map (fun c => if normalize then normalize_image t add_bright contrast c else map Some c) channels in
  let image := match alpha with None => image | Some a => map (fun c => multiplied c (rescaled_alpha a)) image end in
  stretch t percentiles image.

(** _transfer_navigation_axes_to_signal_axes, src/kikuchipy/_utils/_transfer_axes.py 32-61: calibrations of navigation axes are given to the
    signal axes of the image, as many as both have. *)
Record axis (T : Type) := Axis { size : nat; name : T; scale : R; offset : R; units : T }.
Arguments Axis {T}. Arguments size {T}. Arguments name {T}. Arguments scale {T}. Arguments offset {T}. Arguments units {T}.
Fixpoint transfer_axes {T} (new old : list (axis T)) : list (axis T) :=
  match new, old with
  | n :: new', o :: old' => Axis (size n) (name o) (scale o) (offset n) (units o) :: transfer_axes new' old'
  | _, _ => new
  end.
