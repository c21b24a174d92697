(** Intensity rescaling and background removal:
    pattern/_pattern.py rescale_intensity (lines 31-94), _remove_static_background_* (393-435),
    _remove_dynamic_background (438-482), _remove_background_subtract/_divide (485-509),
    remove_dynamic_background (512-601); signals/_kikuchipy_signal.py rescale_intensity (88-243);
    signals/ebsd.py remove_static_background (442-573), remove_dynamic_background (575-696).

    Simplifications: real arithmetic before the final cast (the code computes in float32 or
    float64); no NaN; HyperSpy's [map] applies the function to each pattern; RGB data and data types
    without a range in skimage's dtype_range are left out.  A float to integer cast truncates; what
    it gives for values outside the integer range is not modelled (no wrap-around here). *)
From Coq Require Import List Reals ZArith.
From Verif Require Import Model.Pattern.
From Verif Require Model.Detector.
Import ListNotations.
Local Open Scope R_scope.

(** skimage.util.dtype.dtype_range for the data types patterns have. *)
Inductive dtype := UInt8 | UInt16 | UInt32 | Int8 | Int16 | Int32 | Float32 | Float64.
Definition dtype_range (t : dtype) : Z * Z :=
  match t with
  | UInt8 => (0, 255)%Z | UInt16 => (0, 65535)%Z | UInt32 => (0, 4294967295)%Z
  | Int8 => (-128, 127)%Z | Int16 => (-32768, 32767)%Z | Int32 => (-2147483648, 2147483647)%Z
  | Float32 | Float64 => (-1, 1)%Z
  end.
Definition is_float (t : dtype) : bool := match t with Float32 | Float64 => true | _ => false end.
Definition dtype_min (t : dtype) : R := IZR (fst (dtype_range t)).
Definition dtype_max (t : dtype) : R := IZR (snd (dtype_range t)).

(** [.astype(dtype)] of a real value: truncation for integer types. *)
Definition cast (t : dtype) (x : R) : R := if is_float t then x else IZR (Detector.trunc x).

(** np.clip *)
Definition clip (lo hi x : R) : R := Rmin hi (Rmax lo x).

(** np.nanpercentile with the default linear interpolation: the value at position q/100*(n-1) of
    the sorted pixels. *)
Fixpoint insert (x : R) (l : list R) : list R :=
  match l with
  | [] => [x]
  | y :: r => if Rle_dec x y then x :: l else y :: insert x r
  end.
Definition sort (l : list R) : list R := fold_right insert [] l.
Definition percentile (q : R) (p : pattern) : R :=
  let s := sort p in
  let v := q / 100 * INR (length p - 1) in
  let k := Z.to_nat (Detector.trunc v) in
  let a := nth k s 0 in
  let b := nth (Nat.min (k + 1) (length p - 1)) s 0 in
  a + (v - INR k) * (b - a).

(** pattern/_pattern.py rescale_intensity, lines 68-94. *)
Definition rescale_intensity (in_range out_range : option (R * R)) (dtype_out : dtype)
    (percentiles : option (R * R)) (p : pattern) : pattern :=
  let in_range := match percentiles with
                  | Some (a, b) => Some (percentile a p, percentile b p)
                  | None => in_range
                  end in
  let '(imin, imax, p) := match in_range with
                          | None => (vmin p, vmax p, p)
                          | Some (a, b) => (a, b, map (clip a b) p)
                          end in
  let (omin, omax) := match out_range with
                      | None => (dtype_min dtype_out, dtype_max dtype_out)
                      | Some r => r
                      end in
  map (cast dtype_out) (rescale_with_min_max imin imax omin omax p).

(** signals/_kikuchipy_signal.py rescale_intensity, lines 198-243.  None: ValueError. *)
Definition rescale_signal (relative : bool) (in_range out_range : option (R * R)) (dtype_out : dtype)
    (percentiles : option (R * R)) (data : list pattern) : option (list pattern) :=
  match in_range, percentiles with
  | Some _, Some _ => None
  | _, _ =>
    match relative, in_range with
    | true, Some _ => None
    | _, _ =>
      let in_range := if relative then Some (vmin (concat data), vmax (concat data)) else in_range in
      let out_range := match out_range with
                       | None => Some (dtype_min dtype_out, dtype_max dtype_out)
                       | Some r => Some r
                       end in
      Some (map (rescale_intensity in_range out_range dtype_out percentiles) data)
    end
  end.

(** Background removal.  The functions that work in place ([pattern -= background],
    [pattern /= background]) return their result and what is left in the array they were given. *)
Inductive operation := Subtract | Divide.
Definition combine_pixels (op : operation) (p bg : pattern) : pattern :=
  map (fun xb => match op with Subtract => fst xb - snd xb | Divide => fst xb / snd xb end) (combine p bg).

(** _remove_background_subtract and _remove_background_divide, lines 498-509. *)
Definition remove_background (op : operation) (p bg : pattern) (omin omax : R) : pattern * pattern :=
  let p := combine_pixels op p bg in
  (rescale_with_min_max (vmin p) (vmax p) omin omax p, p).

(** _remove_static_background_subtract/_divide, lines 393-435: [astype] copies the pattern, so the
    array of the caller stays as it was. *)
Definition remove_static_background_1 (op : operation) (dtype_out : dtype) (omin omax : R)
    (scale_bg : bool) (static_bg p : pattern) : pattern * pattern :=
  let static_bg := if scale_bg
                   then rescale_with_min_max (vmin static_bg) (vmax static_bg) (vmin p) (vmax p) static_bg
                   else static_bg in
  let (out, _) := remove_background op p static_bg omin omax in
  (map (cast dtype_out) out, p).

(** _remove_dynamic_background, lines 438-482: [astype] copies here too.  [filter_func] is the
    Gaussian blur, in the frequency or the spatial domain. *)
Definition remove_dynamic_background_1 (op : operation) (dtype_out : dtype) (omin omax : R)
    (filter_func : pattern -> pattern) (p : pattern) : pattern * pattern :=
  let (out, _) := remove_background op p (filter_func p) omin omax in
  (map (cast dtype_out) out, p).

(** kikuchipy.pattern.remove_dynamic_background, lines 512-601, for a floating point pattern: the
    caller's array itself is passed to _remove_background_*. *)
Definition remove_dynamic_background (op : operation) (dtype_out : dtype)
    (filter_func : pattern -> pattern) (p : pattern) : pattern * pattern :=
  let (out, p_after) := remove_background op p (filter_func p) (dtype_min dtype_out) (dtype_max dtype_out) in
  (map (cast dtype_out) out, p_after).

(** EBSD.remove_static_background, lines 518-573: data type and shape of the background must agree
    with the patterns.  Data is the list of patterns, all of data type [t]; the result is the new
    data (stored in the signal, or in a new signal with inplace=False). *)
Definition remove_static_background (op : operation) (t bg_t : dtype) (scale_bg : bool)
    (shape bg_shape : nat * nat) (static_bg : option pattern) (data : list pattern) : option (list pattern) :=
  match static_bg with
  | None => None
  | Some bg =>
    if (match t, bg_t with
        | UInt8, UInt8 | UInt16, UInt16 | UInt32, UInt32 | Int8, Int8 | Int16, Int16 | Int32, Int32
        | Float32, Float32 | Float64, Float64 => true
        | _, _ => false
        end)
    then if (Nat.eqb (fst shape) (fst bg_shape) && Nat.eqb (snd shape) (snd bg_shape))%bool
         then Some (map (fun p => fst (remove_static_background_1 op t (dtype_min t) (dtype_max t) scale_bg bg p)) data)
         else None
    else None
  end.

(** EBSD.remove_dynamic_background, lines 645-696. *)
Definition remove_dynamic_background_signal (op : operation) (t : dtype)
    (filter_func : pattern -> pattern) (data : list pattern) : list pattern :=
  map (fun p => fst (remove_dynamic_background_1 op t (dtype_min t) (dtype_max t) filter_func p)) data.
