(** Rescaling, normalizing and removing backgrounds of patterns without contrast:
    pattern/_pattern.py rescale_intensity (lines 31-94), _rescale_with_min_max (96-112),
    _normalize_intensity (199-210), _remove_static_background_* (393-435),
    _remove_dynamic_background (438-482), _remove_background_subtract/_divide (485-509);
    signals/_kikuchipy_signal.py rescale_intensity (88-243).

    The functions of Model/Intensity.v and Model/Pattern.v, here with the outcome of a
    division by zero: a pixel that is not a finite number is None. Casting it to an
    integer data type gives an unspecified value and is also None. Real numbers otherwise,
    as in these files. *)
From Coq Require Import List Reals.
From Verif Require Import Model.Pattern Model.Intensity.
Import ListNotations.
Local Open Scope R_scope.

Notation pixels := (list (option R)).

(** Division in NumPy and in array expressions in Numba: no exception. *)
Definition divided (a b : R) : option R := if Req_EM_T b 0 then None else Some (a / b).

(** _rescale_with_min_max (96-112). *)
Definition rescaled (imin imax omin omax : R) (p : pattern) : pixels :=
  map (fun x => option_map (fun q => q * (omax - omin) + omin) (divided (x - imin) (imax - imin))) p.

(** rescale_intensity of one pattern (68-94). *)
Definition rescaled_pattern (in_range out_range : option (R * R)) (dtype_out : dtype)
    (percentiles : option (R * R)) (p : pattern) : pixels :=
  let in_range := match percentiles with
                  | Some (a, b) => Some (percentile a p, percentile b p)
                  | None => in_range
                  end in
  let '(imin, imax, p) := match in_range with
                          | None => (vmin p, vmax p, p)
                          | Some (a, b) => (a, b, map (clip a b) p)
                          end in
  let (omin, omax) := match out_range with
                      | None => (dtype_min dtype_out, dtype_max dtype_out)
                      | Some r => r
                      end in
  map (option_map (cast dtype_out)) (rescaled imin imax omin omax p).

(** KikuchipySignal2D.rescale_intensity with relative=True (signals/_kikuchipy_signal.py
    198-243): the limits are those of all patterns. *)
Definition rescaled_relative (out_range : option (R * R)) (dtype_out : dtype)
    (data : list pattern) : list pixels :=
  map (rescaled_pattern (Some (vmin (concat data), vmax (concat data))) out_range dtype_out None) data.

(** _normalize_intensity (199-210). *)
Definition normalized_pattern (num_std : R) (divide_by_square_root : bool) (p : pattern) : pixels :=
  let d := if divide_by_square_root
           then num_std * vstd p * sqrt (INR (length p))
           else num_std * vstd p in
  map (fun x => divided (x - vmean p) d) p.

(** _remove_background_subtract/_divide (485-509), rescaling what is left and casting it.
    If a pixel is divided by 0, the limits are not finite numbers, and then no pixel keeps
    its intensity: it is not a number, or the lower limit as it is divided by infinity.
    All pixels are None here in this case (simplified). *)
Definition without_background (op : operation) (dtype_out : dtype) (omin omax : R)
    (bg p : pattern) : pixels :=
  if match op with
     | Subtract => false
     | Divide => existsb (fun b => if Req_EM_T b 0 then true else false) bg
     end
  then map (fun _ => None) p
  else
    let p := combine_pixels op p bg in
    map (option_map (cast dtype_out)) (rescaled (vmin p) (vmax p) omin omax p).

(** _remove_static_background_subtract/_divide (393-435). With scale_bg, a background with
    equal pixels becomes NaN, and so does the pattern. *)
Definition without_static_background (op : operation) (dtype_out : dtype) (omin omax : R)
    (scale_bg : bool) (static_bg p : pattern) : pixels :=
  if scale_bg
  then if Req_EM_T (vmax static_bg) (vmin static_bg) then map (fun _ => None) p
       else without_background op dtype_out omin omax
              (rescale_with_min_max (vmin static_bg) (vmax static_bg) (vmin p) (vmax p) static_bg) p
  else without_background op dtype_out omin omax static_bg p.

(** _remove_dynamic_background (438-482). *)
Definition without_dynamic_background (op : operation) (dtype_out : dtype) (omin omax : R)
    (filter_func : pattern -> pattern) (p : pattern) : pixels :=
  without_background op dtype_out omin omax (filter_func p) p.
