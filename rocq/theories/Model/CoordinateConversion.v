(** Model of the conversion of arrays of detector coordinates, for detectors with any navigation shape and for
    single sample positions. Source: /repo/src/kikuchipy/detectors/_convert_detector_coordinates.py ("conv") and
    /repo/src/kikuchipy/detectors/_ebsd_detector.py ("det"). Floats are real numbers. Factors of one projection center
    (PC) are in Model/Detector.v. *)
From Coq Require Import String.
From Coq Require Import List Arith ZArith Reals Bool.
From Verif Require Import Model.NdArray Model.Detector.
Import ListNotations.
Local Open Scope nat_scope.

Definition amap {A B} (f : A -> B) (a : arr A) : arr B := Arr (shape a) (fun i => f (at_ a i)).

(** parse_coordinate_format (conv lines 40-53): the format and whether there is a deprecation warning; None is the
    ValueError. *)
Definition parse_coordinate_format (fmt : string) : option (string * bool) :=
  let w := String.eqb fmt "detector" in
  let fmt := if w then "pixel"%string else fmt in
  if String.eqb fmt "pixel" || String.eqb fmt "gnomonic" then Some (fmt, w) else None.

(** _convert_coordinates (conv lines 186-205); None is an error of broadcasting. *)
Definition convert_points (coords : arr R) (out_shape : list nat) (mx cx my cy : arr R) : option (arr R) :=
  match op Rmult my (last_axis coords 0), op Rmult mx (last_axis coords 1) with
  | Some y, Some x =>
      match op Rplus y cy, op Rplus x cx with
      | Some y', Some x' =>
          match stored (removelast out_shape) y', stored (removelast out_shape) x' with
          | Some v0, Some v1 =>
              Some (Arr out_shape (fun i => if last i 0 =? 0 then at_ v0 (removelast i) else at_ v1 (removelast i)))
          | _, _ => None
          end
      | _, _ => None
      end
  | _, _ => None
  end.

(** convert_coordinates (conv lines 119-184). [fs] holds the conversion factors of each PC (the four arrays of the
    dictionary, which have the same shape). [index] is a tuple with one entry per navigation axis. *)
Definition convert_coordinates (coords0 : arr R) (fs : arr factors) (index : option (list entry)) : option (arr R) :=
  let coords := atleast_2d coords0 in
  if negb (last (shape coords) 0 =? 2) then None
  else
    let nav_shape := shape fs in
    let nav_ndim := length nav_shape in
    match index with
    | None =>
        let out_shape :=
          if (nav_ndim + 2 <=? ndim coords) && shape_eqb (firstn nav_ndim (shape coords)) nav_shape
          then shape coords else nav_shape ++ shape coords in
        let n := length out_shape - 1 in
        convert_points coords out_shape (expand_dims (amap m_x fs) n) (expand_dims (amap c_x fs) n)
          (expand_dims (amap m_y fs) n) (expand_dims (amap c_y fs) n)
    | Some es =>
        match getitem (amap m_x fs) es, getitem (amap c_x fs) es, getitem (amap m_y fs) es, getitem (amap c_y fs) es with
        | Some mx, Some cx, Some my, Some cy =>
            let index_shape := shape mx in
            if length index_shape =? 0 then convert_points coords (shape coords) mx cx my cy
            else
              let out_shape := index_shape ++ shape coords in
              let n := length out_shape - 1 in
              convert_points coords out_shape (expand_dims mx n) (expand_dims cx n) (expand_dims my n) (expand_dims cy n)
        | _, _, _, _ => None
        end
    end.

(** The argument pos: not given, an integer, a tuple, or something else. Entries of tuples are integers or slices
    here. *)
Inductive pos := NoPos | Number (z : Z) | Tuple (es : list entry) | Other.
Definition is_int (e : entry) : bool := match e with At _ => true | Slice _ _ => false end.
(** EBSDDetector._parse_sample_position (det lines 2360-2403); None is the ValueError or TypeError. *)
Definition parse_sample_position (nav_ndim : nat) (p : pos) : option (option (list entry)) :=
  match p with
  | NoPos => Some None
  | Number z => if nav_ndim =? 1 then Some (Some [At z]) else None
  | Tuple [e] => if negb (nav_ndim =? 1) then None else if negb (is_int e) then None else Some (Some [e])
  | Tuple [e; f] => if negb (nav_ndim =? 2) then None else Some (Some [e; f])
  | Tuple _ => None
  | Other => None
  end.

(** EBSDDetector.to_gnomonic_coords and to_pixel_coords (det lines 899-984; conv lines 208-227). The PCs are given as
    an array of the navigation shape; those in the record d are not used. *)
Definition to_gnomonic_coords (d : detector) (pcs : arr pc3) (coords : arr R) (p : pos) : option (arr R) :=
  match parse_sample_position (ndim pcs) p with
  | None => None
  | Some index => convert_coordinates coords (amap (pix_to_gn d) pcs) index
  end.
Definition to_pixel_coords (d : detector) (pcs : arr pc3) (coords : arr R) (p : pos) : option (arr R) :=
  match parse_sample_position (ndim pcs) p with
  | None => None
  | Some index => convert_coordinates coords (amap (gn_to_pix d) pcs) index
  end.
