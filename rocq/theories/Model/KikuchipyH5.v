(** One scan in kikuchipy's h5ebsd format, written by KikuchipyH5EBSDWriter and read by KikuchipyH5EBSDReader,
    src/kikuchipy/io/plugins/kikuchipy_h5ebsd/_api.py, with src/kikuchipy/io/plugins/_h5ebsd.py. The crystal map and
    the SEM metadata are left out. *)
From Coq Require Import String List Arith ZArith Bool.
From Verif Require Import Model.Binary.
Import ListNotations.
Local Open Scope nat_scope.
Local Open Scope list_scope.

Section H5.
(** Numbers for scales, angles and PCs: written and read as they are. *)
Variables (S : Type) (one half : S).
Record detector := Detector { px_size : S; binning : S; tilt : S; azimuthal : S; twist : S; sample_tilt : S;
                              pc_shape : list nat; pcs : list (S * S * S) }.
(** Navigation axes are (size, name, scale), in the order of the array dimensions. *)
Record signal := Signal { nav : list (nat * string * S); sy : nat; sx : nat; sig_scale : S; data : nd;
                          background : option nd; det : detector }.

(** Values of datasets: a number, written with shape (1,), or an array. *)
Inductive value := Number (z : Z) | Array (a : nd).
(** EBSD/Data/patterns and the entries of EBSD/Header. pcx, pcy and pcz are kept together. *)
Record scan := Scan { patterns : nd; n_rows : nat; n_columns : nat; pattern_height : nat; pattern_width : nat;
  step_y : S; step_x : S; detector_pixel_size : S; h_binning : S; elevation_angle : S; azimuth_angle : S; twist_angle : S;
  h_sample_tilt : S; static_background : value; h_pc_shape : list nat; h_pcs : list (S * S * S) }.

(** data_shape_scale, 265-286: rows, columns and their steps. *)
Definition nav_shape_scale (axes : list (nat * string * S)) : (nat * nat) * (S * S) :=
  match axes with
  | [(n, name, d)] => if String.eqb name "y" then ((n, 1), (d, one)) else ((1, n), (one, d))
  | [(n0, _, d0); (n1, _, d1)] => ((n0, n1), (d0, d1))
  | _ => ((1, 1), (one, one))
  end.
(** write, 370-462. signal.data.reshape keeps the order of the elements; ValueError (None) if the sizes differ. *)
Definition write (s : signal) : option scan :=
  let '((ny, nx), (dy, dx)) := nav_shape_scale (nav s) in
  if length (elems (data s)) =? ny * nx * (sy s * sx s) then
    Some (Scan (Nd [ny * nx; sy s; sx s] (elems (data s))) ny nx (sy s) (sx s) dy dx (px_size (det s)) (binning (det s)) (tilt (det s))
      (azimuthal (det s)) (twist (det s)) (sample_tilt (det s)) (match background s with None => Number (-1) | Some b => Array b end)
      (pc_shape (det s)) (pcs (det s)))
  else None.

(** _hdf5group2dict, _h5ebsd.py 71-73: an array with one entry along its first dimension is replaced by that entry. *)
Definition unwrap_shape (s : list nat) : list nat := match s with 1 :: r => r | _ => s end.
Definition unwrap (v : value) : value := match v with Number z => Number z | Array a => Array (Nd (unwrap_shape (shape a)) (elems a)) end.

(** get_data, _h5ebsd.py 303-381, for a complete pattern array. *)
Definition get_data (f : scan) : option nd :=
  let s := [n_rows f; n_columns f; pattern_height f; pattern_width f] in
  if length (elems (patterns f)) =? size_of s then Some (squeeze (Nd s (elems (patterns f)))) else None.
(** get_axes_list, _h5ebsd.py 383-445. *)
Definition get_axes (ny nx sy sx : nat) (dy dx px : S) : list (axis S) :=
  let four := [(ny, "y"%string, dy); (nx, "x"%string, dx); (sy, "dy"%string, px); (sx, "dx"%string, px)] in
  let kept :=
    match (negb (ny =? 1), negb (nx =? 1)) with
    | (true, true) => four
    | (false, false) => skipn 2 four
    | _ => if nx <? ny then firstn 1 four ++ skipn 2 four else skipn 1 four
    end in
  map (fun t : nat * (nat * string * S) => let '(i, (n, name, d)) := t in Axis n i name d) (combine (seq 0 (length kept)) kept).
(** np.dstack of three arrays with zero, one or two dimensions: navigation shape of the result. *)
Definition dstack_shape (s : list nat) : list nat := match s with [] => [1; 1] | [n] => [1; n] | _ => s end.
(** PCs in scan2dict, _api.py 131-160, and EBSDDetector.pc, _ebsd_detector.py 459 (np.atleast_2d): navigation shape of
    the detector. Padding of PC arrays that do not fit the map is left out (None). *)
Definition read_pc_shape (ny nx : nat) (s : list nat) : option (list nat) :=
  let d := dstack_shape (unwrap_shape s) in
  let? d := (if 1 <? size_of d then if size_of d =? ny * nx then Some [ny; nx] else None else Some d) in
  Some (match squeeze_shape d with [] => [1] | r => r end).

(** What is passed on to create the signal: scan2dict, _api.py 65-174. *)
Record loaded := Loaded { l_axes : list (axis S); l_data : nd; l_background : value; l_det : detector }.
Definition read (f : scan) : option loaded :=
  let? d := get_data f in
  let? p := read_pc_shape (n_rows f) (n_columns f) (h_pc_shape f) in
  Some (Loaded (get_axes (n_rows f) (n_columns f) (pattern_height f) (pattern_width f) (step_y f) (step_x f) (detector_pixel_size f)) d
    (unwrap (static_background f))
    (Detector (detector_pixel_size f) (h_binning f) (elevation_angle f) (azimuth_angle f) (twist_angle f) (h_sample_tilt f) p (h_pcs f))).
End H5.
Arguments Detector {S}. Arguments Signal {S}. Arguments nav {S}. Arguments sy {S}. Arguments sx {S}. Arguments sig_scale {S}. Arguments data {S}.
Arguments background {S}. Arguments det {S}. Arguments px_size {S}. Arguments binning {S}. Arguments tilt {S}. Arguments azimuthal {S}. Arguments twist {S}.
Arguments sample_tilt {S}. Arguments pc_shape {S}. Arguments pcs {S}. Arguments write {S}. Arguments read {S}. Arguments get_axes {S}. Arguments get_data {S}.
Arguments Loaded {S}. Arguments l_axes {S}. Arguments l_data {S}. Arguments l_background {S}. Arguments l_det {S}. Arguments nav_shape_scale {S}.
