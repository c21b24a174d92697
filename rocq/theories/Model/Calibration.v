(** Scales, offsets and units of axes, the step sizes of the crystal map and the pixel size of the detector: EBSD.__init__
    (src/kikuchipy/signals/ebsd.py 188-199), xmap setter 237-243, extract_grid 267-379, set_scan_calibration 381-410,
    set_detector_calibration 412-440, _get_navigation_axes_unit 3380-3387, and writing and reading kikuchipy h5ebsd files
    (io/plugins/kikuchipy_h5ebsd/_api.py, io/plugins/_h5ebsd.py).

    Simplifications: rational numbers; axes are listed slowest first (y before x), as in navigation_axes[::-1]; one or two navigation
    axes; HyperSpy's slicing with a start and an end inside the axis, where the offset becomes the value at the start.  A crystal map of
    orix is given by the indices of its points along each axis of the map it was made as, the step sizes of that map, its scan unit
    and its contents (a number): indexing a map in orix selects points, its shape is that of the box around the selected points, and the
    step sizes stay those of the whole map (0 along an axis with one point).  Reading a saved map gives it back. *)
From Coq Require Import String.
From Coq Require Import List Arith ZArith QArith Bool.
From Verif Require Import Model.PyArray Model.GridIndices.
From Verif Require Model.RefinementInput.
Import ListNotations.
Local Open Scope nat_scope.

Record axis := Axis { name : string; size : nat; scale : Q; offset : Q; units : option string }.
Record cmap := CMap { points : list (list nat); steps : list Q; scan_unit : string; contents : nat }.
(** Navigation axes, signal axes dy and dx, crystal map, pixel size of the detector *)
Record signal := Signal { nav : list axis; sig_y : axis; sig_x : axis; xmap : option cmap; px_size : Q }.

(** CrystalMap.shape, dy and dx *)
Definition box (p : list nat) : nat := match p with [] => 0 | a :: _ => last p a - a + 1 end.
Definition map_shape (m : cmap) : list nat := map box (points m).
Definition map_dy (m : cmap) : Q := match steps m with [dy; _] => dy | _ => 0%Q end.
Definition map_dx (m : cmap) : Q := match steps m with [_; dx] => dx | [dx] => dx | _ => 0%Q end.
(** orix: create_coordinate_arrays() with a shape and step sizes, and CrystalMap.empty() *)
Definition new_map (shape : list nat) (sizes : list Q) (unit : string) (c : nat) : cmap :=
  CMap (map (seq 0) shape) (map (fun nd => if fst nd <=? 1 then 0%Q else snd nd) (combine shape sizes)) unit c.
Definition empty_contents : nat := 0.

(** _xmap_is_compatible_with_signal (signals/util/_crystal_map.py 28-61): compatible or not and number of warnings *)
Definition compatible (s : signal) (m : cmap) : bool * nat :=
  RefinementInput.xmap_is_compatible (map_shape m) (map_dy m) (map_dx m)
    (map (fun a => RefinementInput.Axis (name a) (size a) (scale a)) (nav s)).
(** xmap setter (237-243): None is ValueError *)
Definition set_xmap (m : cmap) (s : signal) : option signal :=
  if fst (compatible s m) then Some (Signal (nav s) (sig_y s) (sig_x s) (Some m) (px_size s)) else None.

(** EBSD.__init__ (188-199) without attributes: the pixel size of the detector is the scale of signal_axes[0], dx *)
Definition new_signal (axes : list axis) (dy dx : axis) : signal := Signal axes dy dx None (scale dx).

(** set_scan_calibration (381-410): ValueError unless there are two axes to unpack *)
Definition set_scan_calibration (step_x step_y : Q) (s : signal) : option signal :=
  match nav s with
  | [y; x] =>
    Some (Signal [Axis "y" (size y) step_y (offset y) (Some "um"%string); Axis "x" (size x) step_x (offset x) (Some "um"%string)]
            (sig_y s) (sig_x s) (xmap s) (px_size s))
  | _ => None
  end.
(** set_detector_calibration (412-440) *)
Definition calibrated (delta : Q) (a : axis) : axis :=
  Axis (name a) (size a) delta (- (delta * inject_Z (Z.of_nat (size a)) / 2)) (Some "um"%string).
Definition set_detector_calibration (delta : Q) (s : signal) : signal :=
  Signal (nav s) (calibrated delta (sig_y s)) (calibrated delta (sig_x s)) (xmap s) (px_size s).

(** _get_navigation_axes_unit (3380-3387): navigation_axes[0] is the fastest axis *)
Definition navigation_unit (s : signal) : string :=
  match rev (nav s) with a :: _ => match units a with Some u => u | None => "px" end | [] => "px" end.
(** The map from hough_indexing (1686-1694 and indexing/_hough_indexing.py 89) or dictionary_indexing (1970-1990 and
    indexing/_dictionary_indexing.py 141): shape of the signal, step sizes from the scales *)
Definition index (c : nat) (s : signal) : cmap := new_map (map size (nav s)) (map scale (nav s)) (navigation_unit s) c.

(** s.inav[...]: HyperSpy's axes and xmap[nav_slices] in _update_custom_attributes (3355-3366) *)
Definition slice_axis (lohi : nat * nat) (a : axis) : axis :=
  Axis (name a) (snd lohi - fst lohi) (scale a) (offset a + scale a * inject_Z (Z.of_nat (fst lohi))) (units a).
Definition slice_points (lohi : nat * nat) (p : list nat) : list nat :=
  match p with [] => [] | a :: _ => filter (fun i => (a + fst lohi <=? i) && (i <? a + snd lohi)) p end.
Definition zip_with {A B C} (f : A -> B -> C) (l : list A) (l' : list B) : list C := map (fun ab => f (fst ab) (snd ab)) (combine l l').
Definition slice_map (sl : list (nat * nat)) (m : cmap) : cmap :=
  CMap (zip_with slice_points sl (points m)) (steps m) (scan_unit m) (contents m).
Definition inav (sl : list (nat * nat)) (s : signal) : option signal :=
  if (length sl =? length (nav s))
     && forallb (fun la => (fst (fst la) <? snd (fst la)) && (snd (fst la) <=? size (snd la))) (combine sl (nav s))
  then Some (Signal (zip_with slice_axis sl (nav s)) (sig_y s) (sig_x s) (option_map (slice_map sl) (xmap s)) (px_size s))
  else None.

(** extract_grid (267-379).  Rows and columns of the two-dimensional grid are found as in one dimension (GridIndices.v, and theorem
    C17_grid_indices_2d).  The number of points along an axis is that of the data.  Scales are multiplied by the spacing; offsets are
    left as they are (354-358).  The map is indexed with a mask (330-337). *)
Fixpoint sequence {A} (l : list (option A)) : option (list A) :=
  match l with [] => Some [] | None :: _ => None | Some a :: r => match sequence r with Some t => Some (a :: t) | None => None end end.
Definition grid_axis (g : nat) (idx : list nat) (a : axis) : axis :=
  Axis (name a) (length idx) (inject_Z (Z.of_nat (spacing g (size a))) * scale a) (offset a) (units a).
Definition chosen (idx : list nat) (p : list nat) : list nat := map (fun i => nth i p 0) idx.
Definition extract_grid (g : list nat) (s : signal) : option signal :=
  if negb (length g =? length (nav s)) || existsb (fun ga => size (snd ga) <? fst ga) (combine g (nav s)) then None
  else match sequence (zip_with (fun g a => option_map (map Z.to_nat) (grid_indices_1d g (size a))) g (nav s)) with
  | None => None
  | Some idx =>
    Some (Signal (zip_with (fun gi a => grid_axis (fst gi) (snd gi) a) (combine g idx) (nav s)) (sig_y s) (sig_x s)
            (option_map (fun m => CMap (zip_with chosen idx (points m)) (steps m) (scan_unit m) (contents m)) (xmap s))
            (px_size s))
  end.

(** KikuchipyH5EBSDWriter.data_shape_scale (264-287): shape (ny, nx) and scales (dy, dx) *)
Definition shape_scale (s : signal) : (nat * nat) * (Q * Q) :=
  match nav s with
  | [a] => if String.eqb (name a) "y" then ((size a, 1), (scale a, 1%Q)) else ((1, size a), (1%Q, scale a))
  | [y; x] => ((size y, size x), (scale y, scale x))
  | _ => ((1, 1), (1%Q, 1%Q))
  end.
(** get_xmap_dict (357-368): orix' default scan unit is px *)
Definition saved_map (s : signal) : cmap :=
  let '((ny, nx), (dy, dx)) := shape_scale s in
  let empty := new_map [ny; nx] [dy; dx] "px" empty_contents in
  match xmap s with Some m => if fst (compatible s m) then m else empty | None => empty end.
(** A file: contents of the header (write, 400-440: the pixel size is that of the detector) and the crystal map *)
Record file := File { n_rows : nat; n_columns : nat; step_y : Q; step_x : Q; height : nat; width : nat;
  detector_pixel_size : Q; crystal_map : cmap }.
Definition write (s : signal) : file :=
  let '((ny, nx), (dy, dx)) := shape_scale s in File ny nx dy dx (size (sig_y s)) (size (sig_x s)) (px_size s) (saved_map s).
(** H5EBSDReader.get_axes_list (_h5ebsd.py 382-441) and scan2dict (65-160): axes, map as it is, pixel size of the detector *)
Definition um : option string := Some "um"%string.
Definition read (f : file) : signal :=
  let y := Axis "y" (n_rows f) (step_y f) 0 um in
  let x := Axis "x" (n_columns f) (step_x f) 0 um in
  let axes := match n_rows f =? 1, n_columns f =? 1 with
    | true, true => []
    | false, false => [y; x]
    | _, _ => if n_columns f <? n_rows f then [y] else [x]
    end in
  Signal axes (Axis "dy" (height f) (detector_pixel_size f) 0 um) (Axis "dx" (width f) (detector_pixel_size f) 0 um)
    (Some (crystal_map f)) (detector_pixel_size f).

(** Histories of one signal *)
Inductive event :=
| CalibrateScan (step_x step_y : Q)
| CalibrateDetector (delta : Q)
| Index (c : nat)
| Inav (sl : list (nat * nat))
| ExtractGrid (g : list nat)
| SaveAndLoad.
Definition step (e : event) (s : signal) : option signal :=
  match e with
  | CalibrateScan dx dy => set_scan_calibration dx dy s
  | CalibrateDetector d => Some (set_detector_calibration d s)
  | Index c => set_xmap (index c s) s
  | Inav sl => inav sl s
  | ExtractGrid g => extract_grid g s
  | SaveAndLoad => Some (read (write s))
  end.
Fixpoint run (es : list event) (s : signal) : option signal :=
  match es with [] => Some s | e :: r => match step e s with Some s' => run r s' | None => None end end.
