(** EBSD signals as objects that refer to other objects: what is shared and what is copied by
    operations on signals (signals/_kikuchipy_signal.py and signals/ebsd.py).

    A signal holds references to its data array, detector, static background and crystal map.
    [inplace=False] operations take the custom attributes without copying them
    (_get_custom_attributes(), _kikuchipy_signal.py 471-501, make_deepcopy=False) and set them on the
    returned signal (_set_custom_attributes, 503-543), so that both signals refer to the same
    detector, background and crystal map.

    Simplifications: values of crystal maps and backgrounds are of any type; signals have two
    navigation axes and the data array of a signal is not shared with any other (HyperSpy's map()
    with inplace=False makes a new array).  The outcome of operations on intensities is a function of
    the data, modelled elsewhere (Intensity.v, AverageNeighbours.v); here it is any function.
    Laziness is left out. *)
From Coq Require Import List Arith ZArith Reals Bool.
From Verif Require Import Model.Pattern Model.Intensity Model.MapOverlap Model.Downsample.
From Verif Require Model.Detector.
Import ListNotations.

(** Patterns at every map point. *)
Notation data := (amap image).
(** Axis calibration (scales, names, units; outline). *)
Inductive calibration := Default | Calibrated (label : nat).

Record heap := Heap {
  next : nat;                          (* references from here on are free *)
  data_at : nat -> data;
  det_at : nat -> Detector.detector;
  bg_at : nat -> image;
  xmap_at : nat -> amap nat }.

Record signal := Signal {
  s_data : nat; s_det : nat; s_bg : option nat; s_xmap : option nat;
  s_shape : nat * nat;                 (* pattern rows and columns *)
  s_dtype : dtype;
  s_axes : calibration }.

Definition put {A} (f : nat -> A) (k : nat) (v : A) : nat -> A := fun i => if i =? k then v else f i.
Definition set_data (h : heap) k v := Heap (next h) (put (data_at h) k v) (det_at h) (bg_at h) (xmap_at h).
Definition set_det (h : heap) k v := Heap (next h) (data_at h) (put (det_at h) k v) (bg_at h) (xmap_at h).
Definition set_bg (h : heap) k v := Heap (next h) (data_at h) (det_at h) (put (bg_at h) k v) (xmap_at h).
Definition set_xmap (h : heap) k v := Heap (next h) (data_at h) (det_at h) (bg_at h) (put (xmap_at h) k v).
Definition fresh (h : heap) : nat * heap := (next h, Heap (S (next h)) (data_at h) (det_at h) (bg_at h) (xmap_at h)).

(** New objects. *)
Definition new_data h v := let (k, h) := fresh h in (k, set_data h k v).
Definition new_det h v := let (k, h) := fresh h in (k, set_det h k v).
Definition new_bg h v := let (k, h) := fresh h in (k, set_bg h k v).
Definition new_xmap h v := let (k, h) := fresh h in (k, set_xmap h k v).

(** ** Operations *)
Inductive operation :=
| Intensity (f : data -> data)      (* rescale_intensity (_kikuchipy_signal.py 231-243), normalize_intensity
                                       (326-338), adaptive_histogram_equalization (457-469),
                                       remove_static_background (ebsd.py 564-573) and
                                       remove_dynamic_background (689-697): HyperSpy's map() *)
| Blockwise (f : data -> data)      (* fft_filter (ebsd.py 925-939) and average_neighbour_patterns (1092-1109):
                                       dask, result stored into the data or in LazyEBSD(result, **attrs) *)
| Downsample (factor : nat)         (* ebsd.py 1113-1219 *)
| CropRows (lo hi : nat)            (* crop() along the first detector axis, 0 <= lo < hi <= rows (ebsd.py
                                       2724-2770): only in place *)
| CropMapRows (lo hi : nat).        (* crop() along the first navigation axis, 0 <= lo < hi <= rows *)

(** PCs of a detector cut along the first navigation axis: pc[lo:hi] (ebsd.py 3360-3369), for nav
    shape (rows, columns); nothing happens with one PC. *)
Definition slice_pcs (lo hi : nat) (a : Detector.pcarray) : Detector.pcarray :=
  match Detector.nav_shape a with
  | [1] => a
  | [n] => Detector.PCArray [Nat.min hi n - lo] (firstn (hi - lo) (skipn lo (Detector.pcs a)))
  | [n; m] => Detector.PCArray [Nat.min hi n - lo; m] (firstn ((hi - lo) * m) (skipn (lo * m) (Detector.pcs a)))
  | _ => a
  end.

(** One call: None is an exception (nothing has changed then).  Otherwise the heap, the signal
    itself and the returned signal, if there is one. *)
Definition call (op : operation) (inplace : bool) (h : heap) (s : signal) : option (heap * signal * option signal) :=
  let old := data_at h (s_data s) in
  match op, inplace with
  | Intensity f, true => Some (set_data h (s_data s) (f old), s, None)
  | Intensity f, false =>
    let (k, h) := new_data h (f old) in
    Some (h, s, Some (Signal k (s_det s) (s_bg s) (s_xmap s) (s_shape s) (s_dtype s) (s_axes s)))
  | Blockwise f, true => Some (set_data h (s_data s) (f old), s, None)
  | Blockwise f, false =>
    let (k, h) := new_data h (f old) in
    Some (h, s, Some (Signal k (s_det s) (s_bg s) (s_xmap s) (s_shape s) (s_dtype s) Default))
  | Downsample factor, _ =>
    let (ny, nx) := s_shape s in
    if (factor <=? 1) then None
    else if negb ((ny mod factor =? 0) && (nx mod factor =? 0)) then None
    else
      let shape' := (ny / factor, nx / factor) in
      let t := s_dtype s in
      let '(bg', h) := match s_bg s with
                       | None => (None, h)
                       | Some b => let (k, h) := new_bg h (downsample2d factor t (bg_at h b)) in (Some k, h)
                       end in
      (* the detector object is changed, whatever inplace is *)
      let h := set_det h (s_det s) (downsample_detector factor (fst shape') (snd shape') (det_at h (s_det s))) in
      let new := AMap (nrows old) (ncols old) (fun y x => downsample2d factor t (at_ old y x)) in
      if inplace then
        Some (set_data h (s_data s) new, Signal (s_data s) (s_det s) bg' (s_xmap s) shape' t (s_axes s), None)
      else
        let (k, h) := new_data h new in
        Some (h, s, Some (Signal k (s_det s) bg' (s_xmap s) shape' t (s_axes s)))
  | CropRows lo hi, true =>
    let (ny, nx) := s_shape s in
    if negb ((lo <? hi) && (hi <=? ny)) then None
    else
      let cut (m : image) : image := sub m lo hi 0 (ncols m) in
      let '(bg', h) := match s_bg s with
                       | None => (None, h)
                       | Some b => let (k, h) := new_bg h (cut (bg_at h b)) in (Some k, h)
                       end in
      match Detector.crop (det_at h (s_det s)) (Z.of_nat lo, Z.of_nat hi, 0%Z, Z.of_nat nx) with
      | None => None
      | Some d =>
        let (kd, h) := new_det h d in
        Some (set_data h (s_data s) (AMap (nrows old) (ncols old) (fun y x => cut (at_ old y x))),
              Signal (s_data s) kd bg' (s_xmap s) (hi - lo, nx) (s_dtype s) (s_axes s), None)
      end
  | CropMapRows lo hi, true =>
    if negb ((lo <? hi) && (hi <=? nrows old)) then None
    else
      let '(xmap', h) := match s_xmap s with
                         | None => (None, h)
                         | Some x => let (k, h) := new_xmap h (sub (xmap_at h x) lo hi 0 (ncols (xmap_at h x))) in (Some k, h)
                         end in
      let d := det_at h (s_det s) in
      (* the pc of the detector object is changed *)
      let h := set_det h (s_det s) (Detector.with_pc d (slice_pcs lo hi (Detector.d_pc d))) in
      Some (set_data h (s_data s) (sub old lo hi 0 (ncols old)),
            Signal (s_data s) (s_det s) (s_bg s) xmap' (s_shape s) (s_dtype s) (s_axes s), None)
  | CropRows _ _, false | CropMapRows _ _, false => None
  end.

(** deepcopy(): everything is copied (_kikuchipy_signal.py 574-581) *)
Definition deepcopy (h : heap) (s : signal) : heap * signal :=
  let (kd, h) := new_data h (data_at h (s_data s)) in
  let (kt, h) := new_det h (det_at h (s_det s)) in
  let '(kb, h) := match s_bg s with None => (None, h) | Some b => let (k, h) := new_bg h (bg_at h b) in (Some k, h) end in
  let '(kx, h) := match s_xmap s with None => (None, h) | Some x => let (k, h) := new_xmap h (xmap_at h x) in (Some k, h) end in
  (h, Signal kd kt kb kx (s_shape s) (s_dtype s) (s_axes s)).

(** ** Programs: signals are numbered, each call is on one of them, returned signals are added *)
Inductive command := Call (i : nat) (op : operation) (inplace : bool) | Copy (i : nat).
Fixpoint replace {A} (l : list A) (i : nat) (v : A) : list A :=
  match l, i with
  | [], _ => []
  | _ :: r, O => v :: r
  | a :: r, S j => a :: replace r j v
  end.
Definition execute (c : command) (st : heap * list signal) : heap * list signal :=
  let (h, env) := st in
  match c with
  | Call i op inplace =>
    match nth_error env i with
    | None => st
    | Some s => match call op inplace h s with
                | None => st
                | Some (h', s', out) => (h', replace env i s' ++ match out with Some o => [o] | None => [] end)
                end
    end
  | Copy i =>
    match nth_error env i with
    | None => st
    | Some s => let (h', o) := deepcopy h s in (h', env ++ [o])
    end
  end.
Fixpoint run (p : list command) (st : heap * list signal) : heap * list signal :=
  match p with [] => st | c :: r => run r (execute c st) end.

(** What a user sees of a signal. *)
Record view := View {
  v_data : data; v_det : Detector.detector; v_bg : option image; v_xmap : option (amap nat);
  v_shape : nat * nat; v_dtype : dtype; v_axes : calibration }.
Definition look_at (h : heap) (s : signal) : view :=
  View (data_at h (s_data s)) (det_at h (s_det s)) (option_map (bg_at h) (s_bg s)) (option_map (xmap_at h) (s_xmap s))
    (s_shape s) (s_dtype s) (s_axes s).
