(** More operations that make a new signal or change the attributes of one: extract_grid()
    (signals/ebsd.py 267-366), rebin() (2773-2828) and the setters of detector, crystal map and
    static background (217-263); and histories of operations.

    Simplifications, in addition to those of SignalSlices.v: HyperSpy's rebin() is the sum over blocks
    of an integer number of map points and pixels, with what is left over at the end of an axis cut off
    (its default, crop=True); out= is not given.  The closeness of np.allclose (line 2818) is equality.
    The shape of a crystal map is the one orix reports: the smallest box with all points in the data,
    counted in steps of the original map. *)
From Coq Require Import List Arith ZArith Reals Bool.
From Verif Require Import Model.Pattern Model.Intensity Model.MapOverlap Model.Downsample Model.GridIndices Model.SignalSlices.
From Verif Require Model.Detector Model.DictIndex.
Import ListNotations.

(** ** Setters *)

(** _detector_is_compatible_with_signal (signals/util/_detector.py 28-59) *)
Definition same_shape (a b : list nat) : bool := if list_eq_dec Nat.eq_dec a b then true else false.
Definition detector_is_compatible (d : Detector.detector) (nav : list nat) (sig : nat * nat) : bool :=
  ((Detector.d_ny d =? Z.of_nat (fst sig))%Z && (Detector.d_nx d =? Z.of_nat (snd sig))%Z)
  && (same_shape (Detector.nav_shape (Detector.d_pc d)) [1] || same_shape (Detector.nav_shape (Detector.d_pc d)) nav).
Definition navigation_shape (s : ebsd) : list nat := [nrows (patterns s); ncols (patterns s)].

(** s.detector = d (ebsd.py 217-225); None: ValueError. *)
Definition set_detector (d : Detector.detector) (s : ebsd) : option ebsd :=
  if detector_is_compatible d (navigation_shape s) (shape s)
  then Some (EBSD (patterns s) (shape s) d (background s) (xmap s)) else None.
(** s.xmap = m (ebsd.py 239-244; signals/util/_crystal_map.py 28-62); other step sizes only warn. *)
Definition set_xmap (m : amap nat) (s : ebsd) : option ebsd :=
  if (nrows m =? nrows (patterns s)) && (ncols m =? ncols (patterns s))
  then Some (EBSD (patterns s) (shape s) (detector s) (background s) (Some m)) else None.
(** s.static_background = b (ebsd.py 257-263): another shape only warns. *)
Definition set_background (b : image) (s : ebsd) : option ebsd :=
  Some (EBSD (patterns s) (shape s) (detector s) (Some b) (xmap s)).

(** ** extract_grid() *)

(** Row and column in the map at row i and column j of the grid.  Indices are never negative (C17). *)
Definition cell (idx : list (list (Z * Z))) (i j : nat) : nat * nat :=
  let p := nth j (nth i idx []) (0%Z, 0%Z) in (Z.to_nat (fst p), Z.to_nat (snd p)).
Definition grid_size (idx : list (list (Z * Z))) : nat * nat := (length idx, length (nth 0 idx [])).
(** a[idx_tuple] *)
Definition at_grid {A} (idx : list (list (Z * Z))) (m : amap A) : amap A :=
  AMap (fst (grid_size idx)) (snd (grid_size idx)) (fun i j => at_ m (fst (cell idx i j)) (snd (cell idx i j))).

(** The mask of the grid points, as one row (ebsd.py 327-329). *)
Definition grid_points (idx : list (list (Z * Z))) : list (nat * nat) :=
  map (fun p => (Z.to_nat (fst p), Z.to_nat (snd p))) (concat idx).
Definition is_grid_point (idx : list (list (Z * Z))) (y x : nat) : bool :=
  existsb (fun p => (fst p =? y) && (snd p =? x)) (grid_points idx).
Definition ravel {A} (m : amap A) : list A := flat_map (fun y => map (at_ m y) (seq 0 (ncols m))) (seq 0 (nrows m)).
Definition grid_mask (idx : list (list (Z * Z))) (nav : nat * nat) : list bool :=
  ravel (AMap (fst nav) (snd nav) (is_grid_point idx)).
(** xmap[mask] (ebsd.py 330): the points in the data, in order ... *)
Definition xmap_points {A} (idx : list (list (Z * Z))) (m : amap A) : list A :=
  DictIndex.compress (grid_mask idx (nrows m, ncols m)) (ravel m).
(** ... and the map in the box that contains them (orix) *)
Definition least (l : list nat) : nat := fold_right Nat.min (hd 0 l) l.
Definition greatest (l : list nat) : nat := fold_right Nat.max (hd 0 l) l.
Definition box {A} (idx : list (list (Z * Z))) (m : amap A) : amap A :=
  let ys := map fst (grid_points idx) in let xs := map snd (grid_points idx) in
  sub m (least ys) (S (greatest ys)) (least xs) (S (greatest xs)).

(** The PCs (ebsd.py 334-339) *)
Definition grid_pc (idx : list (list (Z * Z))) (nav : nat * nat) (a : Detector.pcarray) : Detector.pcarray :=
  if same_shape (Detector.nav_shape a) [fst nav; snd nav] then
    Detector.PCArray [fst (grid_size idx); snd (grid_size idx)]
      (flat_map (fun i => map (fun j => let (y, x) := cell idx i j in nth (y * snd nav + x) (Detector.pcs a) (Detector.PC 0 0 0))
                            (seq 0 (snd (grid_size idx)))) (seq 0 (fst (grid_size idx))))
  else if same_shape (Detector.nav_shape a) [1] then a
  else half.

(** s.extract_grid((g1, g0)): number of columns and rows of the grid (ebsd.py 267-366) *)
Definition extract_grid (g0 g1 : nat) (s : ebsd) : option ebsd :=
  let nav := (nrows (patterns s), ncols (patterns s)) in
  if (fst nav <? g0) || (snd nav <? g1) then None
  else match grid_indices_2d (g0, g1) nav with
       | None => None
       | Some idx =>
         Some (EBSD (at_grid idx (patterns s)) (shape s)
                 (Detector.with_pc (detector s) (grid_pc idx nav (Detector.d_pc (detector s))))
                 (background s) (option_map (box idx) (xmap s)))
       end.

(** ** rebin() *)

(** HyperSpy: sum over blocks of fy x fx. *)
Definition rebin_image (fy fx : nat) (m : image) : image :=
  AMap (nrows m / fy) (ncols m / fx)
    (fun y x => vsum (map (fun k => vsum (map (fun l => at_ m (y * fy + k) (x * fx + l)) (seq 0 fx))) (seq 0 fy))).
(** Sum of the patterns in blocks of ky x kx map points. *)
Definition rebin_map (ky kx fy fx : nat) (m : amap image) : amap image :=
  AMap (nrows m / ky) (ncols m / kx)
    (fun r c =>
       let blocks := flat_map (fun k => map (fun l => rebin_image fy fx (at_ m (r * ky + k) (c * kx + l))) (seq 0 kx)) (seq 0 ky) in
       AMap (nrows (at_ m r c) / fy) (ncols (at_ m r c) / fx) (fun y x => vsum (map (fun b => at_ b y x) blocks))).

(** The binning after (ebsd.py 2814-2821): binning times old shape / new shape if these two numbers
    are one integer, and else 1. *)
Definition rebinned_binning (ny nx ny' nx' : nat) (d : Detector.detector) : R :=
  let b := Detector.trunc (Detector.d_binning d) in
  if ((b * Z.of_nat ny * Z.of_nat nx' =? b * Z.of_nat nx * Z.of_nat ny')%Z && ((b * Z.of_nat ny) mod (Z.of_nat ny') =? 0)%Z)
  then IZR (b * Z.of_nat ny / Z.of_nat ny') else 1%R.

(** s.rebin(scale=(kx, ky, fx, fy)).  A block larger than an axis leaves nothing: None. *)
Definition rebin (ky kx fy fx : nat) (s : ebsd) : option ebsd :=
  let (ny, nx) := shape s in
  let (r, c) := (nrows (patterns s), ncols (patterns s)) in
  if existsb (Nat.eqb 0) [ky; kx; fy; fx; r / ky; c / kx; ny / fy; nx / fx] then None
  else if (r / ky =? r) && (c / kx =? c) && (ny / fy =? ny) && (nx / fx =? nx) then Some s
  else
    let d := detector s in
    let new_nav := negb ((r / ky =? r) && (c / kx =? c)) in
    Some (EBSD (rebin_map ky kx fy fx (patterns s)) (ny / fy, nx / fx)
            (Detector.Det (Z.of_nat (ny / fy)) (Z.of_nat (nx / fx)) (Detector.d_px_size d)
               (rebinned_binning ny nx (ny / fy) (nx / fx) d)
               (Detector.d_tilt d) (Detector.d_azimuthal d) (Detector.d_twist d) (Detector.d_sample_tilt d)
               (if new_nav then Detector.PCArray [r / ky; c / kx] (repeat (Detector.PC 0.5 0.5 0.5) (r / ky * (c / kx)))
                else Detector.d_pc d))
            (if new_nav then None else option_map (rebin_image fy fx) (background s))
            (if new_nav then None else xmap s)).

(** ** downsample(), in place (ebsd.py 1113-1219) *)
Definition downsample (f : nat) (t : dtype) (s : ebsd) : option ebsd :=
  let (ny, nx) := shape s in
  if (f <=? 1) || negb ((ny mod f =? 0) && (nx mod f =? 0)) then None
  else Some (EBSD (AMap (nrows (patterns s)) (ncols (patterns s)) (fun r c => downsample2d f t (at_ (patterns s) r c)))
               (ny / f, nx / f) (downsample_detector f (ny / f) (nx / f) (detector s))
               (option_map (downsample2d f t) (background s)) (xmap s)).

(** ** Histories *)

(** An intensity operation gives every pattern new intensities; each may depend on all of the data
    (averaging with neighbours). *)
Inductive operation :=
| Intensities (f : amap image -> nat -> nat -> nat -> nat -> R)
| Isig (ys xs : slice) | Inav (ys xs : slice) | CropDetectorRows (sl : slice)
| ExtractGrid (g0 g1 : nat) | Rebin (ky kx fy fx : nat) | Downsampled (f : nat) (t : dtype)
| SetDetector (d : Detector.detector) | SetXmap (m : amap nat) | SetBackground (b : image).

Definition apply (op : operation) (s : ebsd) : option ebsd :=
  match op with
  | Intensities f =>
    Some (EBSD (AMap (nrows (patterns s)) (ncols (patterns s))
                  (fun r c => AMap (nrows (at_ (patterns s) r c)) (ncols (at_ (patterns s) r c)) (f (patterns s) r c)))
            (shape s) (detector s) (background s) (xmap s))
  | Isig ys xs => isig ys xs s
  | Inav ys xs => inav ys xs s
  | CropDetectorRows sl => crop_rows sl s
  | ExtractGrid g0 g1 => extract_grid g0 g1 s
  | Rebin ky kx fy fx => rebin ky kx fy fx s
  | Downsampled f t => downsample f t s
  | SetDetector d => set_detector d s
  | SetXmap m => set_xmap m s
  | SetBackground b => set_background b s
  end.

(** The user continues with the new signal, or with the old one after an exception. *)
Definition next (s : ebsd) (op : operation) : ebsd := match apply op s with Some s' => s' | None => s end.
Definition history (s : ebsd) (ops : list operation) : ebsd := fold_left next ops s.
