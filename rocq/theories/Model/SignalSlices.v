(** What isig, inav and crop() make of a signal and its detector, static background and crystal map
    (signals/ebsd.py: crop 2724-2770, _slicer 2830-2876, _update_custom_attributes 3294-3378).

    Simplifications: two navigation axes; slices with integer or omitted ends and no step (HyperSpy
    passes such ends on unchanged); a slice that selects nothing is an error; the crystal map is
    sliced as a NumPy array and fits the map.  The static background has the shape of a pattern.
    All attributes are deep copies in isig and inav (make_deepcopy=True, line 2846), so that the
    functions below return new values and change nothing; crop() works on shared attributes, see
    SignalHeap.v. *)
From Coq Require Import List Arith ZArith Reals Bool.
From Verif Require Import Model.MapOverlap Model.Downsample.
From Verif Require Model.Detector.
Import ListNotations.

Record slice := Slice { start : option Z; stop : option Z }.
Definition everything : slice := Slice None None.

(** slice.indices(n) with step 1. *)
Definition bound (n : Z) (i : Z) : Z := if (i <? 0)%Z then Z.max (i + n) 0 else Z.min i n.
Definition indices (n : nat) (s : slice) : nat * nat :=
  (match start s with Some i => Z.to_nat (bound (Z.of_nat n) i) | None => 0 end,
   match stop s with Some i => Z.to_nat (bound (Z.of_nat n) i) | None => n end).
Definition empty_slice (n : nat) (s : slice) : bool := let (lo, hi) := indices n s in hi <=? lo.
(** NumPy's m[ys, xs]. *)
Definition take {A} (m : amap A) (ys xs : slice) : amap A :=
  let (y0, y1) := indices (nrows m) ys in let (x0, x1) := indices (ncols m) xs in sub m y0 y1 x0 x1.

(** An EBSD signal; [shape] is the pattern shape. *)
Record ebsd := EBSD {
  patterns : amap image;
  shape : nat * nat;
  detector : Detector.detector;
  background : option image;
  xmap : option (amap nat) }.

Definition half : Detector.pcarray := Detector.PCArray [1] [Detector.PC 0.5 0.5 0.5].

(** _update_custom_attributes with sig_slices, the part on the detector (lines 3322-3354).  An end
    that is omitted is replaced by 0 or by the new shape; crop() of the detector raises for an empty
    extent, and then there is a new detector with PC (0.5, 0.5, 0.5). *)
Definition extent (new_ny new_nx : nat) (ys xs : slice) : Z * Z * Z * Z :=
  (match start ys with Some i => i | None => 0%Z end, match stop ys with Some i => i | None => Z.of_nat new_ny end,
   match start xs with Some i => i | None => 0%Z end, match stop xs with Some i => i | None => Z.of_nat new_nx end).
Definition update_detector (new_ny new_nx : nat) (ys xs : slice) (d : Detector.detector) : Detector.detector :=
  match Detector.crop d (extent new_ny new_nx ys xs) with
  | Some d' => d'
  | None => Detector.Det (Z.of_nat new_ny) (Z.of_nat new_nx) (Detector.d_px_size d)
              (IZR (Detector.trunc (Detector.d_binning d))) (Detector.d_tilt d) (Detector.d_azimuthal d) 0%R
              (Detector.d_sample_tilt d) half
  end.

(** s.isig[xs, ys]: [ys] along the rows of the detector, [xs] along the columns. *)
Definition isig (ys xs : slice) (s : ebsd) : option ebsd :=
  let (ny, nx) := shape s in
  if empty_slice ny ys || empty_slice nx xs then None
  else
    let (y0, y1) := indices ny ys in let (x0, x1) := indices nx xs in
    Some (EBSD (AMap (nrows (patterns s)) (ncols (patterns s)) (fun r c => take (at_ (patterns s) r c) ys xs))
            (y1 - y0, x1 - x0)
            (update_detector (y1 - y0) (x1 - x0) ys xs (detector s))
            (option_map (fun b => take b ys xs) (background s))
            (xmap s)).

(** pc[nav_slices] for a PC array of navigation shape (r, c) (lines 3367-3376); a detector with
    navigation shape (1,) is left alone.  Other shapes do not fit a map with two axes and are left
    alone here. *)
Definition slice_pc (ys xs : slice) (a : Detector.pcarray) : Detector.pcarray :=
  match Detector.nav_shape a with
  | [r; c] =>
    let (y0, y1) := indices r ys in let (x0, x1) := indices c xs in
    if (y1 <=? y0) || (x1 <=? x0) then half
    else Detector.PCArray [y1 - y0; x1 - x0]
           (flat_map (fun y => map (fun x => nth (y * c + x) (Detector.pcs a) (Detector.PC 0 0 0)) (seq x0 (x1 - x0)))
              (seq y0 (y1 - y0)))
  | _ => a
  end.

(** s.inav[xs, ys] *)
Definition inav (ys xs : slice) (s : ebsd) : option ebsd :=
  if empty_slice (nrows (patterns s)) ys || empty_slice (ncols (patterns s)) xs then None
  else Some (EBSD (take (patterns s) ys xs) (shape s)
               (Detector.with_pc (detector s) (slice_pc ys xs (Detector.d_pc (detector s))))
               (background s) (option_map (fun m => take m ys xs) (xmap s))).

(** s.crop(axis, start, end) along the rows of the detector: nothing is done to the attributes if the
    shape of the data did not change (line 2744). *)
Definition crop_rows (sl : slice) (s : ebsd) : option ebsd :=
  let (ny, nx) := shape s in
  let (y0, y1) := indices ny sl in
  if empty_slice ny sl then None
  else if (y1 - y0 =? ny) then Some s
  else isig sl everything s.
