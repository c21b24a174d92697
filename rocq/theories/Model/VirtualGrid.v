(** imaging/vbse.py: the detector grid of VirtualBSEImager (grid_rows, grid_cols, lines 61-67,
    roi_from_grid, 285-320, get_images_from_grid) and signals/ebsd.py get_virtual_bse_intensity
    (1555-1598) with _get_sum_signal (3091-3105).

    The grid is written once, for any kind of numbers, and used with real numbers and with
    floating point numbers (double precision, as in the code).

    HyperSpy is outside the repository.  Of it, applying a rectangular region of interest is modelled:
    the signal is sliced from the index of the first edge up to (not including) the index of the
    second, where the index of a coordinate v on an axis is (v - offset) / scale, rounded and limited
    to the axis.  The rounding is a parameter. *)
From Coq Require Import List Arith ZArith Reals Floats Uint63.
From Verif Require Import Model.Pattern.
Import ListNotations.

(** ** Numbers *)
Record arith (T : Type) := Arith { of_nat : nat -> T; plus : T -> T -> T; times : T -> T -> T; over : T -> T -> T }.
Arguments Arith {T}.  Arguments of_nat {T}.  Arguments plus {T}.  Arguments times {T}.  Arguments over {T}.

Definition reals : arith R := Arith INR Rplus Rmult Rdiv.
Definition float_of_nat (n : nat) : float := PrimFloat.of_uint63 (Uint63.of_Z (Z.of_nat n)).
Definition doubles : arith float := Arith float_of_nat PrimFloat.add PrimFloat.mul PrimFloat.div.

(** ** The grid *)

(** np.linspace(0, s, g + 1): the i-th value is i times the step s / g; the last one is s itself
    (vbse.py 54-68) *)
Definition linspace {T} (a : arith T) (s g : nat) : list T :=
  map (fun i => if i =? g then of_nat a s else times a (of_nat a i) (over a (of_nat a s) (of_nat a g))) (seq 0 (S g)).

(** np.min and np.max of a list of indices; None for an empty list. *)
Definition lmin (l : list nat) : option nat := match l with [] => None | a :: r => Some (fold_left Nat.min r a) end.
Definition lmax (l : list nat) : option nat := match l with [] => None | a :: r => Some (fold_left Nat.max r a) end.

(** The two edges of a region of interest along an axis: s pixels, g tiles, axis scale d, indices of
    the tiles (vbse.py 308-316).  None: IndexError.  Negative indices are left out. *)
Definition edges {T} (a : arith T) (s g : nat) (d : T) (tiles : list nat) : option (T * T) :=
  let lines := linspace a s g in
  match lmin tiles, lmax tiles, nth_error lines 1 with
  | Some lo, Some hi, Some first =>
    match nth_error lines lo, nth_error lines hi with
    | Some x, Some y => Some (times a x d, times a (plus a y first) d)
    | _, _ => None
    end
  | _, _, _ => None
  end.

Record roi (T : Type) := ROI { roi_left : T; roi_top : T; roi_right : T; roi_bottom : T }.
Arguments ROI {T}.  Arguments roi_left {T}.  Arguments roi_top {T}.  Arguments roi_right {T}.  Arguments roi_bottom {T}.

(** roi_from_grid for a list of tiles (row, column); a single tuple is a list of one (vbse.py 285-320) *)
Definition roi_from_grid {T} (a : arith T) (sy sx gy gx : nat) (dr dc : T) (tiles : list (nat * nat)) : option (roi T) :=
  match edges a sx gx dc (map snd tiles), edges a sy gy dr (map fst tiles) with
  | Some (l, r), Some (t, b) => Some (ROI l t r b)
  | _, _ => None
  end.

(** ** Virtual images *)

(** A signal axis: number of pixels, scale, offset. *)
Record axis := Axis { size : nat; scale : R; offset : R }.

(** Index of a coordinate on an axis (HyperSpy); [rnd] is the rounding. *)
Definition axis_index (rnd : R -> Z) (ax : axis) (v : R) : nat :=
  Z.to_nat (Z.min (Z.of_nat (size ax)) (rnd ((v - offset ax) / scale ax)%R)).

(** A pattern as a function of row and column; one virtual intensity: the sum over the slice
    (ebsd.py 1594-1595). *)
Definition sum_range (f : nat -> R) (lo hi : nat) : R := vsum (map f (seq lo (hi - lo))).
Definition virtual_intensity (rnd : R -> Z) (rows cols : axis) (r : roi R) (p : nat -> nat -> R) : R :=
  let y0 := axis_index rnd rows (roi_top r) in
  let y1 := axis_index rnd rows (roi_bottom r) in
  let x0 := axis_index rnd cols (roi_left r) in
  let x1 := axis_index rnd cols (roi_right r) in
  sum_range (fun y => sum_range (p y) x0 x1) y0 y1.

(** The value of tile (i, j) in get_images_from_grid for one pattern (vbse.py 262-283).  The grid
    uses the scales of the axes, not their offsets. *)
Definition tile_intensity rnd (rows cols : axis) (gy gx i j : nat) (p : nat -> nat -> R) : option R :=
  option_map (fun r => virtual_intensity rnd rows cols r p)
    (roi_from_grid reals (size rows) (size cols) gy gx (scale rows) (scale cols) [(i, j)]).
Definition images_from_grid rnd (rows cols : axis) (gy gx : nat) (p : nat -> nat -> R) : list (list (option R)) :=
  map (fun i => map (fun j => tile_intensity rnd rows cols gy gx i j p) (seq 0 gx)) (seq 0 gy).

(** One channel of get_rgb_image before normalising: the sum over its regions (vbse.py 198-216) *)
Definition channel rnd (rows cols : axis) (gy gx : nat) (tiles : list (nat * nat)) (p : nat -> nat -> R) : option R :=
  fold_left (fun acc t => match acc, tile_intensity rnd rows cols gy gx (fst t) (snd t) p with
                          | Some s, Some v => Some (s + v)%R
                          | _, _ => None
                          end) tiles (Some 0%R).

(** The same edges in double precision, in units of pixels, with scale 1: the first pixel and the
    pixel after the last of a tile j along an axis of s pixels and g tiles. *)
Definition float_slice (rnd : float -> Z) (s g j : nat) : option (Z * Z) :=
  option_map (fun e => (rnd (fst e), rnd (snd e))) (edges doubles s g (float_of_nat 1) [j]).
