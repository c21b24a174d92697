(** EBSD.average_neighbour_patterns, signals/ebsd.py lines 943-1111, with pattern/chunk.py
    _average_neighbour_patterns and _rescale_neighbour_averaged_patterns, lines 147-164.

    Simplifications: real arithmetic; a one-dimensional map has one row; chunks, merging of chunks
    and overlap as in Model/MapOverlap.v; data types are those of Model/Intensity.v. *)
From Coq Require Import List Arith ZArith Bool Reals.
From Verif Require Import Model.Pattern Model.Intensity Model.MapOverlap.
From Verif Require Model.Detector Model.Window.
Import ListNotations.
Local Open Scope R_scope.

(** Window coefficients as a flat array with two axes. *)
Record rwindow := RWindow { rny : nat; rnx : nat; weights : list R }.

(** scipy.ndimage.correlate(..., mode="constant") at (y, x): outside the map the input is 0.
    [value] picks what is summed from an element of the map. *)
Definition correlate {A} (w : rwindow) (m : amap A) (value : A -> R) (y x : nat) : R :=
  vsum (map (fun k =>
          match look m (Z.of_nat y + Z.of_nat (k / rnx w) - Z.of_nat (rny w / 2))%Z
                       (Z.of_nat x + Z.of_nat (k mod rnx w) - Z.of_nat (rnx w / 2))%Z with
          | Some a => nth k (weights w) 0 * value a
          | None => nth k (weights w) 0 * 0
          end)
       (seq 0 (rny w * rnx w))).

(** window_sums, lines 1030-1034: the input is an integer array, so the output is one as well and the
    sums are truncated. *)
Definition window_sums {A} (w : rwindow) (m : amap A) : amap Z :=
  AMap (nrows m) (ncols m) (fun y x => Detector.trunc (correlate w m (fun _ => 1) y x)).

(** _average_neighbour_patterns on a chunk of patterns and window sums, chunk.py lines 130-168, at
    (y, x).  None: division by zero, the pattern becomes NaN or infinite. *)
Definition average_at (t : dtype) (w : rwindow) (m : amap (pattern * Z)) (y x : nat) : option pattern :=
  let (p, s) := at_ m y x in
  let correlated := map (fun n => correlate w m (fun q => nth n (fst q) 0) y x) (seq 0 (length p)) in
  if (s =? 0)%Z then None
  else
    let p := map (fun v => v / IZR s) correlated in
    Some (map (cast t) (rescale_with_min_max (vmin p) (vmax p) (dtype_min t) (dtype_max t) p)).

Definition zip {A B} (a : amap A) (b : amap B) : amap (A * B) :=
  AMap (nrows a) (ncols a) (fun y x => (at_ a y x, at_ b y x)).

(** What the method does: it raises an error, does nothing, or gives a new pattern at each point. *)
Inductive outcome := Error | Nothing | Averaged (f : nat -> nat -> option (option pattern)).

(** Lines 1021-1028: the window for a map with one ([two_d = false]) or two navigation axes.  A
    one-dimensional window for a two-dimensional map becomes a column.  A two-dimensional window
    for a one-dimensional map makes correlate raise an error. *)
Definition averaging_window (two_d : bool) (w : Window.window) : option rwindow :=
  match two_d, w with
  | true, Window.W1 c => Some (RWindow (length c) 1 c)
  | true, Window.W2 rows => Some (RWindow (length rows) (length (hd [] rows)) (concat rows))
  | false, Window.W1 c => Some (RWindow 1 (length c) c)
  | false, Window.W2 _ => None
  end.
(** Lines 1057-1066: overlap depth of one axis; [size] is the size of the given window along it, or
    None if the given window has fewer axes (IndexError if it is needed). *)
Definition depth_of (size : option nat) (axis : nat) (chunks : list nat) : option nat :=
  if hd 0%nat chunks <? axis then option_map (fun s => s / 2 + 1)%nat size else Some 1%nat.

Definition average_neighbour_patterns (merge : nat -> list nat -> list nat) (t : dtype) (two_d : bool)
    (window : Window.window) (ychunks xchunks : list nat) (m : amap pattern) : outcome :=
  match Window.shape window with
  | [1%nat] | [1%nat; 1%nat] => Nothing
  | _ =>
    match averaging_window two_d window with
    | None => Error
    | Some w =>
      let ysize := Some (rny w) in
      let xsize := match two_d, window with
                   | true, Window.W1 _ => None
                   | _, _ => Some (rnx w)
                   end in
      match (if two_d then depth_of ysize (nrows m) ychunks else Some 0%nat), depth_of xsize (ncols m) xchunks with
      | Some dy, Some dx =>
        match map_overlap merge (average_at t w) ychunks xchunks dy dx (zip m (window_sums w m)) with
        | Some f => Averaged f
        | None => Error
        end
      | _, _ => Error
      end
    end
  end.

(** ** Computing and storing in an order chosen by the scheduler (line 1092, [store(self.data)]).

    The patterns of one chunk are computed from the data as it is at that moment ([Compute]) and
    written later ([Store]) into the data of the signal.  [copies = true]: the dask array holds its
    own copy of the data (or the result goes to a new signal, inplace=False); [copies = false]: its
    chunks are views of the data of the signal, which da.from_array of some dask versions gives.
    [block y x] is the chunk of a point, [value data y x] what the averaging gives. *)
Inductive event := Compute (b : nat) | Store (b : nat).
Record state := State { source : nat -> nat -> pattern;     (* what tasks read *)
                        target : nat -> nat -> pattern;     (* data of the signal *)
                        pending : nat -> nat -> pattern }.
Definition step (copies : bool) (block : nat -> nat -> nat)
    (value : (nat -> nat -> pattern) -> nat -> nat -> pattern) (s : state) (e : event) : state :=
  match e with
  | Compute b =>
    State (source s) (target s) (fun y x => if Nat.eqb (block y x) b then value (source s) y x else pending s y x)
  | Store b =>
    let data := fun y x => if Nat.eqb (block y x) b then pending s y x else target s y x in
    State (if copies then source s else data) data (pending s)
  end.
Definition run (copies : bool) block value (data : nat -> nat -> pattern) (events : list event) : nat -> nat -> pattern :=
  target (fold_left (step copies block value) events (State data data data)).
