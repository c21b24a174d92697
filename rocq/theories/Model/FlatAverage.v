(** Averaging of neighbour patterns whose mean has no contrast: EBSD.average_neighbour_patterns
    (signals/ebsd.py 943-1111), pattern/chunk.py _average_neighbour_patterns and
    _rescale_neighbour_averaged_patterns (130-168).

    As in Model/AverageNeighbours.v, here with the outcome of a division by zero
    (Model/FlatPatterns.v). Same simplifications. *)
From Coq Require Import List Arith ZArith Bool Reals.
From Verif Require Import Model.Pattern Model.Intensity Model.MapOverlap Model.FlatPatterns Model.AverageNeighbours.
From Verif Require Model.Window.
Import ListNotations.
Local Open Scope R_scope.

(** _average_neighbour_patterns at (y, x) (130-168). With a window sum of 0 every pixel is divided by
    0: none is a number, as rescaling to limits that are not numbers keeps none. *)
Definition averaged_at (t : dtype) (w : rwindow) (m : amap (pattern * Z)) (y x : nat) : pixels :=
  let (p, s) := at_ m y x in
  let correlated := map (fun n => correlate w m (fun q => nth n (fst q) 0) y x) (seq 0 (length p)) in
  if (s =? 0)%Z then map (fun _ => None) correlated
  else
    let p := map (fun v => v / IZR s) correlated in
    map (option_map (cast t)) (rescaled (vmin p) (vmax p) (dtype_min t) (dtype_max t) p).

(** EBSD.average_neighbour_patterns (943-1111): what each point becomes. None if it raises an error,
    or does nothing since the window has one pixel. *)
Definition averaged_pixels (merge : nat -> list nat -> list nat) (t : dtype) (two_d : bool)
    (window : Window.window) (ychunks xchunks : list nat) (m : amap pattern)
    : option (nat -> nat -> option pixels) :=
  match Window.shape window with
  | [1%nat] | [1%nat; 1%nat] => None
  | _ =>
    match averaging_window two_d window with
    | None => None
    | Some w =>
      let ysize := Some (rny w) in
      let xsize := match two_d, window with
                   | true, Window.W1 _ => None
                   | _, _ => Some (rnx w)
                   end in
      match (if two_d then depth_of ysize (nrows m) ychunks else Some 0%nat), depth_of xsize (ncols m) xchunks with
      | Some dy, Some dx => map_overlap merge (averaged_at t w) ychunks xchunks dy dx (zip m (window_sums w m))
      | _, _ => None
      end
    end
  end.
