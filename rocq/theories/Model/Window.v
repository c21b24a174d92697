(** kikuchipy.filters.Window: filters/window.py.

    Simplification: coefficients are real numbers in lists of rows; only one- and two-dimensional
    windows ([is_valid] requires less than three dimensions); the values of the windows that come
    from scipy.signal.windows are given as data (only the rectangular one, all ones, is modelled). *)
From Coq Require Import List Reals Arith ZArith.
Import ListNotations.
Local Open Scope R_scope.

Inductive window := W1 (c : list R) | W2 (rows : list (list R)).

(** shape; the number of columns is that of the first row. *)
Definition shape (w : window) : list nat :=
  match w with
  | W1 c => [length c]
  | W2 rows => [length rows; length (hd [] rows)]
  end.
(** origin, lines 246-249: i // 2 for each axis. *)
Definition origin (w : window) : list nat := map (fun i => (i / 2)%nat) (shape w).
(** n_neighbours, lines 232-237: shape - origin - 1 for each axis. *)
Definition n_neighbours (w : window) : list Z :=
  map (fun i => (Z.of_nat i - Z.of_nat (i / 2) - 1)%Z) (shape w).

(** distance_to_origin, lines 388-415, for two axes. *)
Definition distance (oy ox y x : nat) : R :=
  sqrt (IZR ((Z.of_nat y - Z.of_nat oy) ^ 2 + (Z.of_nat x - Z.of_nat ox) ^ 2)).

(** make_circular, lines 249-269.  A one-dimensional window is left alone.  In two dimensions the
    distances are squeezed (line 411): with one row and more than one column the mask has the shape
    (nx,), which does not fit the axis of length one, and [self[mask] = 0] raises IndexError (None).
    With one column the squeezed mask (ny,) selects whole rows, which is the same as selecting the
    elements; with one row and one column it is a scalar False. *)
Definition circular_coefficient (ny nx y x : nat) (c : R) : R :=
  let oy := (ny / 2)%nat in
  let ox := (nx / 2)%nat in
  if Rlt_dec (INR (Nat.max oy ox)) (distance oy ox y x) then 0 else c.
Definition mapi {A B} (f : nat -> A -> B) (l : list A) : list B :=
  map (fun ia => f (fst ia) (snd ia)) (combine (seq 0 (length l)) l).
Definition make_circular (w : window) : option window :=
  match w with
  | W1 c => Some w
  | W2 rows =>
    let ny := length rows in
    let nx := length (hd [] rows) in
    if ((ny =? 1) && (1 <? nx))%nat%bool then None
    else Some (W2 (mapi (fun y row => mapi (fun x c => circular_coefficient ny nx y x c) row) rows))
  end.

(** Window("rectangular", shape) and Window("circular", shape), lines 117-186: np.outer of two
    vectors of ones; shapes with a zero raise ValueError. *)
Definition rectangular (s : list nat) : option window :=
  match s with
  | [n] => if (n =? 0)%nat then None else Some (W1 (repeat 1 n))
  | [ny; nx] => if ((ny =? 0) || (nx =? 0))%nat%bool then None else Some (W2 (repeat (repeat 1 nx) ny))
  | _ => None
  end.
Definition circular (s : list nat) : option window :=
  match rectangular s with None => None | Some w => make_circular w end.

(** An element of a two-dimensional window. *)
Definition coefficient (w : window) (y x : nat) : option R :=
  match w with
  | W1 c => None
  | W2 rows => match nth_error rows y with None => None | Some r => nth_error r x end
  end.
