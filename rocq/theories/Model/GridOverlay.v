(** What VirtualBSEImager.plot_grid draws on a pattern: imaging/vbse.py lines 102-127 and 320-413 (called "vbse").

    Exact arithmetic.  Of HyperSpy: an image of a signal is drawn so that pixel k of an axis is centred on
    offset + k scale; lines and texts are drawn at the given coordinates; rectangles are drawn centred on the
    given coordinates (x, y).  Colours of lines and texts, and other keyword arguments, are left out, as is the
    pattern itself (it is the one asked for, or the first). *)
From Coq Require Import List Arith ZArith Bool Reals.
From Verif Require Import Model.Pattern Model.VirtualGrid.
Import ListNotations.
Local Open Scope R_scope.

(** Element k of a list, counted from the end if negative; None is the IndexError. *)
Definition py_get {A} (l : list A) (k : Z) : option A :=
  if (0 <=? k)%Z then nth_error l (Z.to_nat k)
  else if (0 <=? k + Z.of_nat (length l))%Z then nth_error l (Z.to_nat (k + Z.of_nat (length l))) else None.

(** ** The parts *)

(** The lines between the tiles along one axis, vbse 352-359. *)
Definition grid_lines (ax : axis) (g : nat) : list R :=
  map (fun v => (v - / 2) * scale ax) (linspace reals (size ax) g).

(** _tile_coordinates, vbse 102-106: for each row of tiles and each column, (x, y). *)
Definition tile_coordinates (rows cols : axis) (gy gx : nat) : list (list (R * R)) :=
  map (fun y => map (fun x => (x, y)) (removelast (linspace reals (size cols) gx)))
      (removelast (linspace reals (size rows) gy)).

(** _tile_labels, vbse 113-119: the label of a tile is written from these two numbers. *)
Definition tile_labels (gy gx : nat) : list (nat * nat) := list_prod (seq 0 gy) (seq 0 gx).

(** _flat_tile_coordinates, vbse 108-111, with the labels: the texts, vbse 361-369. *)
Definition tile_texts (rows cols : axis) (gy gx : nat) : list ((R * R) * (nat * nat)) :=
  combine (concat (tile_coordinates rows cols gy gx)) (tile_labels gy gx).

(** _tile_shape, vbse 121-126: (height, width). *)
Definition tile_shape (rows cols : axis) (gy gx : nat) : nat * nat := ((size rows / gy)%nat, (size cols / gx)%nat).

Record rectangle := Rect { centre_x : R; centre_y : R; width : R; height : R }.

(** The rectangles of one channel, _get_rgb_tile_coordinates (vbse 389-413) and plot_grid 373-379.  The indices
    are (row, column); one tuple is a list of one.  The offset added to (x, y) is built from (height, width). *)
Definition channel_rectangles (rows cols : axis) (gy gx : nat) (tiles : list (Z * Z)) : option (list rectangle) :=
  let (h, w) := tile_shape rows cols gy gx in
  fold_right (fun t acc =>
    match py_get (tile_coordinates rows cols gy gx) (fst t), acc with
    | Some line, Some l =>
        match py_get line (snd t) with
        | Some (x, y) => Some (Rect (x + (- / 2 + INR h / 2)) (y + (- / 2 + INR w / 2)) (INR w) (INR h) :: l)
        | None => None
        end
    | _, _ => None
    end) (Some []) tiles.

(** ** The whole *)
Record overlay := Overlay {
  horizontal : list R;                       (* y of the horizontal lines *)
  vertical : list R;                         (* x of the vertical lines *)
  texts : list ((R * R) * (nat * nat));      (* (x, y) and label *)
  coloured : list (list rectangle) }.        (* red, green, blue; empty if no channels were given *)

(** The grid is drawn, or a ValueError says that the tiles of the k-th channel are not in the grid. *)
Inductive outcome := Drawn (o : overlay) | NotInGrid (channel : nat).

Fixpoint channels (rows cols : axis) (gy gx k : nat) (rgb : list (list (Z * Z))) : list (list rectangle) + nat :=
  match rgb with
  | [] => inl []
  | c :: r => match channel_rectangles rows cols gy gx c with
              | None => inr k
              | Some l => match channels rows cols gy gx (S k) r with inl m => inl (l :: m) | inr e => inr e end
              end
  end.

(** plot_grid, vbse 320-387. *)
Definition plot_grid (rows cols : axis) (gy gx : nat) (visible_indices : bool) (rgb : list (list (Z * Z))) : outcome :=
  match channels rows cols gy gx 0 rgb with
  | inr k => NotInGrid k
  | inl rects => Drawn (Overlay (grid_lines rows gy) (grid_lines cols gx)
                                (if visible_indices then tile_texts rows cols gy gx else []) rects)
  end.

(** The left (or top) edge of roi_from_grid (vbse 285-318) for one tile, whose index may be negative: here the
    borders are indexed, of which there is one more than there are tiles. *)
Definition region_start (ax : axis) (g : nat) (tile : Z) : option R :=
  option_map (fun v => v * scale ax) (py_get (linspace reals (size ax) g) tile).
