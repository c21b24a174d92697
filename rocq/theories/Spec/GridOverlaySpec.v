(** Where pixels are in an image of a pattern, and which pixels count in the virtual image of a tile. *)
From Coq Require Import List Arith ZArith Reals.
From Verif Require Import Model.VirtualGrid Model.GridOverlay.
Import ListNotations.
Local Open Scope R_scope.

(** Coordinate of the centre of pixel k. *)
Definition pixel_centre (ax : axis) (k : nat) : R := offset ax + INR k * scale ax.

(** A pixel counts in the virtual image of tile (i, j) if some change of its value alone changes the image. *)
Definition counts (rnd : R -> Z) (rows cols : axis) (gy gx i j y x : nat) : Prop :=
  exists p q : nat -> nat -> R,
    (forall y' x', (y', x') <> (y, x) -> p y' x' = q y' x')
    /\ tile_intensity rnd rows cols gy gx i j p <> tile_intensity rnd rows cols gy gx i j q.

(** The square of a pixel is within a rectangle, or beside it (only edges may touch). *)
Definition pixel_within (r : rectangle) (rows cols : axis) (y x : nat) : Prop :=
  centre_x r - width r / 2 <= pixel_centre cols x - scale cols / 2
  /\ pixel_centre cols x + scale cols / 2 <= centre_x r + width r / 2
  /\ centre_y r - height r / 2 <= pixel_centre rows y - scale rows / 2
  /\ pixel_centre rows y + scale rows / 2 <= centre_y r + height r / 2.
Definition pixel_beside (r : rectangle) (rows cols : axis) (y x : nat) : Prop :=
  pixel_centre cols x + scale cols / 2 <= centre_x r - width r / 2
  \/ centre_x r + width r / 2 <= pixel_centre cols x - scale cols / 2
  \/ pixel_centre rows y + scale rows / 2 <= centre_y r - height r / 2
  \/ centre_y r + height r / 2 <= pixel_centre rows y - scale rows / 2.

(** A rectangle outlines a tile: the pixels that count in the tile are within, the others beside. *)
Definition outlines (rnd : R -> Z) (rows cols : axis) (gy gx i j : nat) (r : rectangle) : Prop :=
  forall y x, (y < size rows)%nat -> (x < size cols)%nat ->
    (counts rnd rows cols gy gx i j y x -> pixel_within r rows cols y x)
    /\ (~ counts rnd rows cols gy gx i j y x -> pixel_beside r rows cols y x).

(** The tile a Python index stands for, of n in a row: negative indices count from the end. *)
Definition wrapped (n : nat) (k : Z) : option nat :=
  if (0 <=? k)%Z then (if (k <? Z.of_nat n)%Z then Some (Z.to_nat k) else None)
  else if (0 <=? k + Z.of_nat n)%Z then Some (Z.to_nat (k + Z.of_nat n)) else None.
(** A tile given without negative indices. *)
Definition tile_of (t : nat * nat) : Z * Z := (Z.of_nat (fst t), Z.of_nat (snd t)).
(** The rectangle drawn if only this tile is asked for. *)
Definition drawn_for_tile (rows cols : axis) (gy gx i j : nat) (r : rectangle) : Prop :=
  exists o, plot_grid rows cols gy gx false [[tile_of (i, j)]] = Drawn o /\ coloured o = [[r]].
