(** Tiles of the detector grid by any integer index: imaging/vbse.py roi_from_grid (lines 285-318), with grid_rows and
    grid_cols (54-67).

    As in Model/VirtualGrid.v, over the reals, which has no negative indices. *)
From Coq Require Import List Arith ZArith Reals.
From Verif Require Import Model.VirtualGrid.
Import ListNotations.
Local Open Scope Z_scope.

(** min() and max() of a list (311-314); None for an empty list (ValueError, or IndexError before). *)
Definition zmin (l : list Z) : option Z := match l with [] => None | a :: r => Some (fold_left Z.min r a) end.
Definition zmax (l : list Z) : option Z := match l with [] => None | a :: r => Some (fold_left Z.max r a) end.
(** a[i] of an array: negative indices count from its end. None: IndexError. *)
Definition item {A} (a : list A) (i : Z) : option A :=
  let n := Z.of_nat (length a) in
  if ((0 <=? i) && (i <? n))%bool then nth_error a (Z.to_nat i)
  else if ((- n <=? i) && (i <? 0))%bool then nth_error a (Z.to_nat (n + i)) else None.

(** The two edges along an axis of s pixels, g tiles and scale d (311-314). *)
Definition any_edges (s g : nat) (d : R) (tiles : list Z) : option (R * R) :=
  let lines := linspace reals s g in
  match zmin tiles, zmax tiles with
  | Some lo, Some hi =>
      match item lines lo, item lines hi, item lines 1 with
      | Some x, Some y, Some first => Some (x * d, (y + first) * d)%R
      | _, _, _ => None
      end
  | _, _ => None
  end.
(** roi_from_grid (303-318); dr and dc are the scales of rows and columns. *)
Definition any_roi_from_grid (sy sx gy gx : nat) (dr dc : R) (tiles : list (Z * Z)) : option (roi R) :=
  match any_edges sx gx dc (map snd tiles), any_edges sy gy dr (map fst tiles) with
  | Some (l, r), Some (t, b) => Some (ROI l t r b)
  | _, _ => None
  end.
