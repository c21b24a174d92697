(** What plots should show. *)
From Coq Require Import List Arith Reals.
From Verif Require Import Model.Detector Model.PositionPlots.
Import ListNotations.
Local Open Scope R_scope.

(** The component of a PC that a label names. *)
Definition component (l : label) (p : pc3) : R := match l with PCx => pcx p | PCy => pcy p | PCz => pcz p end.

(** The smallest interval with all values. *)
Definition tight (lim : R * R) (l : list R) : Prop :=
  (forall v, In v l -> fst lim <= v <= snd lim) /\ In (fst lim) l /\ In (snd lim) l.

(** The element in row i and column j. *)
Definition at_ {A} (m : list (list A)) (i j : nat) : option A := match nth_error m i with Some r => nth_error r j | None => None end.

(** An image is drawn with its h rows and w columns of equal size: pixel (i, j) covers the rectangle with these
    corners, and shows this value. *)
Definition row_edge {A} (im : image A) (i : nat) : R := top im + INR i * ((bottom im - top im) / INR (length (pixels im))).
Definition column_edge {A} (im : image A) (w j : nat) : R := left im + INR j * ((right im - left im) / INR w).
Definition shows {A} (im : image A) (w : nat) (v : A) (x0 x1 y0 y1 : R) : Prop :=
  exists i j, at_ (pixels im) i j = Some v
    /\ (x0, x1) = (column_edge im w j, column_edge im w (S j))
    /\ ((y0, y1) = (row_edge im i, row_edge im (S i)) \/ (y0, y1) = (row_edge im (S i), row_edge im i)).
(** Images of h rows and w columns. *)
Definition of_shape {A} (m : list (list A)) (h w : nat) : Prop := length m = h /\ forall r, In r m -> length r = w.
