(** What it means that a navigator shows the colours of an image. *)
From Coq Require Import List Reals.
From Verif Require Import Model.RgbNavigator.
Import ListNotations.
Local Open Scope R_scope.

(** The colour of a pixel, by row and column. *)
Definition pixel (image : list (list rgb)) (r c : nat) : option rgb := match nth_error image r with Some row => nth_error row c | None => None end.

(** A channel x between 0 and 1 shown as the number y of 0 to top: y is the whole part of x * top. *)
Definition shows (top x y : R) : Prop := y <= x * top < y + 1.
Definition shows_colour (top : R) (a b : rgb) : Prop :=
  shows top (red a) (red b) /\ shows top (green a) (green b) /\ shows top (blue a) (blue b).

(** Every pixel has its colour in the navigator, and there are no others. *)
Definition shows_image (top : R) (image shown : list (list rgb)) : Prop :=
  length shown = length image /\ (forall r, option_map (@length rgb) (nth_error shown r) = option_map (@length rgb) (nth_error image r))
  /\ forall r c a, pixel image r c = Some a -> exists b, pixel shown r c = Some b /\ shows_colour top a b.

(** An image whose channels are between 0 and 1. *)
Definition channel_of (image : list (list rgb)) (x : R) : Prop := exists r c a, pixel image r c = Some a /\ (x = red a \/ x = green a \/ x = blue a).
Definition unit_image (image : list (list rgb)) : Prop := forall x, channel_of image x -> 0 <= x <= 1.
