(** Specification of the detector geometry, from the documentation of [EBSDDetector]
    (/repo/src/kikuchipy/detectors/_ebsd_detector.py lines 204-268). *)
From Coq Require Import Reals.
Open Scope R_scope.

(** Where the projection center (PC) is, in microns: to the right of the left detector
    edge, below the top detector edge, and in front of the detector. [nx], [ny]: number
    of detector columns and rows; [b]: binning; [delta]: unbinned pixel size. *)
Record position := Pos { right_of_left_edge : R; below_top_edge : R; distance : R }.

Section Conventions.
Context (ny nx b delta : R).
Let w := nx * b * delta. (* detector width *)
Let h := ny * b * delta. (* detector height *)

(** Bruker: fractions of N_x, N_y, N_y from the upper left corner. *)
Definition bruker_position (x y z : R) : position := Pos (x * w) (y * h) (z * h).
(** TSL: fractions of N_x, N_y and min(N_x, N_y), from the lower left corner. *)
Definition tsl_position (x y z : R) : position := Pos (x * w) (h - y * h) (z * Rmin h w).
(** Oxford: fractions of N_x from the lower left corner. *)
Definition oxford_position (x y z : R) : position := Pos (x * w) (h - y * w) (z * w).
(** EMsoft: unbinned pixels from the detector centre, x positive to the left, y upwards;
    distance in microns. *)
Definition emsoft_position (x y l : R) : position :=
  Pos (w / 2 - x * delta) (h / 2 - y * delta) l.
(** Before version 5, x positive to the right. *)
Definition emsoft4_position (x y l : R) : position :=
  Pos (w / 2 + x * delta) (h / 2 - y * delta) l.
End Conventions.

(** Gnomonic coordinates of a point of the detector plane, given in microns right of the
    left edge and below the top edge: offsets from the PC (to the right, upwards) in
    units of the PC's distance from the detector. *)
Definition gnomonic_x (p : position) (right : R) : R :=
  (right - right_of_left_edge p) / distance p.
Definition gnomonic_y (p : position) (below : R) : R :=
  (below_top_edge p - below) / distance p.

(** The convention names of the documentation and what they mean (lines 70-83,
    199-206: "emsoft" and "emsoft5" are the same). *)
From Coq Require Import String List.
Import ListNotations.
Open Scope string_scope.
Definition documented_conventions : list (string * (R -> R -> R -> R -> R -> R -> R -> position)) :=
  [ ("bruker", bruker_position);
    ("tsl", tsl_position); ("edax", tsl_position); ("amatek", tsl_position);
    ("oxford", oxford_position); ("aztec", oxford_position);
    ("emsoft", emsoft_position); ("emsoft4", emsoft4_position); ("emsoft5", emsoft_position) ].
