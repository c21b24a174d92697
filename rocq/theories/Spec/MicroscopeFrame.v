(** Where sample and detector are in the microscope. *)
From Coq Require Import Reals.
From Verif Require Import Model.Detector Spec.DetectorGeometry Spec.KikuchiBands.
Local Open Scope R_scope.

(** Microscope axes seen from above: X to the left, Y downwards, towards the detector, Z up against the beam. At zero tilt the sample has RD
    along Y, TD along -X and ND along Z; it is tilted about X so that ND turns towards the detector. A vector a RD + b TD + c ND of the
    sample is this vector in the microscope: *)
Definition in_microscope (tilt : R) (v : vec) : vec :=
  Vec (- vy v) (vx v * cos tilt + vz v * sin tilt) (- (vx v * sin tilt) + vz v * cos tilt).

(** [v] is where the screen is hit, in microns from the source, at so much right of its left edge and below its top edge, when it has this PC:
    the direction there is the one with these gnomonic coordinates. *)
Definition screen_point (d : detector) (p : pc3) (right below : R) (v : vec) : Prop :=
  let source := bruker_position (nrows d) (ncols d) (d_binning d) (d_px_size d) (pcx p) (pcy p) (pcz p) in
  exists w, times (sample_to_detector d) w = Vec (gnomonic_x source right) (gnomonic_y source below) 1 /\
    v = in_microscope (deg2rad (d_sample_tilt d)) (Vec (distance source * vx w) (distance source * vy w) (distance source * vz w)).

(** Projections, in mm *)
Definition seen_from_side (v : vec) : R * R := (vy v / 1000, vz v / 1000).
Definition seen_from_above (v : vec) : R * R := (vx v / 1000, vy v / 1000).
