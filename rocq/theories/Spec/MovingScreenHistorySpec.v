(** What is expected of a moving-screen calibration. *)
From Coq Require Import List Reals.
From Verif Require Import Model.Detector Model.MovingScreen Model.MovingScreenHistory.
Import ListNotations.
Local Open Scope R_scope.

(** Everything that can be read from the object. *)
Definition readings (s : state) :=
  (pxy_all s, pxy s, pcz_all s, read_pc_all s, read_pc s, plot s).
(** An operation that leaves the points as they are. *)
Definition keeps_points (o : operation) : Prop := match o with AssignPoints _ => False | _ => True end.
(** A point on the straight line through two others. *)
Definition on_line (p : point) (l : line) : Prop :=
  let '((ax, ay), (bx, by_)) := l in (fst p - ax) * (by_ - ay) = (snd p - ay) * (bx - ax).
(** A point inside the pattern of a calibration. *)
Definition in_pattern (c : calibration) (p : point) : Prop :=
  0 < fst p < INR (m_ncols c) /\ 0 < snd p < INR (m_nrows c).
(** The same calibration with the features in another order, or with the two patterns exchanged. *)
Definition with_points (f : list (point * point)) (c : calibration) : calibration :=
  Calibration (m_nrows c) (m_ncols c) f (m_delta_z c) (m_px_size c) (m_binning c) (m_convention c).
Definition exchanged (c : calibration) : calibration := with_points (map (fun f => (snd f, fst f)) (m_points c)) c.

(** The value assigned last in a history to an attribute, [first] if there is none. *)
Definition latest {A} (assigned : operation -> option A) (h : list operation) (first : A) : A :=
  fold_left (fun v o => match assigned o with Some w => w | None => v end) h first.
