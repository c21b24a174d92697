(** Moving-screen calibration (detectors/_calibration.py, PCCalibrationMovingScreen and the functions
    below it).  Real numbers instead of doubles. *)
From Coq Require Import List Reals.
From Verif Require Import Model.Detector.
Import ListNotations.
Local Open Scope R_scope.

(** A point is (x, y). *)
Definition point : Type := R * R.
(** itertools.combinations(l, 2) *)
Fixpoint pairs {A} (l : list A) : list (A * A) :=
  match l with [] => [] | a :: r => map (fun b => (a, b)) r ++ pairs r end.

(** np.linalg.det of [[a, b], [c, d]] *)
Definition det2 (a b c d : R) : R := a * d - b * c.

(** _get_intersection_from_lines (lines 334-355), for the lines through (x1, y1), (x2, y2) and through
    (x3, y3), (x4, y4).  None: division by zero, which gives NaN or infinities. *)
Definition intersection (p1 p2 p3 p4 : point) : option point :=
  let (x1, y1) := p1 in let (x2, y2) := p2 in let (x3, y3) := p3 in let (x4, y4) := p4 in
  let a1 := det2 x1 y1 x2 y2 in
  let a2 := det2 x3 y3 x4 y4 in
  let a3 := det2 x1 1 x2 1 in
  let a4 := det2 x3 1 x4 1 in
  let a5 := det2 y1 1 y2 1 in
  let a6 := det2 y3 1 y4 1 in
  let denom := det2 a3 a5 a4 a6 in
  if Req_EM_T denom 0 then None else Some (det2 a1 a3 a2 a4 / denom, det2 a1 a5 a2 a6 / denom).

(** _line_lengths (358-359) *)
Definition line_length (p q : point) : R :=
  sqrt ((fst p - fst q) * (fst p - fst q) + (snd p - snd q) * (snd p - snd q)).

Inductive presentation := TSL | BRUKER.
Record calibration := Calibration {
  m_nrows : nat; m_ncols : nat;
  m_points : list (point * point);     (* the same feature in the "in" and "out" patterns *)
  m_delta_z : R;
  m_px_size : option R;
  m_binning : R;
  m_convention : presentation }.

(** pxy_within_detector (193-204) *)
Definition within (c : calibration) (p : point) : bool :=
  if Rlt_dec 0 (fst p) then if Rlt_dec (fst p) (INR (m_ncols c)) then
  if Rlt_dec 0 (snd p) then if Rlt_dec (snd p) (INR (m_nrows c)) then true else false else false else false else false.

(** One estimate from two features, none if the intersection is not inside the detector: _pxy_all (182-191),
    pcx_all, pcy_all, pcz_all, pc_all (221-248).  The lines in the patterns (_construct_lines_between_points,
    362-369) are between the same two features, in the same order. *)
Definition estimate (c : calibration) (f g : point * point) : list pc3 :=
  let (in1, out1) := f in let (in2, out2) := g in
  match intersection out1 in1 out2 in2 with
  | None => []
  | Some p =>
    if within c p then
      let y := snd p / INR (m_nrows c) in
      let z := m_delta_z c / (line_length out1 out2 / line_length in1 in2 - 1) in
      [PC (fst p / INR (m_ncols c))
         (match m_convention c with TSL => 1 - y | BRUKER => y end)
         (match m_px_size c with Some s => z / (INR (m_nrows c) * s * m_binning c) | None => z end)]
    else []
  end.
Definition pc_all (c : calibration) : list pc3 :=
  flat_map (fun fg => estimate c (fst fg) (snd fg)) (pairs (m_points c)).
(** pc (250-253): the mean; None: NaN, no estimates. *)
Definition pc (c : calibration) : option pc3 :=
  match pc_all c with [] => None | l => Some (mean_pc l) end.
