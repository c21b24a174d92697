(** When an EBSD signal and its detector, static background and crystal map belong together. *)
From Coq Require Import List ZArith.
From Verif Require Import Model.MapOverlap Model.SignalSlices.
From Verif Require Model.Detector.
Import ListNotations.

(** A detector has one PC, or one for each of the rows x cols patterns. *)
Definition one_pc (d : Detector.detector) : Prop :=
  Detector.nav_shape (Detector.d_pc d) = [1] /\ length (Detector.pcs (Detector.d_pc d)) = 1.
Definition pc_per_pattern (rows cols : nat) (d : Detector.detector) : Prop :=
  Detector.nav_shape (Detector.d_pc d) = [rows; cols] /\ length (Detector.pcs (Detector.d_pc d)) = rows * cols.

Record consistent (s : ebsd) : Prop := Consistent {
  not_empty : 1 <= nrows (patterns s) /\ 1 <= ncols (patterns s) /\ 1 <= fst (shape s) /\ 1 <= snd (shape s);
  patterns_have_shape : forall r c, nrows (at_ (patterns s) r c) = fst (shape s) /\ ncols (at_ (patterns s) r c) = snd (shape s);
  detector_has_shape : Detector.d_ny (detector s) = Z.of_nat (fst (shape s)) /\ Detector.d_nx (detector s) = Z.of_nat (snd (shape s));
  detector_has_pcs : one_pc (detector s) \/ pc_per_pattern (nrows (patterns s)) (ncols (patterns s)) (detector s);
  background_has_shape : forall b, background s = Some b -> nrows b = fst (shape s) /\ ncols b = snd (shape s);
  xmap_has_shape : forall m, xmap s = Some m -> nrows m = nrows (patterns s) /\ ncols m = ncols (patterns s) }.
