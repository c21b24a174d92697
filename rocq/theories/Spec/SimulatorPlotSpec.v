(** What a plot of reflectors should show. *)
From Coq Require Import List Reals.
From Verif Require Import Model.Detector Spec.Euler Spec.KikuchiBandIntensity.
Import ListNotations.
Local Open Scope R_scope.

(** The unit vectors at the given angle to an axis *)
Definition on_circle (axis : vec) (opening : R) (v : vec) : Prop := dot3 v v = 1 /\ dot3 axis v = length3 axis * cos opening.
(** Indices which sort a list, weakest first, equal values in any order *)
Inductive ascending : list R -> Prop :=
| ascending_nil : ascending []
| ascending_cons x l : Forall (Rle x) l -> ascending l -> ascending (x :: l).
(** x is the largest of l. *)
Definition largest (x : R) (l : list R) : Prop := In x l /\ Forall (fun y => y <= x) l.
(** Lines of a mesh as PyVista (VTK) takes them: each is the number of its points followed by their indices. *)
Inductive connects : list nat -> list (list nat) -> Prop :=
| connects_nil : connects [] []
| connects_cons ids rest lines : connects rest lines -> connects (length ids :: ids ++ rest) (ids :: lines).
