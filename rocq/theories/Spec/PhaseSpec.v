(** When two phases count as the same, and what refinement needs. *)
From Coq Require Import String List ZArith QArith Qabs.
From Verif Require Import Model.RefinementInput.
Import ListNotations.
Local Open Scope Q_scope.

(** [a] is near the reference [b]. *)
Definition near (a b : Q) : Prop := Qabs (a - b) <= (1 # 100000000) + (1 # 100000) * Qabs b.
Definition same_position (p q : Q * Q * Q) : Prop := let '(x, y, z) := p in let '(x', y', z') := q in near x x' /\ near y y' /\ near z z'.
Definition same_operation (p q : Q * Q * Q * Q) : Prop := let '(a, b, c, d) := p in let '(a', b', c', d') := q in near a a' /\ near b b' /\ near c c' /\ near d d'.
Definition same_group (g h : option point_group) : Prop :=
  match g, h with None, None => True | Some g, Some h => Forall2 same_operation (operations g) (operations h) | _, _ => False end.
Definition same_lattice (l k : lattice) : Prop :=
  near (la l) (la k) /\ near (lb l) (lb k) /\ near (lc l) (lc k) /\ near (alpha l) (alpha k) /\ near (beta l) (beta k) /\ near (gamma l) (gamma k).
Definition same_atom (a b : atom) : Prop :=
  element a = element b /\ same_position (xyz a) (xyz b) /\ exists u v, occupancy a = Some u /\ occupancy b = Some v /\ near u v.
(** Of a kind of difference, that there is none. *)
Definition agree (d : difference) (p q : phase) : Prop :=
  match d with
  | Names => name p = name q
  | SpaceGroups => space_group p = space_group q
  | PointGroups => same_group (group p) (group q)
  | NumberOfAtoms => length (atoms p) = length (atoms q)
  | LatticeParameters => same_lattice (cell p) (cell q)
  | Atoms => Forall2 same_atom (atoms p) (atoms q)
  end.
Definition same_phase (p q : phase) : Prop := forall d, agree d p q.
(** Space groups are numbered from 1 to 230. *)
Definition valid (p : phase) : Prop := match space_group p with Some n => (1 <= n <= 230)%Z | None => True end.
(** A master pattern that can be projected. *)
Definition can_be_projected (m : master) : Prop :=
  lambert m = true /\ exists g, group (m_phase m) = Some g /\ (both_hemispheres m = true \/ contains_inversion g = true).
