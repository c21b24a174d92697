(** What is expected of Hough indexing. *)
From Coq Require Import List Arith ZArith QArith Qabs.
From Verif Require Import Model.HoughData Model.Hough.
Import ListNotations.
Local Open Scope nat_scope.

(** An indexer which treats each pattern on its own, whatever the chunks: the last row of its results is the best
    solution [best] of each pattern.  It identifies a phase by its number in its list of phases (from 0), and -1
    means that no solution was found. *)
Definition treats_each_pattern {Families Pat Quat Other : Type}
    (index_pats : indexer Families -> nat -> list Pat -> results Quat Other)
    (best : indexer Families -> Pat -> entry Quat Other) : Prop :=
  (forall i n l, exists rows, index_pats i n l = rows ++ [map (best i) l])
  /\ (forall i p, (HoughData.phase (best i p) = -1 \/ 0 <= HoughData.phase (best i p) < Z.of_nat (length (i_phases _ i)))%Z).

(** Equal to the 12th decimal. *)
Definition equal_lattices (a b : list Q) : Prop := Forall2 (fun x y => (Qabs (x - y) <= 1 # 1000000000000)%Q) a b.
(** Equal but for a hundred-thousandth. *)
Definition similar_lattices (a b : list Q) : Prop :=
  Forall2 (fun x y => (Qabs (x - y) <= (1 # 1000000000000) + (1 # 100000) * Qabs y)%Q) a b.

(** The phase with an ID in a list. *)
Definition phase_with_id (l : phase_list) (id : Z) : option Hough.phase :=
  option_map snd (find (fun ip => (fst ip =? id)%Z) l).
Definition numbered_from_zero (l : phase_list) : Prop := ids l = map Z.of_nat (seq 0 (length l)).
