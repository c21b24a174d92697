(** Orientation similarity: how many of their best matching simulations a point shares with its neighbours. *)
From Coq Require Import List ZArith QArith Bool.
Import ListNotations.

(** The points of a map of ny rows and nx columns at the given offsets (down, right) from point (r, c),
    without the point itself. *)
Definition neighbour_points (offs : list (Z * Z)) (ny nx : nat) (r c : nat) : list (nat * nat) :=
  flat_map (fun o =>
    let y := (Z.of_nat r + fst o)%Z in
    let x := (Z.of_nat c + snd o)%Z in
    if ((0 <=? y) && (y <? Z.of_nat ny) && (0 <=? x) && (x <? Z.of_nat nx))%Z && negb ((fst o =? 0) && (snd o =? 0))%Z
    then [(Z.to_nat y, Z.to_nat x)] else []) offs.

(** k is the number of different values that are in both lists. *)
Definition shares (a b : list Z) (k : nat) : Prop :=
  exists l, NoDup l /\ length l = k /\ forall x, In x l <-> In x a /\ In x b.

(** The n best simulations of point (r, c) in a table with one row per map point, row by row. *)
Definition best (table : list (list Z)) (nx n : nat) (p : nat * nat) : list Z :=
  firstn n (nth (fst p * nx + snd p) table []).

(** v is the mean number of shared simulations with the given points. *)
Definition mean_shared (table : list (list Z)) (nx n : nat) (p : nat * nat) (others : list (nat * nat)) (v : Q) : Prop :=
  exists ks, Forall2 (fun o k => shares (best table nx n p) (best table nx n o) k) others ks /\
    (v * inject_Z (Z.of_nat (length others)) == inject_Z (Z.of_nat (fold_right plus 0%nat ks)))%Q.
