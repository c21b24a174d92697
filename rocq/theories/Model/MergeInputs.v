(** What merge_crystal_maps() makes of whole and cut maps, masks, shapes and step sizes
    (src/kikuchipy/indexing/_merge_crystal_maps.py 94-159, 341-354), around MergeMaps.v.

    orix is stated here: a crystal map cut out of another keeps the shape and coordinates of the latter and marks the points it has
    (is_in_data), CrystalMap.shape and _data_slices_from_coordinates() are of the smallest rectangle with these points, dx and dy are steps
    of the map it was cut from.  Simplifications: maps have one dimension, x, or two, and their coordinates start at 0; None for all
    errors. *)
From Coq Require Import String List Arith ZArith QArith Bool.
From Verif Require Import Model.Binary.
From Verif Require Model.MergeMaps Model.Hough.
Import ListNotations.
Local Open Scope nat_scope.

Record cmap (A : Type) := CMap {
  shape : list nat; in_data : list bool;   (* _original_shape and is_in_data *)
  points : list (MergeMaps.point A);       (* those in the data *)
  phase : MergeMaps.phase; rotations_per_point : nat; dy : Q; dx : Q; scan_unit : string }.
Arguments CMap {A}. Arguments shape {A}. Arguments in_data {A}. Arguments points {A}. Arguments phase {A}. Arguments rotations_per_point {A}.
Arguments dy {A}. Arguments dx {A}. Arguments scan_unit {A}.

Definition smallest (l : list nat) : option nat := match l with [] => None | x :: r => Some (fold_right Nat.min x r) end.
Definition largest (l : list nat) : option nat := match l with [] => None | x :: r => Some (fold_right Nat.max x r) end.
Definition width (s : list nat) : nat := match s with [nx] => nx | [_; nx] => nx | _ => 0 end.
(** Positions of the points in the data *)
Definition positions {A} (m : cmap A) : list nat := filter (fun k => nth k (in_data m) false) (seq 0 (length (in_data m))).
(** CrystalMap._data_slices_from_coordinates(): rows and columns from ... to (not included) *)
Definition data_slices {A} (m : cmap A) : option (nat * nat * (nat * nat)) :=
  let r := map (fun k => k / width (shape m)) (positions m) in
  let c := map (fun k => k mod width (shape m)) (positions m) in
  let? r0 := smallest r in let? r1 := largest r in let? c0 := smallest c in let? c1 := largest c in
  Some (r0, S r1, (c0, S c1)).
(** CrystalMap.shape *)
Definition map_shape {A} (m : cmap A) : option (list nat) :=
  let? s := data_slices m in
  let '(r0, r1, (c0, c1)) := s in Some (match shape m with [_] => [c1 - c0] | _ => [r1 - r0; c1 - c0] end).

Inductive mask := Array (s : list nat) (values : list bool) | NoMask | NotAnArray.
(** 103-105 *)
Definition mask_from_data {A} (m : cmap A) : option mask :=
  let? s := data_slices m in
  let? sh := map_shape m in
  let '(r0, r1, (c0, c1)) := s in
  Some (Array sh (map negb (flat_map (fun r => map (fun c => nth (r * width (shape m) + c) (in_data m) false) (seq c0 (c1 - c0))) (seq r0 (r1 - r0))))).
(** 98-105 *)
Definition used_masks {A} (maps : list (cmap A)) (masks : option (list mask)) : option (option (list mask)) :=
  match masks with
  | Some ms => Some (Some ms)
  | None => if forallb (fun m => forallb (fun b => b) (in_data m)) maps then Some None
            else option_map Some (MergeMaps.all_some (map mask_from_data maps))
  end.
Definition count (l : list bool) : nat := length (filter (fun b => b) l).
(** 116-132 *)
Definition shape_from_mask {A} (mm : mask * cmap A) : option (list nat) :=
  match fst mm with
  | Array s v => if count (map negb v) =? count (in_data (snd mm)) then Some s else None
  | NoMask => map_shape (snd mm)
  | NotAnArray => None
  end.
(** 109-134 *)
Definition map_shapes {A} (maps : list (cmap A)) (masks : option (list mask)) : option (list (list nat)) :=
  match masks with
  | Some ms => if length ms =? length maps then MergeMaps.all_some (map shape_from_mask (combine ms maps)) else None
  | None => MergeMaps.all_some (map map_shape maps)
  end.
(** No differences between one and the next: 136 and 158; also False if numbers of dimensions differ, for which np.diff raises *)
Definition all_equal {B} (eq : B -> B -> bool) (l : list B) : bool := forallb (fun ab => eq (fst ab) (snd ab)) (combine l (tl l)).
Fixpoint same_shape (a b : list nat) : bool :=
  match a, b with [], [] => true | x :: a, y :: b => (x =? y) && same_shape a b | _, _ => false end.

Record result (A : Type) := Result {
  merged : MergeMaps.merged A; merged_shape : list nat; coordinates : list (Q * Q); (* (y, x) of each point *) unit_ : string }.
Arguments Result {A}. Arguments merged {A}. Arguments merged_shape {A}. Arguments coordinates {A}. Arguments unit_ {A}.
Definition hidden (m : mask) : option (list bool) := match m with Array _ v => Some v | _ => None end.
Definition to_xmap {A} (m : cmap A) : MergeMaps.xmap A := MergeMaps.XMap (points m) (phase m).
Definition merge {A} (str : nat -> string) (maps : list (cmap A)) (mean_n_best : Z) (greater_is_better : option bool) (masks : option (list mask))
    : option (result A) :=
  let? ms := used_masks maps masks in
  let? shapes := map_shapes maps ms in
  match maps, shapes with
  | m0 :: _, s :: _ =>
      if negb (all_equal same_shape shapes) then None
      else if negb (all_equal Nat.eqb (map rotations_per_point maps)) then None
      else
        let? out := MergeMaps.merge_crystal_maps str (fold_right Nat.mul 1 s) (rotations_per_point m0) (map to_xmap maps) mean_n_best greater_is_better
                      (option_map (map hidden) ms) in
        (* 341-346 *)
        Some (Result out s (Hough.coordinates s (firstn (length s) [dx m0; dy m0])) (scan_unit m0))
  | _, _ => None
  end.
