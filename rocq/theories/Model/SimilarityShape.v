(** The array returned by orientation_similarity_map() for a crystal map as it is, whole or cut
    (src/kikuchipy/indexing/_orientation_similarity_map.py 98-128), around SimilarityMap.v.

    As in MergeInputs.v, CrystalMap.shape is of the smallest rectangle with the points of the map.  Simplifications: the footprint has two
    dimensions; n_best, from_n_best and center_index are not negative; None for all errors. *)
From Coq Require Import List Arith ZArith QArith Bool.
From Verif Require Import Model.Binary.
From Verif Require Model.SimilarityMap.
Import ListNotations.
Local Open Scope nat_scope.

(** An array: its shape and its entries; None is nan. *)
Record array := Array { a_shape : list nat; a_at : list nat -> option Q }.
(** Put the axes of length 1 back: position in the array before squeeze() *)
Fixpoint unsqueeze (s idx : list nat) : list nat :=
  match s with
  | [] => []
  | n :: s' => if n =? 1 then 0 :: unsqueeze s' idx
               else match idx with i :: idx' => i :: unsqueeze s' idx' | [] => 0 :: unsqueeze s' [] end
  end.
Definition squeezed (a : array) : array := Array (squeeze_shape (a_shape a)) (fun idx => a_at a (unsqueeze (a_shape a) idx)).
Definition raises (l : list (list (list (option (option Q))))) : bool :=
  existsb (existsb (existsb (fun v => match v with None => true | Some _ => false end))) l.
Definition entry (l : list (list (list (option (option Q))))) (idx : list nat) : option Q :=
  match idx with
  | [r; c; k] => match nth c (nth r (nth k l []) []) None with Some v => v | None => None end
  | _ => None
  end.
(** For a map of the given shape, with an array of indices of shape prop_shape, of which the rows are given.  98: the indices must have two
    axes; 106: reshape; 111 and 117-126: with one axis, an error in the first layer, if there is one. *)
Definition similarity_array (shape prop_shape : list nat) (simulation_indices : list (list Z)) (n_best : option nat) (normalize : bool)
    (from_n_best : option nat) (footprint : option (list (list bool))) (center_index : nat) : option array :=
  match prop_shape with
  | [nav_size; keep_n] =>
      if negb (fold_right Nat.mul 1 shape =? nav_size) then None
      else
        let ny := match shape with [y; _] => y | _ => 1 end in
        let nx := match shape with [_; x] => x | [x] => x | _ => 0 end in
        let? layers := SimilarityMap.orientation_similarity_map ny nx keep_n simulation_indices n_best normalize from_n_best footprint center_index in
        if raises layers then None
        else match shape with
             | [_; _] => Some (squeezed (Array (shape ++ [length layers]) (entry layers)))
             | _ => if length layers =? 0 then Some (squeezed (Array (shape ++ [0]) (fun _ => None))) else None
             end
  | _ => None
  end.
