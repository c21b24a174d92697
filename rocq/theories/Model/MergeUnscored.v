(** Model of which map a point is taken from when crystal maps with missing scores
    (NaN) are merged. Source: /repo/src/kikuchipy/indexing/_merge_crystal_maps.py *)
From Coq Require Import List Arith ZArith QArith Bool.
From Verif Require Import Model.MergeMaps.
Import ListNotations.
Local Open Scope nat_scope.

(** The numbers among some scores. *)
Definition numbers (l : list (option Q)) : list Q :=
  flat_map (fun s => match s with Some q => [q] | None => [] end) l.

(** [best_scores] (lines 205-211) of one point in one map, from its scores in this map.
    [np.nanmean] passes over NaN and gives NaN if there is nothing else. With
    [mean_n_best] 1 nothing is averaged, which is the same. *)
Definition best_of (per_point : nat) (number : Z) (l : list (option Q)) : option Q :=
  if 1 <? per_point then meanQ (numbers (up_to number l)) else
  match l with s :: _ => s | [] => None end.

(** [np.nanargmax(sign * best_scores, axis=1)] (line 214) for all points: a list of the
    scores in each map for each point. ValueError (None) if all scores of any point are
    NaN. For at least two maps and, with several scores per point, at least two points
    (see Model/MergeMaps.v for the others). *)
Definition map_of_points (sign : Z) (per_point : nat) (number : Z)
    (points : list (list (list (option Q)))) : option (list nat) :=
  all_some (map (fun maps => nanargmax sign (map (best_of per_point number) maps)) points).
