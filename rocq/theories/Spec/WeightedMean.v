(** Weighted mean of the patterns around a point of a map, over those neighbours that exist.
    [f y x] is the pattern at (y, x) and only meaningful inside the map. *)
From Coq Require Import List Reals ZArith Arith.
Import ListNotations.
Local Open Scope R_scope.

(** Sum over the window positions (i, j), i < ny, j < nx, that lie inside a map of [rows] by [cols]
    when the middle of the window, (ny // 2, nx // 2), is put on (y, x). *)
Definition window_sum (rows cols ny nx y x : nat) (g : nat -> nat -> nat -> nat -> R) : R :=
  fold_right Rplus 0
    (flat_map (fun i => flat_map (fun j =>
       let yy := (Z.of_nat y + Z.of_nat i - Z.of_nat (ny / 2))%Z in
       let xx := (Z.of_nat x + Z.of_nat j - Z.of_nat (nx / 2))%Z in
       if ((0 <=? yy) && (yy <? Z.of_nat rows) && (0 <=? xx) && (xx <? Z.of_nat cols))%Z%bool
       then [g i j (Z.to_nat yy) (Z.to_nat xx)] else [])
     (seq 0 nx)) (seq 0 ny)).

Definition weight_sum (rows cols ny nx : nat) (w : nat -> nat -> R) (y x : nat) : R :=
  window_sum rows cols ny nx y x (fun i j _ _ => w i j).
Definition weighted_mean (rows cols ny nx : nat) (w : nat -> nat -> R) (f : nat -> nat -> list R) (y x : nat) : list R :=
  map (fun n => window_sum rows cols ny nx y x (fun i j yy xx => w i j * nth n (f yy xx) 0)
                / weight_sum rows cols ny nx w y x)
      (seq 0 (length (f y x))).
