(** The documented similarities of dictionary indexing. *)
From Coq Require Import List Arith Bool.
From Verif Require Import Model.MetricState.
Import ListNotations.

Section Spec.
Context {Pixel Dtype Score : Type} (zero : Pixel) (cast : Dtype -> Pixel -> Pixel).
Context (similarity : Dtype -> list Pixel -> list Pixel -> Score).

(** Whether an element is masked out. *)
Definition hidden (m : option mask) (i : nat) : bool := match m with Some m => nth i (ravel m) false | None => false end.
(** The pixels of pattern number [i] of a signal with [k] pixels per pattern, which are not masked out. *)
Definition visible (k : nat) (m : option mask) (d : Dtype) (s : signal Pixel) (i : nat) : list Pixel :=
  map (fun p => cast d (nth (i * k + p) (data _ s) zero)) (filter (fun p => negb (hidden m p)) (seq 0 k)).
(** At each point which is not masked out, the similarities of its pattern with all dictionary patterns. *)
Definition documented (s dict : signal Pixel) (nm sm : option mask) (d : Dtype) : list (option (list Score)) :=
  let k := fold_right Nat.mul 1 (sig_shape _ s) in
  map (fun r => if hidden nm r then None
                else Some (map (fun j => similarity d (visible k sm d s r) (visible k sm d dict j))
                             (seq 0 (fold_right Nat.mul 1 (nav_shape _ dict)))))
      (seq 0 (fold_right Nat.mul 1 (nav_shape _ s))).

Definition full (s : signal Pixel) : Prop :=
  0 < fold_right Nat.mul 1 (nav_shape _ s) /\
  length (data _ s) = fold_right Nat.mul 1 (nav_shape _ s) * fold_right Nat.mul 1 (sig_shape _ s).
Definition of_shape (m : option mask) (sh : list nat) : Prop :=
  match m with Some m => shape m = sh /\ length (ravel m) = fold_right Nat.mul 1 sh | None => True end.
(** A mask leaves something over. *)
Definition leaves_some (m : option mask) : Prop := match m with Some m => In false (ravel m) | None => True end.
End Spec.
