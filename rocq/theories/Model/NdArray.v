(** NumPy arrays of any number of axes, given by a shape and a function of the index (read only at indices within
    the shape), with the operations used by kikuchipy's coordinate conversion. These are library functions. *)
From Coq Require Import List Arith ZArith Bool.
Import ListNotations.

Record arr (A : Type) := Arr { shape : list nat; at_ : list nat -> A }.
Arguments Arr {A}. Arguments shape {A}. Arguments at_ {A}.
Definition ndim {A} (a : arr A) : nat := length (shape a).

Fixpoint shape_eqb (s t : list nat) : bool :=
  match s, t with [], [] => true | a :: s', b :: t' => (a =? b) && shape_eqb s' t' | _, _ => false end.

(** np.atleast_2d. *)
Definition atleast_2d {A} (a : arr A) : arr A :=
  match shape a with
  | [] => Arr [1; 1] (fun _ => at_ a [])
  | [n] => Arr [1; n] (fun i => at_ a (tl i))
  | _ => a
  end.

(** a[..., k]. *)
Definition last_axis {A} (a : arr A) (k : nat) : arr A := Arr (removelast (shape a)) (fun i => at_ a (i ++ [k])).

(** np.expand_dims(a, list(range(a.ndim, n))): axes of size 1 are added at the end up to n axes. *)
Definition expand_dims {A} (a : arr A) (n : nat) : arr A :=
  Arr (shape a ++ repeat 1 (n - ndim a)) (fun i => at_ a (firstn (ndim a) i)).

(** Broadcasting: axes are aligned at the end; sizes must be the same unless one is 1. *)
Fixpoint join (s t : list nat) : option (list nat) :=
  match s, t with
  | [], [] => Some []
  | a :: s', b :: t' =>
      match join s' t' with
      | None => None
      | Some r => if a =? b then Some (a :: r) else if a =? 1 then Some (b :: r) else if b =? 1 then Some (a :: r) else None
      end
  | _, _ => None
  end.
Definition pad (n : nat) (s : list nat) : list nat := repeat 1 (n - length s) ++ s.
Definition broadcast_shapes (s t : list nat) : option (list nat) :=
  let n := Nat.max (length s) (length t) in join (pad n s) (pad n t).
(** The element of an array of shape s that is used at an index of the result. *)
Definition source (s i : list nat) : list nat :=
  map (fun p => if fst p =? 1 then 0 else snd p) (combine s (skipn (length i - length s) i)).
Definition get {A} (a : arr A) (i : list nat) : A := at_ a (source (shape a) i).
(** An operation on two arrays; None is the ValueError. *)
Definition op {A B C} (f : A -> B -> C) (a : arr A) (b : arr B) : option (arr C) :=
  option_map (fun s => Arr s (fun i => f (get a i) (get b i))) (broadcast_shapes (shape a) (shape b)).
(** What is stored by x[...] = v in an array of shape s; None is the ValueError. *)
Definition stored {A} (s : list nat) (v : arr A) : option (arr A) :=
  match broadcast_shapes (shape v) s with
  | Some t => if shape_eqb t s then Some (Arr s (get v)) else None
  | None => None
  end.

(** One entry of an index: an integer or a slice lo:hi. *)
Inductive entry := At (z : Z) | Slice (lo hi : option Z).
(** An integer on an axis of size n; None is the IndexError. *)
Definition position (n : nat) (z : Z) : option nat :=
  if (0 <=? z)%Z && (z <? Z.of_nat n)%Z then Some (Z.to_nat z)
  else if (- Z.of_nat n <=? z)%Z && (z <? 0)%Z then Some (Z.to_nat (z + Z.of_nat n)) else None.
(** slice.indices: bounds below 0 count from the end, and bounds are clipped. *)
Definition clip (n : nat) (z : Z) : nat :=
  Z.to_nat (if (z <? 0)%Z then Z.max 0 (z + Z.of_nat n) else Z.min z (Z.of_nat n)).
Definition start_of (n : nat) (lo : option Z) : nat := match lo with None => 0 | Some z => clip n z end.
Definition stop_of (n : nat) (hi : option Z) : nat := match hi with None => n | Some z => clip n z end.
(** The shape of a[es] and the index in a of each of its elements; es has one entry per axis. *)
Fixpoint index_axes (s : list nat) (es : list entry) : option (list nat * (list nat -> list nat)) :=
  match s, es with
  | [], [] => Some ([], fun _ => [])
  | n :: s', e :: es' =>
      match index_axes s' es' with
      | None => None
      | Some (t, g) =>
          match e with
          | At z => match position n z with None => None | Some k => Some (t, fun i => k :: g i) end
          | Slice lo hi =>
              Some ((stop_of n hi - start_of n lo) :: t, fun i => (start_of n lo + hd 0 i) :: g (tl i))
          end
      end
  | _, _ => None
  end.
Definition getitem {A} (a : arr A) (es : list entry) : option (arr A) :=
  match index_axes (shape a) es with None => None | Some (t, g) => Some (Arr t (fun i => at_ a (g i))) end.
