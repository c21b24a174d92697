(** Setting one coordinate of the projection centers: detectors/_ebsd_detector.py pcx, pcy and pcz
    (493-565).

    The PCs of a line of n points are those of a map of one row, which is how NumPy assigns to them: leading axes of length
    one of the assigned array are dropped. The signals emitted for plots are left out, and values of three or more
    dimensions. Numbers are of any type T. *)
From Coq Require Import Arith Bool.

(** PCs for each of the points of a map. *)
Record pc_map (T : Type) := PCMap { two_dimensional : bool; map_rows : nat; map_cols : nat; pc_at : nat -> nat -> T * T * T }.
Arguments PCMap {T}.  Arguments two_dimensional {T}.  Arguments map_rows {T}.  Arguments map_cols {T}.  Arguments pc_at {T}.

(** What may be assigned: a number, a list of numbers, or a table of numbers. *)
Inductive value (T : Type) := Number (x : T) | Row (n : nat) (x : nat -> T) | Table (r c : nat) (x : nat -> nat -> T).
Arguments Number {T}.  Arguments Row {T}.  Arguments Table {T}.

(** np.atleast_2d (513, 538, 563): rows, columns, and the number at each place. *)
Definition atleast_2d {T} (v : value T) : nat * nat * (nat -> nat -> T) :=
  match v with
  | Number x => (1, 1, fun _ _ => x)
  | Row n x => (1, n, fun _ j => x j)
  | Table r c x => (r, c, x)
  end.
(** Which index of an axis of length m is read for index i of an axis it is assigned to. *)
Definition source (m i : nat) : nat := if m =? 1 then 0 else i.
(** Whether an axis of length m can be assigned to one of length n. *)
Definition axis_fits (m n : nat) : bool := (m =? 1) || (m =? n).

Inductive coordinate := X | Y | Z.
Definition put {T} (k : coordinate) (x : T) (p : T * T * T) : T * T * T :=
  match p, k with (a, b, c), X => (x, b, c) | (a, b, c), Y => (a, x, c) | (a, b, c), Z => (a, b, x) end.
(** pcx, pcy, pcz (509, 534, 559). *)
Definition get {T} (k : coordinate) (p : T * T * T) : T :=
  match p, k with (a, b, c), X => a | (a, b, c), Y => b | (a, b, c), Z => c end.

(** The setters: self._pc[..., k] = np.atleast_2d(value) (511-515, 536-540, 561-565). None: ValueError, shapes do not fit. *)
Definition set_coordinate {T} (k : coordinate) (v : value T) (d : pc_map T) : option (pc_map T) :=
  let '(r, c, x) := atleast_2d v in
  if axis_fits r (map_rows d) && axis_fits c (map_cols d) then
    Some (PCMap (two_dimensional d) (map_rows d) (map_cols d)
            (fun i j => put k (x (source r i) (source c j)) (pc_at d i j)))
  else None.
