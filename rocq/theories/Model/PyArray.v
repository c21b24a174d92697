(** Python and NumPy operations shared by several models.  They are not part of kikuchipy:
    they model the behaviour of the libraries that it calls, restricted to what it uses. *)
From Coq Require Import List Arith ZArith.
Import ListNotations.

(** [l[::s]] for a positive step: the elements number 0, s, 2s, ...  [c] elements are skipped
    before the next one is kept. *)
Fixpoint every_from {A} (c s : nat) (l : list A) : list A :=
  match l with
  | [] => []
  | x :: r => match c with
              | O => x :: every_from (s - 1) s r
              | S c' => every_from c' s r
              end
  end.
Definition every {A} (s : nat) (l : list A) : list A := every_from 0 s l.

(** [np.arange(ny * nx).reshape((ny, nx))], row by row. *)
Definition arange2 (ny nx : nat) : list (list nat) :=
  map (fun y => map (fun x => y * nx + x) (seq 0 nx)) (seq 0 ny).

(** [np.unravel_index(i, (ny, nx))]. *)
Definition unravel2 (nx i : nat) : nat * nat := (i / nx, i mod nx).

(** Ceiling of the quotient of two natural numbers, b > 0. *)
Definition ceil_div (a b : nat) : nat := (a + b - 1) / b.
