(** Model signals from decompositions: EBSD.get_decomposition_model (src/kikuchipy/signals/ebsd.py 2665-2723),
    LazyEBSD.get_decomposition_model_write (3200-3290), _update_learning_results and _rechunk_learning_results
    (signals/util/_dask.py 219-332). Numbers are integers: casting to a floating point type and rounding are not modelled. *)
From Coq Require Import List ZArith Bool Arith.
From Verif Require Import Model.Binary.
Import ListNotations.
Local Open Scope Z_scope.

(** Matrices by rows: factors (pixels, components) and loadings (map points, components). *)
Definition matrix := list (list Z).
Inductive components := All | Number (c : Z) | Chosen (l : list Z).

(** Python: [row[:c]] and [row[i]] with negative numbers. *)
Definition first_columns (c : Z) (row : list Z) : list Z :=
  firstn (Z.to_nat (if c <? 0 then Z.of_nat (length row) + c else c)) row.
Definition column (row : list Z) (i : Z) : option Z :=
  let n := Z.of_nat (length row) in
  if (0 <=? i) && (i <? n) then nth_error row (Z.to_nat i)
  else if (- n <=? i) && (i <? 0) then nth_error row (Z.to_nat (n + i)) else None.
Fixpoint all_some {A} (l : list (option A)) : option (list A) :=
  match l with [] => Some [] | x :: l => let? a := x in let? r := all_some l in Some (a :: r) end.
(** _update_learning_results, 318-325; None for an IndexError. *)
Definition select (k : components) (m : matrix) : option matrix :=
  match k with
  | All => Some m
  | Number c => Some (map (first_columns c) m)
  | Chosen l => all_some (map (fun row => all_some (map (column row) l)) m)
  end.

(** HyperSpy's model without arguments, (factors @ loadings.T).T: a row per map point. *)
Fixpoint dot (a b : list Z) : Z := match a, b with x :: a, y :: b => x * y + dot a b | _, _ => 0 end.
Definition product (factors loadings : matrix) : matrix := map (fun l => map (fun f => dot f l) factors) loadings.

(** get_decomposition_model. [fails]: HyperSpy's function raises an error. The learning results after the call and the
    result; the originals are put back only when that function returns. *)
Record learning := Learning { factors : matrix; loadings : matrix }.
Definition get_model (fails : bool) (k : components) (s : learning) : learning * option matrix :=
  match select k (factors s), select k (loadings s) with
  | Some f, Some l => if fails then (Learning f l, None) else (s, Some (product f l))
  | _, _ => (s, None)
  end.

(** _rechunk_learning_results: p pixels, n map points, k components, b bytes per number and a suggested size in bytes. First
    chunk sizes of factors and loadings, -1 for a single chunk. The quotients are computed in floating point, which is
    exact for the sizes of arrays. [None]: division by zero. *)
Definition ceil_div (a b : Z) : Z := (a + b - 1) / b.
(** The loop, 268-270, with bounded steps; None if it has not stopped. *)
Fixpoint halve (fuel : nat) (s0 s1 suggested : Z) : option (Z * Z) :=
  if s0 + s1 <? suggested then Some (s0, s1) else
  match fuel with
  | O => None
  | S fuel => if s0 <? s1 then halve fuel s0 (s1 / 2) suggested else halve fuel (s0 / 2) s1 suggested
  end.
Definition rechunk (fuel : nat) (p n k b suggested : Z) : option (Z * Z) :=
  let fs := p * k * b in let ls := n * k * b in
  if suggested =? 0 then None
  else if fs <=? suggested then Some (-1, n / ceil_div (fs + ls) suggested)
  else let? s := halve fuel fs ls suggested in
       if (fst s =? 0) || (snd s =? 0) then None
       else Some (p / ceil_div fs (fst s), n / ceil_div ls (snd s)).

(** get_decomposition_model_write: the learning results, the files in an empty directory after the call and whether it
    returned. Errors can occur in the multiplication and while saving (here for any reason), and rechunking to
    (1, 1, -1, -1) is an error unless the data has four axes. The selection comes first; the temporary file with the
    selected results is removed last. Rescaling to the data type of the signal, in place of which values are kept here, is
    modelled in Intensity.v. *)
Inductive file := Temporary (f l : matrix) | Model (m : matrix).
Definition write_model (axes : nat) (multiply_fails save_fails : bool) (k : components) (s : learning) : learning * list file * bool :=
  match select k (factors s), select k (loadings s) with
  | Some f, Some l =>
      if multiply_fails then (s, [Temporary f l], false)
      else if negb (Nat.eqb axes 4) then (s, [Temporary f l], false)
      else if save_fails then (s, [Temporary f l], false)
      else (s, [Model (product f l)], true)
  | _, _ => (s, [], false)
  end.
