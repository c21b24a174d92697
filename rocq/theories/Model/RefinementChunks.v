(** Refinement over chunks: how patterns are prepared and chunked (_prepare_patterns_for_refinement, src/kikuchipy/signals/ebsd.py
    2972-3047), how starting values are arranged (_RefinementSetup.__init__, indexing/_refinement/_refinement.py 957-1006), passed to the
    solvers chunk by chunk (380-424, 441-571, 611-626, 642-699, 738-761, 779-845), and read from the returned rows (118-125, 184-187, 282-291).
    Dask is outside the repository: of a Dask array we keep its blocks along the navigation axis, each a list of items, and of
    da.map_blocks that it takes block k of every array, or the only block of an array that has one.  Pixels are in one chunk. *)
From Coq Require Import List Reals Bool Arith.
From Verif Require Import Model.Binary Model.DictIndex Model.Chunking Model.RefinementBounds Model.RefinementResults.
Import ListNotations.
Local Open Scope nat_scope.

Fixpoint all_some {A} (l : list (option A)) : option (list A) :=
  match l with [] => Some [] | x :: l => let? a := x in let? r := all_some l in Some (a :: r) end.

(** The items of a list in chunks of the given sizes. *)
Fixpoint cut {A} (cs : list nat) (l : list A) : list (list A) :=
  match cs with [] => [] | c :: cs => firstn c l :: cut cs (skipn c l) end.
(** Array.chunksize[0] *)
Definition largest {A} (b : list (list A)) : nat := fold_right Nat.max 0 (map (@length A) b).

(** The dictionary chunk_kwargs: keys chunk_shape (its value may be None) and chunk_bytes; [others] if there is a key that get_chunking
    does not have or is already given (TypeError). *)
Record kwargs := Kwargs { chunk_shape : option (option nat); chunk_bytes : option nat; others : bool }.

Section Refinement.
Context {Pixel Quat : Type}.
Local Notation pattern := (list Pixel).
(** Dask's choices: chunk sizes after indexing with a Boolean array, and for "auto" with a number of bytes. *)
Variable index_chunks : list nat -> list bool -> list nat.
Variable auto : option nat -> list spec -> list nat -> nat -> nat.

(** 3006-3023: points and pixels to use.  None for an IndexError. *)
Definition masked (blocks : list (list pattern)) (points : list bool) (signal_mask : option (list bool)) : option (list (list pattern)) :=
  let? b := if forallb (fun x => x) points then Some blocks
    else if length points =? length (concat blocks)
    then Some (cut (index_chunks (map (@length pattern) blocks) points) (compress points (concat blocks))) else None in
  Some (match signal_mask with None => b | Some k => map (map (compress (map negb k))) b end).
(** 3025-3042: the blocks and the caller's dictionary afterwards (None if none was given).  None for an exception. *)
Definition prepare (blocks : list (list pattern)) (points : list bool) (signal_mask : option (list bool)) (rechunk : bool) (kw : option kwargs)
    : option (list (list pattern) * option kwargs) :=
  let? b := masked blocks points signal_mask in
  let n := length (concat b) in
  if (n =? largest b) && negb rechunk then Some (b, kw)
  else
    let d := match kw with Some d => d | None => Kwargs None None false end in
    let d := match chunk_shape d with
      | Some _ => d
      | None => Kwargs (Some (Some (if largest b =? n then 64 else largest b))) (chunk_bytes d) (others d)
      end in
    if others d then None
    else
      let shape := [n; length (hd [] (concat b))] in
      let? cs := get_chunking (auto (chunk_bytes d)) shape 1 1 (match chunk_shape d with Some c => c | None => None end) in
      Some (cut (hd [] cs) (concat b), match kw with Some _ => Some d | None => None end).

(** For every point: rows of numbers, one per variant (the orientation and its pseudo-symmetric ones). *)
Definition rows := list (list R).
Section Setup.
Variables (mul : Quat -> Quat -> Quat) (euler numbers : Quat -> list R).
(** 964-978: Rotation.outer gives one row per operator, transposed to one row per rotation; np.hstack puts the rotation first. *)
Definition outer (ops rot : list Quat) : list (list Quat) := map (fun o => map (mul o) rot) ops.
Fixpoint transpose {A} (n : nat) (m : list (list A)) : list (list A) :=
  match n with 0 => [] | S n => concat (map (fun r => firstn 1 r) m) :: transpose n (map (fun r => skipn 1 r) m) end.
Definition with_variants (ops : option (list Quat)) (rot : list Quat) : list (list Quat) :=
  match ops with
  | None => map (fun r => [r]) rot
  | Some ops => map (fun rp => fst rp :: snd rp) (combine rot (transpose (length rot) (outer ops rot)))
  end.
(** 962-969: the first rotation of every point to refine. *)
Definition used_rotations (m : cmap (list Quat)) (points : list bool) (d : Quat) : list Quat :=
  map (hd d) (compress (compress (in_data m) points) (compress (in_data m) (rotations m))).
Definition rotation_rows (mode : mode) (m : cmap (list Quat)) (points : list bool) (ops : option (list Quat)) (d : Quat) : list rows :=
  map (map (match mode with Pc => numbers | _ => euler end)) (with_variants ops (used_rotations m points d)).
(** 980-999: [pcs] are the PCs of the detector; one row, or one row per variant. *)
Definition n_ops (ops : option (list Quat)) : nat := match ops with Some ops => length ops | None => 0 end.
Definition pc_rows (pcs : list (list R)) (points : list bool) (ops : option (list Quat)) : list rows :=
  map (fun pc => repeat pc (match ops with Some ops => S (length ops) | None => 1 end)) (centers points pcs).

(** da.from_array with chunks of one size, and _RefinementSetup.chunks (960) *)
Definition from_rows (size : nat) (l : list rows) : list (list rows) := cut (blockdims (length l) size) l.
(** da.concatenate along the last axis, 1002-1006 *)
Definition join (a b : list (list rows)) : list (list rows) :=
  map (fun xy => map (fun rs => map (fun vw => fst vw ++ snd vw) (combine (fst rs) (snd rs))) (combine (fst xy) (snd xy))) (combine a b).
(** Arithmetic on every row. *)
Definition each (f : list R -> list R) (a : list (list rows)) : list (list rows) := map (map (map f)) a.
(** a[:, 0, :] *)
Definition first_variant (a : list (list rows)) : list (list rows) := map (map (firstn 1)) a.

(** The functions of a chunk: results[i] = solver(patterns[i], rotations[i], ...) for i in range(nav_size).  A row has value_size numbers,
    otherwise ValueError; IndexError if an array is shorter. *)
Definition chunk_func (value_size : nat) (solver : pattern -> list rows -> list R) (ps : list pattern) (args : list (list rows)) : option (list (list R)) :=
  all_some (map (fun ip : nat * pattern =>
    let? rs := all_some (map (fun a => nth_error a (fst ip)) args) in
    let row := solver (snd ip) rs in
    if length row =? value_size then Some row else None) (combine (seq 0 (length ps)) ps)).
(** da.map_blocks and Array.compute *)
Definition block_at {A} (a : list (list A)) (k : nat) : list A := nth (if length a =? 1 then 0 else k) a [].
Definition map_blocks (f : list pattern -> list (list rows) -> option (list (list R))) (ps : list (list pattern)) (args : list (list (list rows))) : option (list (list R)) :=
  let m := fold_right Nat.max (length ps) (map (@length _) args) in
  let fits n := (n =? m) || (n =? 1) in
  if fits (length ps) && forallb (fun a => fits (length a)) args
  then option_map (@concat _) (all_some (map (fun k => f (block_at ps k) (map (fun a => block_at a k) args)) (seq 0 m))) else None.

(** A solver gets a pattern, starting rotations, PCs and bounds (rows per variant) and returns a row of results. *)
Definition solver := pattern -> rows -> rows -> rows -> rows -> list R.
Definition value_size (mode : mode) (ops : option (list Quat)) : nat :=
  match mode with Pc => 5 | Ori => if 0 <? n_ops ops then 6 else 5 | OriPc => if 0 <? n_ops ops then 9 else 8 end.
(** _refine_orientation (380-424), _refine_pc (617-626), _refine_orientation_pc (752-761) *)
Definition refine (mode : mode) (solve : solver) (m : cmap (list Quat)) (d : Quat) (pcs : list (list R)) (points : list bool) (ops : option (list Quat))
    (trust : option argument) (ps : list (list pattern)) : option (list (list R)) :=
  let size := largest ps in
  let rot := from_rows size (rotation_rows mode m points ops d) in
  let pc := from_rows size (pc_rows pcs points ops) in
  let bounds x := (each (fun x => fst (bound_constraints mode x trust)) x, each (fun x => snd (bound_constraints mode x trust)) x) in
  match mode with
  | Ori =>
      let '(lo, up) := bounds rot in
      if 1 <? length pcs
      then map_blocks (chunk_func (value_size mode ops) (fun p a => match a with [r; l; u; c] => solve p r (firstn 1 c) l u | _ => [] end)) ps [rot; lo; up; pc]
      else map_blocks (chunk_func (value_size mode ops) (fun p a => match a with [r; l; u] => solve p r (firstn 1 pcs) l u | _ => [] end)) ps [rot; lo; up]
  | Pc =>
      let '(lo, up) := bounds pc in
      map_blocks (chunk_func (value_size mode ops) (fun p a => match a with [r; c; l; u] => solve p r c l u | _ => [] end)) ps
        [first_variant rot; first_variant pc; first_variant lo; first_variant up]
  | OriPc =>
      let x := join rot pc in
      let '(lo, up) := bounds x in
      map_blocks (chunk_func (value_size mode ops) (fun p a => match a with [x; l; u] => solve p (map (firstn 3) x) (map (skipn 3) x) l u | _ => [] end)) ps [x; lo; up]
  end.
End Setup.

(** What a solver returns (_solvers.py 209, 247, 330, 420, 458, 516-536, 567, 602-622): score, number of evaluations, the variables found,
    and with pseudo-symmetry operators the number of the best variant. *)
Definition result_row (ops : option (list Quat)) (score evals : R) (x : list R) (best : nat) : list R :=
  [score; evals] ++ x ++ (if 0 <? n_ops ops then [INR best] else []).
(** Reading rows: orientations (118-125, 282-287), PCs (184-187, 291).  None for an IndexError. *)
Record orientation_result := OrientationResult { r_score : R; r_evals : R; r_euler : list R; r_index : option R }.
Definition columns (a b : nat) (row : list R) : list R := skipn a (firstn b row).
Definition read_orientation (mode : mode) (ops : option (list Quat)) (row : list R) : option orientation_result :=
  let? s := nth_error row 0 in
  let? e := nth_error row 1 in
  match ops with
  | None => Some (OrientationResult s e (columns 2 5 row) None)
  | Some _ => let? i := nth_error row (match mode with OriPc => 8 | _ => 5 end) in Some (OrientationResult s e (columns 2 5 row) (Some i))
  end.
Definition read_center (mode : mode) (row : list R) : list R := match mode with OriPc => columns 5 8 row | _ => skipn 2 row end.
End Refinement.
