(** Which points are refined, with what, and where results are stored: _get_indexed_points_in_data_in_xmap
    (src/kikuchipy/signals/util/_crystal_map.py 111-161), _prepare_patterns_for_refinement (signals/ebsd.py 3006-3017),
    _RefinementSetup.__init__ (indexing/_refinement/_refinement.py 962-990) and the three compute_refine_*_results functions
    (50-300). A crystal map of orix has arrays of all points and gives those in its data, and counts a point as indexed if
    its phase is not -1. *)
From Coq Require Import List ZArith Bool Arith.
From Verif Require Import Model.DictIndex Model.Binary.
Import ListNotations.
Local Open Scope nat_scope.

Section Refinement.
Context {Pattern Rotation Center Result : Type}.

Record cmap := Cmap { in_data : list bool; phases : list Z; rotations : list Rotation; map_shape : list nat }.
(** xmap.phase_id, xmap.is_indexed: only for points in the data. *)
Definition phase_id (m : cmap) : list Z := compress (in_data m) (phases m).
Definition is_indexed (m : cmap) : list bool := map (fun i => negb (Z.eqb i (-1))) (phase_id m).
Definition both (a b : list bool) : list bool := map (fun xy => fst xy && snd xy) (combine a b).

(** np.unique, up to order. *)
Definition distinct (l : list Z) : list Z := nodup Z.eq_dec l.

(** Lines 116-137: the only phase, None for a ValueError or (if nothing is indexed) an IndexError. *)
Definition the_phase (ids : list Z) : option Z :=
  let u := distinct ids in
  if (Nat.eqb (length u) 1) || (Nat.eqb (length u) 2 && existsb (Z.eqb (-1)) u)
  then match filter (fun i => negb (Z.eqb i (-1))) u with i :: _ => Some i | [] => None end else None.
Definition get_points (m : cmap) (mask : option (list bool)) : option (list bool * list bool * Z) :=
  let? id := the_phase (match mask with
    | Some k => compress (compress (in_data m) (map negb k)) (phase_id m)
    | None => compress (is_indexed m) (phase_id m) end) in
  let kept := match mask with Some k => both (in_data m) (map negb k) | None => in_data m end in
  let? indexed := scatter false (in_data m) (is_indexed m) in
  Some (both kept indexed, kept, id).

(** Inputs of the solvers for each point to refine. *)
Definition centers (points : list bool) (pcs : list Center) : list Center :=
  match pcs with [pc] => repeat pc (count_occ bool_dec points true) | _ => compress points pcs end.
Definition inputs (m : cmap) (points : list bool) (patterns : list Pattern) (pcs : list Center) : list (Pattern * Rotation * Center) :=
  combine (combine (compress points patterns) (compress (compress (in_data m) points) (compress (in_data m) (rotations m)))) (centers points pcs).

(** Assignment [base[keep] = vals]; None for a ValueError. *)
Fixpoint put {A} (keep : list bool) (vals base : list A) : option (list A) :=
  match keep, base with
  | [], [] => match vals with [] => Some [] | _ => None end
  | true :: keep, _ :: base => match vals with v :: vals => option_map (cons v) (put keep vals base) | [] => None end
  | false :: keep, x :: base => option_map (cons x) (put keep vals base)
  | _, _ => None
  end.
(** Assignment of one value. *)
Definition put_one {A} (keep : list bool) (v : A) (base : list A) : list A := map (fun kx : bool * A => if fst kx then v else snd kx) (combine keep base).

(** compute_refine_orientation_results, with all results of a point together; [fill] are the zeros and the identity. *)
Record refined := Refined { r_in_data : list bool; r_phases : list Z; r_results : list Result }.
Definition refine_orientations (m : cmap) (mask : option (list bool)) (patterns : list Pattern) (pcs : list Center)
    (solve : Pattern -> Rotation -> Center -> Result) (fill : Result) : option refined :=
  let? pts := get_points m mask in
  let '(points, kept, id) := pts in
  let n := length points in
  let res := map (fun i => solve (fst (fst i)) (snd (fst i)) (snd i)) (inputs m points patterns pcs) in
  let? indexed := scatter false (in_data m) (is_indexed m) in
  let? results := put points res (repeat fill n) in
  Some (Refined kept (put_one (map negb indexed) (-1)%Z (put_one points id (repeat 0%Z n))) results).

(** Lines 145-159: the shape of the results when only PCs are refined. Positions in the data, row by row. *)
Definition positions (kept : list bool) : list nat := filter (fun p => nth p kept false) (seq 0 (length kept)).
Definition list_max (l : list nat) : nat := fold_right Nat.max 0 l.
Definition list_min (l : list nat) : nat := fold_right Nat.min (hd 0 l) l.
Definition span (l : list nat) : nat := list_max l - list_min l + 1.
Fixpoint all_equal (a b : list bool) : bool :=
  match a, b with [], [] => true | x :: a, y :: b => Bool.eqb x y && all_equal a b | _, _ => false end.
Definition mask_shape (shape : list nat) (kept points : list bool) : option (list nat) :=
  let ps := positions kept in
  let s := match shape with
    | [_; nc] => [span (map (fun p => p / nc) ps); span (map (fun p => p mod nc) ps)]
    | _ => [span ps] end in
  if all_equal points kept && Nat.eqb (fold_right Nat.mul 1 s) (length ps) then Some s else None.
(** compute_refine_projection_center_results: a flat list in the given shape, None for no reshaping. *)
Definition refine_centers (m : cmap) (mask : option (list bool)) (patterns : list Pattern) (pcs : list Center)
    (solve : Pattern -> Rotation -> Center -> Result) : option (list Result * option (list nat)) :=
  let? pts := get_points m mask in
  let '(points, kept, id) := pts in
  Some (map (fun i => solve (fst (fst i)) (snd (fst i)) (snd i)) (inputs m points patterns pcs), mask_shape (map_shape m) kept points).
End Refinement.
Arguments cmap : clear implicits.
Arguments refined : clear implicits.

(** Pseudo-symmetry (_refinement.py 970-974, _solvers.py 200-236, 516-536): the point is refined from its rotation and from
    each operator times its rotation; the first result with the highest score is chosen (SciPy: argmax of the score,
    NLopt: argmin of one minus the score). Scores are integers, only their order matters. *)
Definition variants {R O} (op : O -> R -> R) (ops : list O) (r : R) : list R := r :: map (fun o => op o r) ops.
Fixpoint argbest (better : Z -> Z -> bool) (l : list Z) (i best : nat) (value : Z) : nat :=
  match l with [] => best | x :: l => if better x value then argbest better l (S i) i x else argbest better l (S i) best value end.
Definition argmax (l : list Z) : nat := match l with [] => 0 | x :: l => argbest Z.gtb l 1 0 x end.
Definition argmin (l : list Z) : nat := match l with [] => 0 | x :: l => argbest Z.ltb l 1 0 x end.
Definition best_scipy {A} (rs : list (Z * A)) : option (Z * A * nat) :=
  let i := argmax (map fst rs) in option_map (fun r => (r, i)) (nth_error rs i).
Definition best_nlopt {A} (rs : list (Z * A)) : option (Z * A * nat) :=
  let i := argmin (map (fun r => (1 - fst r)%Z) rs) in option_map (fun r => (r, i)) (nth_error rs i).
