(** Bounds on the control variables of a refinement: _RefinementSetup.get_bound_constraints,
    src/kikuchipy/indexing/_refinement/_refinement.py 1178-1242, and the initial step, 1104-1115. Real numbers instead
    of doubles. *)
From Coq Require Import List Reals Lra.
Import ListNotations.
Local Open Scope R_scope.

Definition deg2rad (x : R) : R := x * (PI / 180).

Inductive mode := Ori | Pc | OriPc.
(** How the trust region is passed: as an array (np.asarray returns the same object) or as a list or tuple (copied), with
    integer or floating point numbers. *)
Record argument := Argument { values : list R; is_array : bool; is_integer : bool }.
(** Conversion to an integer data type when assigning to an integer array: towards zero. *)
Definition trunc (x : R) : R := if Rle_dec 0 x then IZR (Int_part x) else - IZR (Int_part (- x)).

(** Absolute limits, lines 1212-1220. *)
Definition leeway : R := deg2rad 5.
Definition eu_lower : list R := [- leeway; - leeway; - leeway].
Definition eu_upper : list R := [2 * PI + leeway; PI + leeway; 2 * PI + leeway].
Definition pc_lower : list R := [-2; -2; -2].
Definition pc_upper : list R := [2; 2; 2].
Definition lower_abs (m : mode) : list R := match m with Ori => eu_lower | Pc => pc_lower | OriPc => eu_lower ++ pc_lower end.
Definition upper_abs (m : mode) : list R := match m with Ori => eu_upper | Pc => pc_upper | OriPc => eu_upper ++ pc_upper end.

(** The trust region used, lines 1222-1235. *)
Definition used (m : mode) (t : argument) : list R :=
  match m with
  | Ori => map deg2rad (values t)
  | Pc => values t
  | OriPc => map (fun x => if is_integer t then trunc (deg2rad x) else deg2rad x) (firstn 3 (values t)) ++ skipn 3 (values t)
  end.
(** The caller's argument after the call: [trust_region[:3] = ...] writes into the array itself. *)
Definition after (m : mode) (t : argument) : argument :=
  match m with
  | OriPc => if is_array t then Argument (used OriPc t) true (is_integer t) else t
  | _ => t
  end.

Definition zip3 (f : R -> R -> R -> R) (a b c : list R) : list R := map (fun t => f (fst (fst t)) (snd (fst t)) (snd t)) (combine (combine a b) c).
(** For one starting point x, lines 1239-1240. *)
Definition lower_bounds (m : mode) (x : list R) (t : argument) : list R := zip3 (fun x t l => Rmax (x - t) l) x (used m t) (lower_abs m).
Definition upper_bounds (m : mode) (x : list R) (t : argument) : list R := zip3 (fun x t u => Rmin (x + t) u) x (used m t) (upper_abs m).

(** Initial steps passed to NLopt, 1104-1115: repeated three times, not converted. None for a ValueError. *)
Definition initial_steps (m : mode) (s : list R) : option (list R) :=
  if Nat.eqb (length s) (match m with OriPc => 2 | _ => 1 end) then Some (concat (map (fun x => [x; x; x]) s)) else None.

(** indexing/_refinement/__init__.py 32-64. *)
Inductive optimiser := Minimize | LnNelderMead | Basinhopping | DifferentialEvolution | DualAnnealing | Shgo.
Definition nvars (m : mode) : nat := match m with OriPc => 6 | _ => 3 end.
(** get_bound_constraints with or without a trust region (1199-1207: zeros) and which bounds the solvers pass on:
    _solvers.py 172-196 (SciPy, the same in the solvers for PCs and for both) and 508-510 (NLopt). *)
Definition bound_constraints (m : mode) (x : list R) (t : option argument) : list R * list R :=
  match t with
  | Some t => (lower_bounds m x t, upper_bounds m x t)
  | None => (repeat 0 (nvars m), repeat 0 (nvars m))
  end.
Definition passed_bounds (k : optimiser) (m : mode) (x : list R) (t : option argument) : option (list R * list R) :=
  match k with
  | Minimize | LnNelderMead => match t with Some _ => Some (bound_constraints m x t) | None => None end
  | Basinhopping => None
  | DifferentialEvolution | DualAnnealing | Shgo => Some (bound_constraints m x t)
  end.
