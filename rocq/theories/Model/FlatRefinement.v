(** Refinement of one pattern, with the outcome of a division by zero: indexing/_refinement/_solvers.py
    _prepare_pattern (50-72) and the solvers (75-622), _objective_functions.py (36-190),
    similarity_metrics/_normalized_cross_correlation.py _ncc_single_patterns_1d_float32_exp_centered (200-225),
    pattern/_pattern.py _rescale_without_min_max_1d_float32 (125-134), _zero_mean_sum_square_1d_float32 (136-139).

    The functions of Model/Similarity.v, with None for a value that is not a number. A pattern with a pixel that is not
    a number has no mean, so no pixel of the prepared pattern is one. Simplifications: real numbers; what is simulated
    for some parameters, and the optimiser, are parameters; what compiled code with fastmath gives for 0 / 0 is taken to
    be NaN. *)
From Coq Require Import List Arith Reals Bool.
From Verif Require Import Model.Pattern Model.Similarity Model.FlatPatterns.
Import ListNotations.
Local Open Scope R_scope.

(** All pixels, if they are all numbers. *)
Fixpoint all_numbers (l : pixels) : option (list R) :=
  match l with
  | [] => Some []
  | None :: _ => None
  | Some x :: l => option_map (cons x) (all_numbers l)
  end.

(** _prepare_pattern (50-72). *)
Definition prepared_pattern (rescale : bool) (p : pattern) : option (pattern * R) :=
  let p := if rescale then all_numbers (rescaled (vmin p) (vmax p) (-1) 1 p) else Some p in
  option_map (fun p => let p := zero_mean p in (p, dot p p)) p.

(** _ncc_single_patterns_1d_float32_exp_centered (200-225). *)
Definition scored (exp sim : pattern) (exp_squared_norm : R) : option R :=
  let sim := zero_mean sim in
  divided (dot exp sim) (sqrt (exp_squared_norm * dot sim sim)).

(** The value of the objective functions (_objective_functions.py 36-190) for some parameters. *)
Definition objective_value {X} (simulate : X -> pattern) (prepared : option (pattern * R)) (x : X) : option R :=
  match prepared with
  | None => None
  | Some (exp, squared_norm) => option_map (fun s => 1 - s) (scored exp (simulate x) squared_norm)
  end.

(** A solver without pseudo-symmetry (e.g. lines 205-209, 512-516): score and parameters. *)
Definition solved {X} (minimise : (X -> option R) -> X -> option R * X) (rescale : bool) (simulate : X -> pattern)
    (p : pattern) (start : X) : option R * X :=
  let (value, x) := minimise (objective_value simulate (prepared_pattern rescale p)) start in
  (option_map (fun v => 1 - v) value, x).

(** np.argmax of a list with missing values (239-240, 450-451): the first missing value, if there is any, otherwise the
    first of the greatest. np.argmin of one minus them (531, 617) is the same index. *)
Fixpoint first_missing (l : list (option R)) : option nat :=
  match l with
  | [] => None
  | None :: _ => Some O
  | Some _ :: l => option_map S (first_missing l)
  end.
Fixpoint first_greatest (l : list R) (i best : nat) (value : R) : nat :=
  match l with
  | [] => best
  | x :: l => if Rlt_dec value x then first_greatest l (S i) i x else first_greatest l (S i) best value
  end.
Definition argmax_nan (l : list (option R)) : nat :=
  match first_missing l with
  | Some i => i
  | None => match all_numbers l with Some (x :: l) => first_greatest l 1 0 x | _ => O end
  end.

(** A solver with pseudo-symmetry (e.g. 211-247, 517-536), from each of the start parameters: score, parameters and the
    index of the chosen start parameters. *)
Definition solved_variants {X} (minimise : (X -> option R) -> X -> option R * X) (rescale : bool) (simulate : X -> pattern)
    (p : pattern) (starts : list X) : option (option R * X * nat) :=
  let results := map (solved minimise rescale simulate p) starts in
  let i := argmax_nan (map fst results) in
  option_map (fun r => (r, i)) (nth_error results i).
