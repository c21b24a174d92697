(** What refinement compares: the objective functions (indexing/_refinement/_objective_functions.py 36-190), the solvers
    (_solvers.py 51-72, 163-236, 297-331, 386-457, 485-622), the master pattern given to them (_refinement.py 1290-1320),
    the direction cosines of one common PC (378-420, 981-990) and the pixels used (signals/ebsd.py 3022-3026).

    Simplifications: real numbers instead of float32 and float64; the optimiser is a parameter that gets the objective and
    the start and returns a value and the parameters; number of evaluations, bounds (Model/RefinementBounds.v) and
    pseudo-symmetry (Model/RefinementResults.v) are left out; out of range indices of compiled code are None. *)
From Coq Require Import List Arith ZArith Reals.
From Verif Require Import Model.Detector Model.Rotations Model.Lambert Model.Simulation.
From Verif Require Model.Pattern Model.Intensity Model.Similarity.
Import ListNotations.
Local Open Scope R_scope.

(** get_gnomonic_bounds (_utils/_gnonomic_bounds.py 25-65) *)
Definition get_gnomonic_bounds (nr nc : nat) (p : pc3) : bounds :=
  let aspect_ratio := INR nc / INR nr in
  Bounds (- aspect_ratio * (pcx p / pcz p)) (aspect_ratio * (1 - pcx p) / pcz p) (- (1 - pcy p) / pcz p) (pcy p / pcz p).

(** The pixels of a hemisphere row by row, and the array with given pixels. *)
Definition flat (n : Z) (h : Z -> Z -> R) : list R :=
  flat_map (fun r => map (fun c => h (Z.of_nat r) (Z.of_nat c)) (seq 0 (Z.to_nat n))) (seq 0 (Z.to_nat n)).
Definition unflat (n : Z) (l : list R) (r c : Z) : R := nth (Z.to_nat (r * n + c)) l 0.

(** _get_master_pattern_data (1290-1320): hemispheres that are not float32 are rescaled, one by one. *)
Definition master_pattern_data (mp : master) : master :=
  if dtype_eqb (mp_dtype mp) Intensity.Float32 then mp
  else
    let rescale h := unflat (npx mp) (Intensity.rescale_intensity None None Intensity.Float32 None (flat (npx mp) h)) in
    Master (rescale (upper mp)) (rescale (lower mp)) (npx mp) Intensity.Float32.

(** _prepare_patterns_for_refinement (signals/ebsd.py 3022-3026): the mask for pixels to use, and the used pixels of one
    pattern. *)
Definition use_mask (nr nc : nat) (signal_mask : option (list bool)) : list bool :=
  match signal_mask with None => repeat true (nr * nc) | Some m => map negb m end.
Definition used_pixels (signal_mask : option (list bool)) (p : list R) : list R :=
  match signal_mask with None => p | Some m => Detector.select (map negb m) p end.

(** The projection in the three objective functions (no rescaling), and the score from it. *)
Definition simulate (mpd : master) (q : quat) (dc : list vec) : list R := project_single mpd Intensity.Float32 false 0 1 q dc.
Definition euler_rotation (x : R * R * R) : quat := rotation_from_euler (fst (fst x)) (snd (fst x)) (snd x).

(** _refine_orientation_objective_function (36-74) *)
Definition orientation_objective (mpd : master) (dc : list vec) (exp : list R) (squared_norm : R) (x : R * R * R) : R :=
  1 - Similarity.ncc_single exp (simulate mpd (euler_rotation x) dc) squared_norm.
(** Direction cosines in the other two objective functions. *)
Definition cosines_for (nr nc : nat) (om : mat) (mask : list bool) (p : pc3) : option (list vec) :=
  all_some (direction_cosines_fixed (get_gnomonic_bounds nr nc p) (pcz p) nr nc om mask).
(** _refine_pc_objective_function (77-134) *)
Definition pc_objective (mpd : master) (nr nc : nat) (om : mat) (mask : list bool) (q : quat) (exp : list R) (squared_norm : R)
    (x : pc3) : option R :=
  option_map (fun dc => 1 - Similarity.ncc_single exp (simulate mpd q dc) squared_norm) (cosines_for nr nc om mask x).
(** _refine_orientation_pc_objective_function (137-190) *)
Definition orientation_pc_objective (mpd : master) (nr nc : nat) (om : mat) (mask : list bool) (exp : list R) (squared_norm : R)
    (x : (R * R * R) * pc3) : option R :=
  option_map (fun dc => 1 - Similarity.ncc_single exp (simulate mpd (euler_rotation (fst x)) dc) squared_norm)
    (cosines_for nr nc om mask (snd x)).

(** _detector_is_compatible_with_signal (signals/util/_detector.py 28-60), checked before refinement (signals/ebsd.py 2936) *)
Definition detector_is_compatible (d : detector) (signal_nav_shape signal_shape : list nat) : bool :=
  let eqb a b := if list_eq_dec Nat.eq_dec a b then true else false in
  (eqb signal_shape [Z.to_nat (d_ny d); Z.to_nat (d_nx d)]
   && (eqb (nav_shape (d_pc d)) [1%nat] || eqb (nav_shape (d_pc d)) signal_nav_shape))%bool.

(** Refinement of one pattern: score and refined parameters.  None: an error. *)
Section Solve.
Variables (mp : master) (d : detector) (signal_mask : option (list bool)) (pattern_dtype : Intensity.dtype).
Let nr := Z.to_nat (d_ny d).
Let nc := Z.to_nat (d_nx d).
Let mask := use_mask nr nc signal_mask.
Let om := transposed (sample_to_detector d).
Let mpd := master_pattern_data mp.
(** solver_kwargs["rescale"] (_refinement.py 956) *)
Let prepare (pattern : list R) := Similarity.prepare_pattern (dtype_eqb pattern_dtype Intensity.Float32) (used_pixels signal_mask pattern).

(** _refine_orientation_solver_scipy and _nlopt.  With one PC (navigation size 1) the direction cosines come from the
    detector; three-dimensional ones do not fit the signature of rotate_vector, a TypeError. *)
Definition solve_orientation (minimise : (R * R * R -> R) -> R * R * R -> R * (R * R * R)) (pattern : list R) (start : R * R * R) (p : pc3)
    : option (R * (R * R * R)) :=
  let (exp, squared_norm) := prepare pattern in
  let dc :=
    if (1 <? length (pcs (d_pc d)))%nat then cosines_for nr nc om mask p
    else match direction_cosines d (Some mask) with OneSet dc => all_some dc | PerPC _ => None end in
  option_map (fun dc => let (value, x) := minimise (orientation_objective mpd dc exp squared_norm) start in (1 - value, x)) dc.
(** _refine_pc_solver_scipy and _nlopt *)
Definition solve_pc (minimise : (pc3 -> option R) -> pc3 -> option R * pc3) (pattern : list R) (q : quat) (p : pc3) : option (R * pc3) :=
  let (exp, squared_norm) := prepare pattern in
  let (value, x) := minimise (pc_objective mpd nr nc om mask q exp squared_norm) p in
  option_map (fun v => (1 - v, x)) value.
(** _refine_orientation_pc_solver_scipy and _nlopt *)
Definition solve_orientation_pc (minimise : ((R * R * R) * pc3 -> option R) -> (R * R * R) * pc3 -> option R * ((R * R * R) * pc3))
    (pattern : list R) (start : R * R * R) (p : pc3) : option (R * ((R * R * R) * pc3)) :=
  let (exp, squared_norm) := prepare pattern in
  let (value, x) := minimise (orientation_pc_objective mpd nr nc om mask exp squared_norm) (start, p) in
  option_map (fun v => (1 - v, x)) value.
End Solve.
