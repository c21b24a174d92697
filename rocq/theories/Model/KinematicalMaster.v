(** Kinematical master patterns: KikuchiPatternSimulator.calculate_master_pattern
    (simulations/kikuchi_pattern_simulator.py 122-215) and get_pattern (676-699).

    Simplifications: real numbers; progress bar and phase are left out; Bragg angles and structure factors
    are calculated for all reflectors or for none (diffsims); half_size is a whole number of at least 1, for
    which "squeeze" removes the first axis of one hemisphere only.  Facts about other libraries:
    "Vector3d.unit" and "InverseStereographicProjection.xy2vector" (orix) are [normalise] and
    [xy2vector]. *)
From Coq Require Import List Arith ZArith Reals Bool String.
From Verif Require Import Model.Detector Model.Lambert.
Import ListNotations.
Local Open Scope R_scope.

(** ** get_pattern *)

(** vec_dot (_utils/numba.py 92-97) *)
Definition vec_dot (u v : vec) : R := 0 + vx u * vx v + vy u * vy v + vz u * vz v.

(** What one pass of the loops over reflectors i and pixels j adds to pixel j, if anything (692-698) *)
Definition addition (intensity theta : R) (xyz_reflector xyz_hemi : vec) : option R :=
  let theta2 := PI / 2 in
  let theta1 := theta2 - theta in
  let D := vec_dot xyz_reflector xyz_hemi in
  if Rle_dec (Rabs D) (/ 10000000) then Some (0.5 * intensity)
  else
    let angle := acos D in
    if Rle_dec angle theta2 then if Rle_dec theta1 angle then Some intensity else None else None.

(** "pattern[j] = pattern[j] + c": an update of pixel j by c *)
Notation update := (nat * R)%type.
Definition memory := nat -> R.
Definition write (pattern : memory) (j : nat) (x : R) : memory := fun k => if (k =? j)%nat then x else pattern k.

Definition origin : vec := Vec 0 0 0.
Section GetPattern.
Variables (intensity : list R) (xyz_hemi xyz_reflector : list vec) (theta_reflector : list R).
Let n := List.length xyz_hemi.
Let m := List.length xyz_reflector.
(** Body of the loop over reflectors: updates of the loop over pixels, in order (691-698) *)
Definition updates_of (i : nat) : list update :=
  flat_map (fun j =>
      match addition (nth i intensity 0) (nth i theta_reflector 0) (nth i xyz_reflector origin) (nth j xyz_hemi origin) with
      | Some c => [(j, c)]
      | None => []
      end)
    (seq 0 n).

(** The loops carried out one after the other (683-699) *)
Definition get_pattern : list R :=
  let pattern := fold_left (fun p u => write p (fst u) (p (fst u) + snd u)) (flat_map updates_of (seq 0 m)) (fun _ => 0) in
  map pattern (seq 0 n).

(** *** With threads: "@nb.njit(parallel=True)" and "for i in nb.prange(m)" (676-682, 691)

    numba distributes the passes of the loop over reflectors among threads which share "pattern". It makes
    no reduction of "pattern[j] = pattern[j] + c" (only of a variable as a whole), so that an update is a
    read of pattern[j] followed, later, by a write. *)
Record thread := Thread { code : list update; register : option R }.
Definition step (p : memory) (t : thread) : memory * thread :=
  match code t with
  | [] => (p, t)
  | (j, c) :: rest =>
      match register t with
      | None => (p, Thread (code t) (Some (p j)))
      | Some x => (write p j (x + c), Thread rest None)
      end
  end.
Fixpoint replace {A} (k : nat) (a : A) (l : list A) : list A :=
  match l, k with [], _ => [] | _ :: r, O => a :: r | x :: r, S k' => x :: replace k' a r end.
Fixpoint run (schedule : list nat) (p : memory) (ts : list thread) : memory * list thread :=
  match schedule with
  | [] => (p, ts)
  | k :: rest =>
      match nth_error ts k with
      | Some t => let (p', t') := step p t in run rest p' (replace k t' ts)
      | None => run rest p ts
      end
  end.
(** [shares]: the reflectors (loop passes) of each thread, in the order it takes them. *)
Definition get_pattern_parallel (shares : list (list nat)) (schedule : list nat) : option (list R) :=
  let (p, ts) := run schedule (fun _ => 0) (map (fun is => Thread (flat_map updates_of is) None) shares) in
  if forallb (fun t => match code t with [] => true | _ => false end) ts then Some (map p (seq 0 n)) else None.
End GetPattern.

(** ** calculate_master_pattern *)

(** poles_from_hemisphere, parse_hemisphere (_utils/vector.py 28-53) *)
Definition poles_from_hemisphere (hemisphere : string) : option (list R) :=
  let hemi := lower hemisphere in
  if (hemi =? "upper")%string then Some [-1]
  else if (hemi =? "lower")%string then Some [1]
  else if (hemi =? "both")%string then Some [-1; 1]
  else None.

Definition complex := (R * R)%type.
Definition cabs (z : complex) : R := sqrt (fst z * fst z + snd z * snd z).
Definition conjugate (z : complex) : complex := (fst z, - snd z).
Definition cmul (a b : complex) : complex := (fst a * fst b - snd a * snd b, fst a * snd b + snd a * fst b).

(** Reflectors: vectors, and Bragg angles and structure factors if calculated *)
Record reflectors := Reflectors { vectors : list vec; thetas : option (list R); factors : option (list complex) }.

(** intensity (170-183) *)
Definition intensities (scaling : option string) (factor : list complex) : option (list R) :=
  match scaling with
  | None => Some (repeat 1 (List.length factor))
  | Some s =>
      if (s =? "linear")%string then Some (map cabs factor)
      else if (s =? "square")%string then Some (map (fun f => cabs (cmul f (conjugate f))) factor)
      else None
  end.

(** np.linspace(-1, 1, size)[k] *)
Definition linspace (size k : nat) : R := -1 + INR k * (2 / INR (size - 1)).
(** InverseStereographicProjection(pole).xy2vector (orix) *)
Definition xy2vector (pole : R) (xy : R * R) : vec :=
  let (x, y) := xy in
  let denom := 1 + x * x + y * y in
  Vec (2 * x / denom) (2 * y / denom) (- pole * (1 - x * x - y * y) / denom).
(** np.meshgrid(arr, arr), ravel: columns vary fastest (187-190) *)
Definition grid (size : nat) : list (R * R) :=
  map (fun j => (linspace size (j mod size), linspace size (j / size))) (seq 0 (size * size)).

(** Signal: one pattern (flat) per hemisphere, number of axes of the array, (size, offset) of the axes *)
Record signal := Signal { data : list (list R); data_ndim : nat; axes : list (Z * Z); hemisphere_of : string }.

Definition calculate_master_pattern (r : reflectors) (half_size : nat) (hemisphere : string) (scaling : option string)
    : option signal :=
  match thetas r, factors r with
  | Some theta, Some factor =>
      let size := (2 * half_size + 1)%nat in
      match poles_from_hemisphere hemisphere, intensities scaling factor with
      | Some poles, Some intensity =>
          let xyz_reflector := map normalise (vectors r) in
          let patterns := map (fun pole => get_pattern intensity (map (xy2vector pole) (grid size)) xyz_reflector theta) poles in
          let offset := (- Z.of_nat size / 2)%Z in
          let image := [(Z.of_nat size, offset); (Z.of_nat size, offset)] in
          Some (Signal patterns (if (List.length poles =? 1)%nat then 2 else 3)
                  (if (hemisphere =? "both")%string then (2%Z, 0%Z) :: image else image) hemisphere)
      | _, _ => None
      end
  | _, _ => None
  end.
