(** What refinement methods check before they start: _equal_phase and _xmap_is_compatible_with_signal
    (src/kikuchipy/signals/util/_crystal_map.py 28-108), _detector_is_compatible_with_signal (signals/util/_detector.py 26-59),
    EBSDMasterPattern._is_suitable_for_projection (signals/ebsd_master_pattern.py 331-377) and EBSD._check_refinement_parameters
    (signals/ebsd.py 2880-2970).

    Simplifications: rational numbers; an occupancy can be NaN (None).  A point group is given by the quaternions of its operations, which are
    not computed here.  Texts of errors and warnings are left out; warnings are counted. *)
From Coq Require Import String.
From Coq Require Import List Arith ZArith QArith Qabs Bool.
From Verif Require Import Model.Binary Model.DictIndex Model.RefinementResults.
Import ListNotations.
Local Open Scope nat_scope.

(** np.isclose and np.allclose with the default rtol=1e-5 and atol=1e-8, or another atol. *)
Definition isclose (atol a b : Q) : bool := Qle_bool (Qabs (a - b)) (atol + (1 # 100000) * Qabs b).
Definition default_atol : Q := 1 # 100000000.
Definition allclose (atol : Q) (a b : list Q) : bool := forallb (fun ab => isclose atol (fst ab) (snd ab)) (combine a b).

Record atom := Atom { element : string; xyz : Q * Q * Q; occupancy : option Q }.
Record point_group := PointGroup { operations : list (Q * Q * Q * Q); contains_inversion : bool }.
Record lattice := Lattice { la : Q; lb : Q; lc : Q; alpha : Q; beta : Q; gamma : Q }.
Record phase := Phase { name : string; space_group : option Z; group : option point_group; cell : lattice; atoms : list atom }.

Inductive difference := Names | SpaceGroups | PointGroups | NumberOfAtoms | LatticeParameters | Atoms.
(** np.allclose(..., equal_nan=True) of two numbers which may be NaN. *)
Definition close_nan (a b : option Q) : bool :=
  match a, b with None, None => true | Some x, Some y => isclose default_atol x y | _, _ => false end.
Definition flat (l : list (Q * Q * Q * Q)) : list Q := flat_map (fun q => let '(a, b, c, d) := q in [a; b; c; d]) l.
(** np.size of the array of a point group, or of NaN *)
Definition group_size (g : option point_group) : nat := match g with Some g => length (flat (operations g)) | None => 1 end.
Definition close_groups (g h : option point_group) : bool :=
  match g, h with
  | None, None => true
  | Some g, Some h => allclose default_atol (flat (operations g)) (flat (operations h))
  | _, _ => false
  end.
(** lattice.abcABG() *)
Definition abcABG (l : lattice) : list Q := [la l; lb l; lc l; alpha l; beta l; gamma l].
Definition coordinates (p : Q * Q * Q) : list Q := let '(x, y, z) := p in [x; y; z].
(** np.isclose of occupancies: NaN is close to nothing *)
Definition close_occupancies (a b : option Q) : bool := match a, b with Some x, Some y => isclose default_atol x y | _, _ => false end.
Definition atoms_differ (a b : atom) : bool :=
  negb (String.eqb (element a) (element b)) || negb (allclose default_atol (coordinates (xyz a)) (coordinates (xyz b)))
  || negb (close_occupancies (occupancy a) (occupancy b)).
(** _equal_phase (65-108): None if equal, else the difference. *)
Definition equal_phase (p q : phase) : option difference :=
  if negb (String.eqb (name p) (name q)) then Some Names
  else if negb (close_nan (option_map inject_Z (space_group p)) (option_map inject_Z (space_group q))) then Some SpaceGroups
  else if negb (group_size (group p) =? group_size (group q)) || negb (close_groups (group p) (group q)) then Some PointGroups
  else if negb (length (atoms p) =? length (atoms q)) then Some NumberOfAtoms
  else if negb (allclose default_atol (abcABG (cell p)) (abcABG (cell q))) then Some LatticeParameters
  else if existsb (fun ab => atoms_differ (fst ab) (snd ab)) (combine (atoms p) (atoms q)) then Some Atoms
  else None.

(** Navigation axes, slowest first, and the shape and step sizes of a crystal map: the dictionary xmap._step_sizes has y before x. *)
Record axis := Axis { axis_name : string; size : nat; scale : Q }.
Definition step_size (dy dx : Q) (n : string) : option Q := if String.eqb n "x" then Some dx else if String.eqb n "y" then Some dy else None.
Fixpoint all_some {A} (l : list (option A)) : option (list A) :=
  match l with [] => Some [] | None :: _ => None | Some a :: r => option_map (cons a) (all_some r) end.
Definition last_n {A} (n : nat) (l : list A) : list A := if n =? 0 then l else skipn (length l - n) l.
Definition shape_eqb (a b : list nat) : bool := if list_eq_dec Nat.eq_dec a b then true else false.
(** _xmap_is_compatible_with_signal (28-61): compatible or not, and the number of warnings *)
Definition xmap_is_compatible (shape : list nat) (dy dx : Q) (axes : list axis) : bool * nat :=
  let '(steps, w) := match all_some (map (fun a => step_size dy dx (axis_name a)) axes) with
    | Some s => (s, 0)
    | None => (last_n (length axes) [dy; dx], 1)
    end in
  let compatible := shape_eqb shape (map size axes) in
  (compatible, if compatible && negb (allclose (1 # 1000000) steps (map scale axes)) then S w else w).

(** _detector_is_compatible_with_signal: detector shape and navigation shape *)
Definition detector_is_compatible (det_shape : nat * nat) (det_nav : list nat) (nav : list nat) (sig : nat * nat) : bool :=
  ((fst sig =? fst det_shape) && (snd sig =? snd det_shape)) && (shape_eqb det_nav [1] || shape_eqb det_nav nav).

(** A master pattern: projection, hemisphere and phase *)
Record master := Master { lambert : bool; both_hemispheres : bool; m_phase : phase }.
Inductive error := ValueError | IndexError | NotImplementedError | AttributeError.
Inductive result (A : Type) := Ok (a : A) | Error (e : error).
Arguments Ok {A}. Arguments Error {A}.
(** _is_suitable_for_projection with raise_if_not=True: the last error found is raised *)
Definition unsuitable (m : master) : option error :=
  let e := if lambert m then None else Some NotImplementedError in
  match group (m_phase m) with
  | None => Some AttributeError
  | Some g => if negb (both_hemispheres m) && negb (contains_inversion g) then Some AttributeError else e
  end.

(** The errors in _get_indexed_points_in_data_in_xmap (_crystal_map.py 115-151): ValueError for another mask shape or not exactly one phase,
    IndexError if the points have the phase -1 only.  A crystal map cut out of another keeps arrays of all points of the latter, while its shape
    is that of the part: then indexing the mask (127) is an IndexError, and arranging in_data in two dimensions (150) is a ValueError.
    The returned values are in Model/RefinementResults.v. *)
Section Check.
Context {Rotation : Type}.
Definition points_error (m : cmap Rotation) (mask : option (list nat * list bool)) : option error :=
  if match mask with Some (s, _) => negb (shape_eqb s (map_shape m)) | None => false end then Some ValueError
  else if match mask with Some (_, k) => negb (length k =? length (in_data m)) | None => false end then Some IndexError
  else
    let ids := distinct (match mask with
      | Some (_, k) => compress (compress (in_data m) (map negb k)) (phase_id m)
      | None => compress (is_indexed m) (phase_id m) end) in
    if negb ((length ids =? 1) || ((length ids =? 2) && existsb (Z.eqb (-1)) ids)) then Some ValueError
    else match filter (fun i => negb (Z.eqb i (-1))) ids with
      | [] => Some IndexError
      | _ => if (length (map_shape m) =? 1) || (fold_right Nat.mul 1 (map_shape m) =? length (in_data m)) then None else Some ValueError
      end.

Record input := Input {
  axes : list axis; sig : nat * nat;                        (* of the signal *)
  det_shape : nat * nat; det_nav : list nat;                (* of the detector *)
  xmap : cmap Rotation; dy : Q; dx : Q; phases : Z -> option phase; (* of the crystal map *)
  mp : master; nav_mask : option (list nat * list bool); sig_mask : option (nat * nat) }.
(** EBSD._check_refinement_parameters *)
Definition check (i : input) : result (list bool) :=
  if negb (detector_is_compatible (det_shape i) (det_nav i) (map size (axes i)) (sig i)) then Error ValueError
  else if match sig_mask i with Some (a, b) => negb ((fst (sig i) =? a) && (snd (sig i) =? b)) | None => false end then Error ValueError
  else if negb (fst (xmap_is_compatible (map_shape (xmap i)) (dy i) (dx i) (axes i))) then Error ValueError
  else match points_error (xmap i) (nav_mask i) with
  | Some e => Error e
  | None =>
    match get_points (xmap i) (option_map snd (nav_mask i)) with
    | None => Error ValueError
    | Some (points, _, id) =>
        match unsuitable (mp i) with
        | Some e => Error e
        | None => match phases i id with
          | None => Error ValueError
          | Some p => match equal_phase (m_phase (mp i)) p with None => Ok points | Some _ => Error ValueError end
          end
        end
    end
  end.
End Check.
Arguments input : clear implicits.
