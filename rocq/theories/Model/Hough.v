(** Hough indexing of a signal: signals/ebsd.py lines 1600-1826 (here "ebsd"), indexing/_hough_indexing.py
    lines 121-526 ("hough") and EBSDDetector.get_indexer (detectors/_ebsd_detector.py 1598-1658, "det").

    Simplifications: what PyEBSDIndex does with patterns (index_pats, optimize, optimize_pso) and diffsims with
    sets of reflectors (unique under symmetry) are arguments.  Lattice parameters are rational numbers.  Messages,
    warnings, lazy signals and the names of missing dependencies are left out. *)
From Coq Require Import String.
From Coq Require Import List Arith ZArith QArith Qabs Bool Reals.
From Verif Require Import Model.Binary Model.HoughData.
From Verif Require Model.Detector.
Import ListNotations.
Local Open Scope nat_scope.

(** An orix phase; None: no space group.  A phase list has IDs in increasing order. *)
Record phase := Phase { name : string; space_group : option Z; lattice : list Q }.
Definition phase_list := list (Z * phase).
Definition ids (l : phase_list) : list Z := map fst l.

Section Reflectors.
(** Arrays of indices, ReciprocalLatticeVector objects, and the pole families made from them: the families of
    ReciprocalLatticeVector(phase, hkl=...).unique(...) and those of a ReciprocalLatticeVector. *)
Variables (Arr Vectors Families : Type).
Inductive reflectors := NoReflectors | FromArray (a : Arr) | FromVectors (v : Vectors) | FromList (l : list reflectors) | Index (i : Z).
Variables (families_of_hkl : phase -> reflectors -> Families) (families_of_vectors : Vectors -> Families).

(** pyebsdindex.tripletvote.BandIndexer, as made by addphase; None: default families *)
Record band_indexer := Band { b_name : string; b_spacegroup : Z; b_lattice : list Q; b_families : option Families }.

(** The list of reflectors (hough 294-305).  An argument which is not a list of the right length is taken as
    the reflectors of a single phase. *)
Definition listed (n : nat) (r : reflectors) : option (list reflectors) :=
  let wrapped := match r with
    | NoReflectors => repeat NoReflectors n
    | FromArray _ | FromVectors _ => [r]
    | FromList l => if negb (length l =? n) then [r] else l
    | Index _ => [r]
    end in
  if negb (length wrapped =? n) then None else Some wrapped.
(** One phase (hough 309-334).  None: ValueError. *)
Definition band_of (p : phase) (r : reflectors) : option band_indexer :=
  match space_group p with
  | None => None
  | Some sg =>
      let ref := match r with
        | FromVectors v => Some (families_of_vectors v)
        | FromArray _ | FromList _ => Some (families_of_hkl p r)
        | NoReflectors | Index _ => None
        end in
      Some (Band (name p) sg (lattice p) ref)
  end.
Fixpoint bands_of (l : phase_list) (r : list reflectors) : option (list band_indexer) :=
  match l, r with
  | (_, p) :: l, ref :: r => let? b := band_of p ref in let? bs := bands_of l r in Some (b :: bs)
  | _, _ => Some []
  end.
(** _get_pyebsdindex_phaselist (hough 254-336) *)
Definition get_phaselist (l : phase_list) (r : reflectors) : option (list band_indexer) :=
  let? r := listed (length l) r in bands_of l r.

(** The attributes of an EBSDIndexer.  [i_pc_shape] is the shape of the array PC, [i_pc] its rows. *)
Record indexer := Indexer {
  i_phases : list band_indexer; i_vendor : string; i_pc_shape : list nat; i_pc : list Detector.pc3;
  i_sample_tilt : R; i_tilt : R; i_shape : nat * nat }.

(** get_indexer (det 1650-1658, hough 121-184).  pc_flattened.squeeze(): an array of shape (3,) for one PC. *)
Definition get_indexer (d : Detector.detector) (l : phase_list) (r : reflectors) : option indexer :=
  let? bands := get_phaselist l r in
  let pcs := Detector.pcs (Detector.d_pc d) in
  let n := length pcs in
  Some (Indexer bands "KIKUCHIPY" (if n =? 1 then [3] else [n; 3]) pcs
    (Detector.d_sample_tilt d) (Detector.d_tilt d) (Z.to_nat (Detector.d_ny d), Z.to_nat (Detector.d_nx d))).

Definition shape_eqb (a b : list nat) : bool := if list_eq_dec Nat.eq_dec a b then true else false.
(** _indexer_is_compatible_with_kikuchipy (hough 339-406) *)
Definition indexer_is_compatible (i : indexer) (sig : nat * nat) (nav_size : option nat) (check_pc : bool) : bool :=
  let compatible := String.eqb (Detector.lower (i_vendor i)) "kikuchipy" in
  let compatible := compatible && (fst sig =? fst (i_shape i)) && (snd sig =? snd (i_shape i)) in
  if check_pc then
    let allowed := [3] :: match nav_size with Some n => [[n; 3]] | None => [] end in
    compatible && negb ((2 <? length (i_pc_shape i)) || negb (existsb (shape_eqb (i_pc_shape i)) allowed))
  else compatible.

(** np.allclose(a, b, atol=1e-12), with the default rtol=1e-5, of arrays of equal length *)
Definition isclose (a b : Q) : bool := Qle_bool (Qabs (a - b)) ((1 # 1000000000000) + (1 # 100000) * Qabs b).
Definition allclose (a b : list Q) : bool := forallb (fun ab => isclose (fst ab) (snd ab)) (combine a b).
(** _phase_lists_are_compatible (hough 409-490).  None: a phase has no space group (AttributeError). *)
Fixpoint phases_match (l : phase_list) (bands : list band_indexer) : option bool :=
  match l, bands with
  | (_, p) :: l, b :: bands =>
      let? sg := space_group p in
      if negb (allclose (lattice p) (b_lattice b)) then Some false
      else if negb (sg =? b_spacegroup b)%Z then Some false
      else phases_match l bands
  | _, _ => Some true
  end.
Definition phase_lists_are_compatible (l : phase_list) (i : indexer) : option bool :=
  if negb (length l =? length (i_phases i)) then Some false else phases_match l (i_phases i).

Section Index.
(** A signal: navigation shape (rows, columns) or (columns,) and step sizes in the same order, signal shape,
    patterns in C order. *)
Variables (Pat Quat Other : Type) (identity : Quat).
Record signal := Signal { nav : list nat; steps : list Q; sig_shape : nat * nat; patterns : list Pat }.
(** EBSDIndexer.index_pats *)
Variable index_pats : indexer -> nat -> list Pat -> results Quat Other.

(** orix create_coordinate_arrays for one and two dimensions: (y, x) of each point *)
Definition coordinates (shape : list nat) (steps : list Q) : list (Q * Q) :=
  match shape, steps with
  | [nx], [dx] => map (fun c => (0%Q, inject_Z (Z.of_nat c) * dx)%Q) (seq 0 nx)
  | [ny; nx], [dy; dx] => flat_map (fun r => map (fun c => (inject_Z (Z.of_nat r) * dy, inject_Z (Z.of_nat c) * dx)%Q) (seq 0 nx)) (seq 0 ny)
  | _, _ => []
  end.
Record crystal_map := Map { m_points : xmap Quat Other; m_phases : phase_list; m_coordinates : list (Q * Q) }.

(** EBSD.hough_indexing (ebsd 1675-1719, hough 187-251): the map and the returned index data.  None: an error. *)
Definition hough_indexing (s : signal) (l : phase_list) (i : indexer) (chunksize : nat)
    : option (crystal_map * results Quat Other) :=
  let nav_size := fold_right Nat.mul 1 (nav s) in
  if negb (indexer_is_compatible i (sig_shape s) (Some nav_size) true) then None
  else
    let? compatible := phase_lists_are_compatible l i in
    if negb compatible then None
    else
      let chunksize := Nat.min chunksize (Nat.max nav_size 1) in
      let? xd := xmap_from_data identity (index_pats i chunksize (patterns s)) (ids l) (-1) (length (nav s)) in
      Some (Map (fst xd) l (coordinates (nav s) (steps s)), snd xd).

(** EBSD.hough_indexing_optimize_pc (ebsd 1777-1826): the optimised PCs, one per pattern if [batch].
    None: an error. *)
Variable optimize : indexer -> Detector.pc3 -> bool -> bool -> list Pat -> list Detector.pc3.
Definition optimize_pc (s : signal) (pc0 : list R) (i : indexer) (batch : bool) (method : string) : option Detector.detector :=
  match pc0 with
  | [x; y; z] =>
      let method := Detector.lower method in
      if negb (String.eqb method "nelder-mead" || String.eqb method "pso") then None
      else if negb (indexer_is_compatible i (sig_shape s) (Some (fold_right Nat.mul 1 (nav s))) false) then None
      else
        let pc := optimize i (Detector.PC x y z) batch (String.eqb method "pso") (patterns s) in
        Some (Detector.Det (Z.of_nat (fst (sig_shape s))) (Z.of_nat (snd (sig_shape s))) 1%R 1%R
          (i_tilt i) 0%R 0%R (i_sample_tilt i) (Detector.PCArray (if batch then nav s else [1]) pc))
  | _ => None
  end.
End Index.
End Reflectors.
