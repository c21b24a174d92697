(** What a file of simulated patterns from EMsoft contains, in terms of the names in it. It may contain anything else besides. *)
From Coq Require Import String List Arith ZArith Reals.
From Verif Require Import Model.Hdf5 Spec.VendorFiles.
Import ListNotations.
Local Open Scope nat_scope.
Local Open Scope list_scope.

(** The group at the end of a path of groups, none of which has another child with the next name. *)
Fixpoint group_along (g : node) (p : list string) (h : node) : Prop :=
  match p with [] => g = h | k :: r => exists m, group_at g k m /\ group_along m r h end.

(** A number, stored as an integer or not. *)
Definition number_at (g : node) (name : string) (x : R) : Prop :=
  value_at g name (Float x) \/ exists z, value_at g name (Int z) /\ x = IZR z.

(** An atom of the simulated crystal: number of its element, position as fractions of the lattice vectors, site occupancy and
    Debye-Waller factor in square nanometres. *)
Record site := Site { number : Z; fx : R; fy : R; fz : R; occ : R; debye_waller : R }.
(** A crystal: number of the space group, lengths of the lattice vectors in nanometres, angles between them in degrees, and atoms. *)
Record crystal := Crystal { symmetry : Z; la : R; lb : R; lc : R; lalpha : R; lbeta : R; lgamma : R; sites : list site }.
(** How it is stored in a group. *)
Record stored_crystal (g : node) (c : crystal) : Prop := StoredCrystal {
  x_count : value_at g "Natomtypes" (Int (Z.of_nat (length (sites c))));
  x_symmetry : value_at g "SpaceGroupNumber" (Int (symmetry c));
  x_cell : numbers_at g "LatticeParameters" [la c; lb c; lc c; lalpha c; lbeta c; lgamma c];
  x_elements : match sites c with
    | [s] => value_at g "Atomtypes" (Int (number s))
    | l => exists ch, g = Group ch /\ In ("Atomtypes"%string, Dataset [length l] (map (fun s => Int (number s)) l)) ch /\
        forall k m, In (k, m) ch -> k = "Atomtypes"%string \/ lstrip k = "Atomtypes"%string -> (k, m) = ("Atomtypes"%string, Dataset [length l] (map (fun s => Int (number s)) l))
    end;
  x_atoms : let rows := map Float (map fx (sites c) ++ map fy (sites c) ++ map fz (sites c) ++ map occ (sites c) ++ map debye_waller (sites c)) in
    exists ch, g = Group ch /\ In ("AtomData"%string, Dataset [5; length (sites c)] rows) ch /\
      forall k m, In (k, m) ch -> k = "AtomData"%string \/ lstrip k = "AtomData"%string -> (k, m) = ("AtomData"%string, Dataset [5; length (sites c)] rows) }.

(** A simulation: n patterns with sy rows and sx columns of pixels, one orientation for each, and the geometry: pixel size (microns),
    binning, tilt (degrees), and the projection centre in EMsoft's convention. *)
Record simulation := Simulation {
  sy : nat; sx : nat; patterns : nat -> nat -> nat -> scalar; orientations : list (R * R * R);
  pixel_size : R; camera_binning : R; camera_tilt : R; pc_x : R; pc_y : R; pc_L : R; material : crystal; crystal_file : string }.
Definition count (s : simulation) : nat := length (orientations s).
(** All values of the patterns, pattern by pattern, row by row. *)
Definition all_values (s : simulation) : list scalar :=
  flat_map (fun k => flat_map (fun r => map (fun c => patterns s k r c) (seq 0 (sx s))) (seq 0 (sy s))) (seq 0 (count s)).

Record emsoft_file (file : node) (program : string) (s : simulation) : Prop := EMsoftFile {
  f_program : path file ["EMheader"; "EBSD"; "ProgramName"]%string = Some (Dataset [1] [Text program]);
  f_parameters : exists g, group_along file ["NMLparameters"; "EBSDNameList"]%string g /\
    value_at g "numsy" (Int (Z.of_nat (sy s))) /\ value_at g "numsx" (Int (Z.of_nat (sx s))) /\ number_at g "delta" (pixel_size s) /\
    number_at g "binning" (camera_binning s) /\ number_at g "thetac" (camera_tilt s) /\
    number_at g "xpc" (pc_x s) /\ number_at g "ypc" (pc_y s) /\ number_at g "L" (pc_L s);
  f_patterns : path file ["EMData"; "EBSD"; "EBSDPatterns"]%string = Some (Dataset [count s; sy s; sx s] (all_values s));
  f_orientations : path file ["EMData"; "EBSD"; "EulerAngles"]%string
    = Some (Dataset [count s; 3] (flat_map (fun e => let '(a, b, c) := e in [Float a; Float b; Float c]) (orientations s)));
  f_crystal_file : path file ["EMData"; "EBSD"; "xtalname"]%string = Some (Dataset [1] [Text (crystal_file s)]);
  f_crystal : exists g, path file ["CrystalData"]%string = Some g /\ stored_crystal g (material s) }.
