(** Simulated patterns read from files of EMsoft's EMEBSD program: src/kikuchipy/io/plugins/emsoft_ebsd/_api.py.
    A file is its top group. Left out: metadata other than the title, lazy reading (same data), step of the crystal map.
    Entries of other types than the expected ones give None, as do exceptions. *)
From Coq Require Import Ascii String List Arith ZArith Reals Bool.
From Verif Require Import Model.Binary Model.Hdf5 Model.VendorH5.
From Verif Require Model.Detector Model.FilePaths.
Import ListNotations.
Local Open Scope nat_scope.
Local Open Scope list_scope.

(** A NumPy array of values as stored in the file. *)
Record array := Arr { dims : list nat; content : list scalar }.
Definition value_of (a : array) (idx : list nat) : option scalar := nth_error (content a) (ravel (dims a) idx).
(** a.reshape(s). Simplification: no -1 in s. *)
Definition reshape (a : array) (s : list nat) : option array :=
  if length (content a) =? size_of s then Some (Arr s (content a)) else None.

(** Argument scan_size: an integer or a tuple. *)
Inductive scan_size := One (n : nat) | Tuple (l : list nat).

(** An atom as given to diffpy's Atom, a phase and a map. Lattice parameters are the arguments of Lattice. Rotations of a map are given by
    their Euler angles (radians); with neither x nor y, the map is one line. *)
Record atom := Atom { atype : Z; xyz : R * R * R; occupancy : R; uiso : R }.
Record phase := Phase { phase_name : string; space_group : Z; cell : list R; atoms : list atom }.
Record cmap := CrystalMap { euler : list (R * R * R); map_shape : list nat; map_phase : phase }.
Record scan := Scan { title : string; data : array; axes : list (axis R); xmap : cmap; detector : Detector.detector }.

(** str.split(c)[0] and str.split(c)[-1] *)
Fixpoint split_first (c : ascii) (s : string) : string :=
  match s with EmptyString => EmptyString | String x r => if Ascii.eqb x c then EmptyString else String x (split_first c r) end.
Fixpoint split_last_from (c : ascii) (acc s : string) : string :=
  match s with EmptyString => acc | String x r => if Ascii.eqb x c then split_last_from c EmptyString r else split_last_from c (acc ++ String x EmptyString)%string r end.
Definition split_last (c : ascii) (s : string) : string := split_last_from c EmptyString s.

(** dset[:][0] or dset[()][0] of an array of texts *)
Definition first_text (n : option node) : option string :=
  match n with Some (Dataset (_ :: _) (Text s :: _)) => Some s | _ => None end.
(** _check_file_format, 147-160. *)
Definition check_file_format (file : node) : bool :=
  match first_text (path file ["EMheader"; "EBSD"; "ProgramName"]%string) with
  | Some p => (p =? "EMEBSD.f90")%string
  | None => false
  end.

(** The value d[k], of a given kind. *)
Definition number_at (d : list (string * entry)) (k : string) : option R :=
  match get d k with Some (Value x) => number x | _ => None end.
Definition int_at (d : list (string * entry)) (k : string) : option Z :=
  match get d k with Some (Value (Int z)) => Some z | _ => None end.
Definition integer (x : scalar) : option Z := match x with Int z => Some z | _ => None end.

(** a[r, i] of an array of two dimensions *)
Definition entry2 (rows cols : nat) (l : list R) (r i : nat) : option R :=
  if (r <? rows) && (i <? cols) then nth_error l (r * cols + i) else None.
Fixpoint sequence {A} (l : list (option A)) : option (list A) :=
  match l with [] => Some [] | x :: r => let? a := x in let? r' := sequence r in Some (a :: r') end.
(** _crystaldata2phase, 163-201; the name is set by the caller. *)
Definition crystaldata2phase (d : list (string * entry)) (name : string) : option phase :=
  let? n := size_in d "Natomtypes" in
  match get d "AtomData" with
  | Some (Array [rows; cols] l) =>
      let? l := all number l in
      let? types := match get d "Atomtypes" with
        | Some (Value (Int z)) => if n =? 1 then Some [z] else None
        | Some (Array _ t) => if n =? 1 then None else all integer t
        | _ => None
        end in
      let? atoms := sequence (map (fun i =>
        let? t := nth_error types i in
        let? x := entry2 rows cols l 0 i in let? y := entry2 rows cols l 1 i in let? z := entry2 rows cols l 2 i in
        let? occ := entry2 rows cols l 3 i in let? b := entry2 rows cols l 4 i in
        Some (Atom t (x, y, z) occ (b / (8 * PI ^ 2) * 100)%R)) (seq 0 n)) in
      let? sg := int_at d "SpaceGroupNumber" in
      match get d "LatticeParameters" with
      | Some (Array [6] p) => let? p := all number p in Some (Phase name sg p atoms)
      | _ => None
      end
  | _ => None
  end.

(** Rows of an array of shape (n, 3) *)
Fixpoint triples (l : list R) : list (R * R * R) :=
  match l with a :: b :: c :: r => (a, b, c) :: triples r | _ => [] end.

(** The list of axes, 104-123: IndexError for more dimensions than names. *)
Definition get_axes (s : list nat) (px_size : R) : option (list (axis R)) :=
  let names := ["x"; "dy"; "dx"]%string in
  let scales := [1; px_size; px_size]%R in
  let (names, scales) := if length s =? 4 then ("y"%string :: names, 1%R :: scales) else (names, scales) in
  if length s <=? length names then Some (make_axes s names scales) else None.

(** file_reader, 34-144. [base] is the last part of the file name. *)
Definition file_reader (base : string) (file : node) (size : option scan_size) : option scan :=
  if negb (check_file_format file) then None else
  let header := hdf5group2dict true ["EBSDPatterns"]%string file in
  let? params := match get header "NMLparameters" with Some (Dict p) => Some p | _ => None end in
  let? nml := match get params "EBSDNameList" with Some (Dict p) => Some p | _ => None end in
  let? stored := match path file ["EMData"; "EBSD"; "EBSDPatterns"]%string with Some (Dataset s l) => Some (Arr s l) | _ => None end in
  let? sy := size_in nml "numsy" in
  let? sx := size_in nml "numsx" in
  let? data := match size with
    | None => Some stored
    | Some (One n) => reshape stored [n; sy; sx]
    | Some (Tuple l) => reshape stored (l ++ [sy; sx])
    end in
  let? px_size := number_at nml "delta" in
  let? axes := get_axes (dims data) px_size in
  let? crystal := path file ["CrystalData"]%string in
  let? xtal := first_text (path file ["EMData"; "EBSD"; "xtalname"]%string) in
  let? phase := crystaldata2phase (hdf5group2dict false [] crystal) (fst (FilePaths.splitext (split_last "/" xtal))) in
  let? angles := match path file ["EMData"; "EBSD"; "EulerAngles"]%string with
    | Some (Dataset [_; 3] l) => let? l := all number l in Some (triples l)
    | _ => None
    end in
  let? binning := number_at nml "binning" in
  let? tilt := number_at nml "thetac" in
  let? xpc := number_at nml "xpc" in let? ypc := number_at nml "ypc" in let? L := number_at nml "L" in
  let? det := Detector.new_detector (Z.of_nat sy) (Z.of_nat sx) px_size binning tilt 0 0 70
                (Detector.PCArray [1] [Detector.PC xpc ypc L]) "emsoft" in
  Some (Scan (split_first "." base) data axes (CrystalMap angles [length angles] phase) det).
