(** HDF5 files as trees, how they are turned into dictionaries and searched for scans, and how the reader of a
    file is found: src/kikuchipy/io/plugins/_h5ebsd.py (called "h5") and src/kikuchipy/io/_io.py ("io").
    A file is its top group. Attributes, links and the types of numbers are left out. *)
From Coq Require Import Ascii String List Arith ZArith Reals Bool.
From Verif Require Import Model.Binary.
From Verif Require Model.Detector.
Import ListNotations.
Local Open Scope list_scope.

Inductive scalar := Int (z : Z) | Float (x : R) | Text (s : string).
(** A dataset has a shape, empty for a single value, and its entries in C order. *)
Inductive node := Dataset (shape : list nat) (entries : list scalar) | Group (children : list (string * node)).

(** group[name], and group["a/b"] as the list of its parts; None is the KeyError. *)
Fixpoint assoc {A} (l : list (string * A)) (k : string) : option A :=
  match l with [] => None | (k', a) :: r => if (k' =? k)%string then Some a else assoc r k end.
Definition child (n : node) (k : string) : option node := match n with Group c => assoc c k | Dataset _ _ => None end.
Fixpoint path (n : node) (p : list string) : option node :=
  match p with [] => Some n | k :: r => let? m := child n k in path m r end.

(** str.lstrip. *)
Definition is_space (c : ascii) : bool := match nat_of_ascii c with 32 | 9 | 10 | 11 | 12 | 13 => true | _ => false end.
Fixpoint lstrip (s : string) : string := match s with String c r => if is_space c then lstrip r else s | EmptyString => s end.
Definition mem (k : string) (l : list string) : bool := existsb (String.eqb k) l.

(** Values of dictionaries. A Python dictionary is the list of its assignments; the last one for a key counts. *)
Inductive entry := Value (x : scalar) | Array (shape : list nat) (entries : list scalar) | Dict (d : list (string * entry)) | H5 (n : node).
Definition get (d : list (string * entry)) (k : string) : option entry := assoc (rev d) k.

(** _hdf5group2dict, h5 36-87. *)
Definition entry_of_dataset (names : list string) (key : string) (shape : list nat) (entries : list scalar) : list (string * entry) :=
  if mem key names then [] else
  match shape with
  | [] => match entries with x :: _ => [(key, Value x)] | [] => [] end
  | 1 :: rest =>
      let key := lstrip key in
      if mem key names then [] else
      [(key, match rest with [] => match entries with x :: _ => Value x | [] => Array [] [] end | _ => Array rest entries end)]
  | _ => [(key, Array shape entries)]
  end.
Fixpoint hdf5group2dict (recursive : bool) (names : list string) (n : node) {struct n} : list (string * entry) :=
  match n with
  | Dataset _ _ => []
  | Group children =>
      flat_map (fun kn : string * node =>
        let (key, m) := kn in
        match m with
        | Dataset shape entries => entry_of_dataset names key shape entries
        | Group _ =>
            if recursive then [(key, Dict (hdf5group2dict recursive names m))]
            else if mem key names then [] else [(key, H5 m)]
        end) children
  end.

(** ** Scans of a file *)

Definition is_group (n : node) : bool := match n with Group _ => true | Dataset _ _ => false end.
(** get_scan_groups, h5 241-255. *)
Definition scan_groups (file : list (string * node)) : list (string * node) := filter (fun kn => is_group (snd kn)) file.
(** get_desired_scan_groups, h5 257-301. None: IOError if the only requested scan is missing (or IndexError without
    groups). *)
Definition desired_scan_groups (file : list (string * node)) (names : option (list string)) : option (list node) :=
  match names with
  | None => match scan_groups file with (_, s) :: _ => Some [s] | [] => None end
  | Some names =>
      let found := flat_map (fun k => match assoc (scan_groups file) k with Some s => [s] | None => [] end) names in
      match names with
      | [k] => match assoc (scan_groups file) k with Some s => Some [s] | None => None end
      | _ => Some found
      end
  end.
(** get_manufacturer_version, h5 212-239, and check_file, h5 177-210: manufacturer and version; None is the IOError. *)
Definition text (e : entry) : option string := match e with Value (Text s) => Some s | _ => None end.
Definition manufacturer_version (file : list (string * node)) : option (string * string) :=
  let d := hdf5group2dict false [] (Group file) in
  let last_with (ok : string -> bool) := find (fun ke : string * entry => ok (Detector.lower (fst ke))) (rev d) in
  let? m := last_with (fun k => (k =? "manufacturer")%string) in
  let? v := last_with (fun k => mem k ["version"; "format version"]%string) in
  let? m := text (snd m) in let? v := text (snd v) in
  Some (Detector.lower m, Detector.lower v).
Definition is_scan (n : node) : bool :=
  match path n ["EBSD"; "Data"]%string, path n ["EBSD"; "Header"]%string with Some _, Some _ => true | _, _ => false end.
Definition check_file (file : list (string * node)) : option (string * string) :=
  let? mv := manufacturer_version file in
  if existsb (fun kn => is_scan (snd kn)) (scan_groups file)
     && mem (fst mv) ["bruker nano"; "edax"; "kikuchipy"; "oxford instruments"]%string
  then Some mv else None.

(** ** Reader of a file, _plugin_from_footprints (io 198-276) *)

Record plugin := Plugin { p_name : string; extensions : list string; p_manufacturer : string; footprints : list (list string) }.
(** _hdf5group2dict (io 223-233) and _exists (io 235-238) on the tree: a key is found if a child has it in lower case
    and without leading space; the last of several counts. TypeError (None) if a dataset is to be searched. *)
Definition key_lower (k : string) : string := Detector.lower (lstrip k).
Definition low_child (children : list (string * node)) (k : string) : option node :=
  assoc (map (fun kn => (key_lower (fst kn), snd kn)) (rev children)) k.
Fixpoint exists_chain (n : node) (chain : list string) : option bool :=
  match chain with
  | [] => Some true
  | k :: rest =>
      match n with
      | Group c => match low_child c k with Some m => exists_chain m rest | None => Some false end
      | Dataset _ _ => None
      end
  end.
Fixpoint all_some (l : list (option bool)) : option bool :=
  match l with [] => Some true | o :: r => let? b := o in let? c := all_some r in Some (b && c) end.
Definition matching_footprints (file : list (string * node)) (p : plugin) : option bool :=
  let? b := all_some (map (fun f => exists_chain (Group file) (map Detector.lower f)) (footprints p)) in
  Some (b && negb (match footprints p with [] => true | _ => false end)).
Fixpoint filter_opt {A} (f : A -> option bool) (l : list A) : option (list A) :=
  match l with [] => Some [] | a :: r => let? b := f a in let? r' := filter_opt f r in Some (if b then a :: r' else r') end.
(** The text of the manufacturer dataset (io 245-257): a single text or an array with one. *)
Definition manufacturer_text (n : node) : option string :=
  match n with Dataset [] [Text s] => Some s | Dataset [1] [Text s] => Some s | _ => None end.
(** Some None: no reader found; None: an error is raised. *)
Definition plugin_from_footprints (file : list (string * node)) (plugins : list plugin) : option (option plugin) :=
  let? by_manufacturer :=
    match low_child file "manufacturer" with
    | Some n => let? m := manufacturer_text n in Some (filter (fun p => (Detector.lower m =? p_manufacturer p)%string) plugins)
    | None => Some []
    end in
  match by_manufacturer with
  | [p] => Some (Some p)
  | _ =>
      let? l := filter_opt (matching_footprints file) plugins in
      match l with [p] => Some (Some p) | _ => Some None end
  end.
(** load, io 98-125: the reader for a file name's extension; None is any error. *)
Definition find_reader (plugins : list plugin) (extension : string) (file : option (list (string * node))) : option plugin :=
  match filter (fun p => mem (Detector.lower extension) (extensions p)) plugins with
  | [] => None
  | [p] => Some p
  | readers => match file with Some f => let? r := plugin_from_footprints f readers in r | None => None end
  end.
(** The readers of HDF5 files, specification.yaml in the directories of io/plugins. *)
Definition h5_plugins : list plugin :=
  [ Plugin "bruker_h5ebsd" ["h5"; "hdf5"; "h5ebsd"] "bruker nano" [["manufacturer"]; ["version"]];
    Plugin "edax_h5ebsd" ["h5"; "hdf5"; "h5ebsd"] "edax" [["manufacturer"]; ["version"]];
    Plugin "emsoft_ebsd" ["h5"; "hdf5"] "emsoft" [["emdata"; "ebsd"; "ebsdpatterns"]];
    Plugin "emsoft_ebsd_master_pattern" ["h5"; "hdf5"] "emsoft" [["emdata"; "ebsdmaster"]];
    Plugin "emsoft_ecp_master_pattern" ["h5"; "hdf5"] "emsoft" [["emdata"; "ecpmaster"]];
    Plugin "emsoft_tkd_master_pattern" ["h5"; "hdf5"] "emsoft" [["emdata"; "tkdmaster"]];
    Plugin "kikuchipy_h5ebsd" ["h5"; "hdf5"; "h5ebsd"] "kikuchipy" [["manufacturer"]; ["version"]] ]%string.
(** The other readers. *)
Definition other_plugins : list plugin :=
  [ Plugin "ebsd_directory" ["tif"; "tiff"; "bmp"; "png"] "None" []; Plugin "edax_binary" ["up1"; "up2"] "edax" [];
    Plugin "nordif" ["dat"] "nordif" []; Plugin "nordif_calibration_patterns" ["txt"] "nordif" [];
    Plugin "oxford_binary" ["ebsp"] "oxford" []; Plugin "oxford_h5ebsd" ["h5oina"] "oxford" [] ]%string.
