(** Labels (folder, file name, extension) of loaded signals, and where save() without a name writes: load,
    src/kikuchipy/io/_io.py 130-138, EBSD.save, src/kikuchipy/signals/ebsd.py 2644-2663, and _save, _io.py 392-409. *)
From Coq Require Import String List Arith Bool.
Import ListNotations.
Local Open Scope string_scope.
Local Open Scope list_scope.

(** A path is a directory, if it is given with one, and a base name, split at its dots: "a.b.h5" is ["a"; "b"; "h5"].
    Directories are any type; [abs None] is the current directory (os.path.abspath). *)
Section Labels.
Variables (Dir : Type) (cwd : Dir).
Record path := Path { dir : option Dir; base : list string }.
Definition abs_dir (p : path) : Dir := match dir p with Some d => d | None => cwd end.
(** os.path.splitext of a base name: the last dot not part of leading dots. *)
Definition splitext (b : list string) : list string * string :=
  if forallb (String.eqb "") (removelast b) then (b, "") else (removelast b, last b "").
Record label := Label { folder : Dir; filename : list string; extension : string }.
(** The loop over the signals: [filename] is assigned again in each turn. *)
Fixpoint labels (n : nat) (p : path) : list label :=
  match n with
  | O => []
  | S n' => let '(stem, ext) := splitext (base p) in Label (abs_dir p) stem ext :: labels n' (Path None stem)
  end.

(** EBSD.save() without arguments: the path is folder/filename, the extension only decides whether HyperSpy's writer is
    used. _save then takes the extension of that path, ".h5" if there is none; only h5, hdf5, h5ebsd and dat can be written. *)
Inductive target := File (d : Dir) (b : list string) | HyperSpy | Unsupported.
Definition default_target (l : label) : target :=
  if existsb (String.eqb (extension l)) ["hspy"; "zspy"] then HyperSpy
  else let ext := snd (splitext (filename l)) in
       if String.eqb ext "" then File (folder l) (filename l ++ ["h5"])
       else if existsb (String.eqb ext) ["h5"; "hdf5"; "h5ebsd"; "dat"] then File (folder l) (filename l) else Unsupported.
End Labels.
Arguments Path {Dir}. Arguments dir {Dir}. Arguments base {Dir}. Arguments Label {Dir}. Arguments folder {Dir}. Arguments filename {Dir}. Arguments extension {Dir}.
Arguments labels {Dir}. Arguments File {Dir}. Arguments HyperSpy {Dir}. Arguments Unsupported {Dir}. Arguments default_target {Dir}.
