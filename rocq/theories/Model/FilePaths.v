(** Which file a signal is from and which file it is saved to: load and _save in src/kikuchipy/io/_io.py, and EBSD.save in
    src/kikuchipy/signals/ebsd.py, with the functions on paths from Python's standard library. Paths are POSIX paths given
    by their parts, so repeated slashes are not represented. *)
From Coq Require Import Ascii String List Arith Bool Permutation.
From Verif Require Import Model.Binary Model.Hdf5.
From Verif Require Model.Detector.
Import ListNotations.
Local Open Scope list_scope.
Local Open Scope string_scope.

(** A path: directories, and the name of a file. *)
Record path := Path { absolute : bool; directories : list string; file_name : string }.

(** Part before and after the last dot. *)
Fixpoint last_dot (s : string) : option (string * string) :=
  match s with
  | EmptyString => None
  | String c r =>
    match last_dot r with
    | Some (a, b) => Some (String c a, b)
    | None => if Ascii.eqb c "." then Some (EmptyString, r) else None
    end
  end.
Fixpoint only_dots (s : string) : bool :=
  match s with EmptyString => true | String c r => Ascii.eqb c "." && only_dots r end.
(** os.path.splitext on the name of a file: leading dots do not start an extension. *)
Definition splitext (s : string) : string * string :=
  match last_dot s with
  | Some (a, b) => if only_dots a then (s, "") else (a, "." ++ b)
  | None => (s, "")
  end.
(** str.replace(".", "") *)
Fixpoint remove_dots (s : string) : string :=
  match s with EmptyString => EmptyString | String c r => if Ascii.eqb c "." then remove_dots r else String c (remove_dots r) end.
(** s[1:] *)
Definition drop1 (s : string) : string := match s with EmptyString => EmptyString | String _ r => r end.

(** os.path.normpath for directories of an absolute path; [up] are the ones so far, the innermost first. *)
Fixpoint normalise (up : list string) (l : list string) : list string :=
  match l with
  | [] => rev up
  | d :: r => if (d =? ".")%string then normalise up r else if (d =? "..")%string then normalise (tl up) r else normalise (d :: up) r
  end.
(** os.path.split(os.path.abspath(p)): [cwd] is the current directory. The file is not called "." or "..". *)
Definition abspath (cwd : list string) (p : path) : list string * string :=
  (normalise [] (if absolute p then directories p else cwd ++ directories p), file_name p).

(** tmp_parameters of a signal *)
Record remembered := Remembered { folder : list string; stem : string; extension : string }.

(** load, _io.py 130-138: for each signal in the file. The variable filename is reused. *)
Fixpoint load_loop (cwd : list string) (n : nat) (p : path) : list remembered :=
  match n with
  | O => []
  | S n' =>
    let '(d, f) := abspath cwd p in
    let '(f, e) := splitext f in
    Remembered d f (remove_dots e) :: load_loop cwd n' (Path false [] f)
  end.

(** Plugins which write (specification.yaml of each): name and extensions. Both write signals of two dimensions with 0 to 2 navigation dimensions. *)
Definition writers : list (string * list string) := [("kikuchipy_h5ebsd", ["h5"; "hdf5"; "h5ebsd"]); ("nordif", ["dat"])].
Definition can_write (signal_dimension navigation_dimension : nat) : bool := (signal_dimension =? 2)%nat && (navigation_dimension <=? 2)%nat.

Inductive outcome :=
| Raises
| By_hyperspy (** by HyperSpy's own save *)
| Written (by_writer : string) (directory : list string) (name : string).

(** _save, _io.py 392-463: where the signal is written when it is written, [ws] being the writers as registered; and 457-463, what it remembers. Whether an existing file
    is replaced is in Model/SaveFile.v. *)
Definition save_to (ws : list (string * list string)) (cwd : list string) (p : path) (sig nav : nat) : outcome :=
  let ext := drop1 (snd (splitext (file_name p))) in
  let '(ext, p) := if (ext =? "")%string then ("h5", Path (absolute p) (directories p) (file_name p ++ "." ++ "h5")) else (ext, p) in
  match find (fun w : string * list string => mem (Detector.lower ext) (snd w)) ws with
  | None => Raises
  | Some w => if can_write sig nav then Written (fst w) (fst (abspath cwd p)) (snd (abspath cwd p)) else Raises
  end.
Definition remember_saved (cwd : list string) (p : path) : remembered :=
  let ext := drop1 (snd (splitext (file_name p))) in
  let '(ext, p) := if (ext =? "")%string then ("h5", Path (absolute p) (directories p) (file_name p ++ "." ++ "h5")) else (ext, p) in
  let '(d, f) := abspath cwd p in
  Remembered d (fst (splitext f)) ext.

(** pathlib's Path.suffix[1:] *)
Definition suffix1 (s : string) : string :=
  match last_dot s with Some (a, b) => if (a =? "")%string then "" else b | None => "" end.
(** EBSD.save, ebsd.py 2645-2663: [r] are the tmp_parameters, [original] is General.original_filename in the metadata. *)
Definition save (ws : list (string * list string)) (cwd : list string) (r : option remembered) (original : option path)
    (filename : option path) (ext : option string) (sig nav : nat) : outcome :=
  let target :=
    match filename, r, original with
    | Some p, _, _ => Some (p, ext)
    | None, Some r, _ =>
      Some (Path true (folder r) (stem r), match ext with None => Some (extension r) | Some e => if (e =? "")%string then Some (extension r) else Some e end)
    | None, None, Some p => Some (p, ext)
    | None, None, None => None
    end in
  match target with
  | None => Raises
  | Some (p, ext) =>
    let e := match ext with Some e => e | None => suffix1 (file_name p) end in
    if mem (Detector.lower e) ["hspy"; "zspy"] then By_hyperspy else save_to ws cwd p sig nav
  end.
