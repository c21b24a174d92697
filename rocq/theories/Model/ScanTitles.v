(** File names and titles of scans in h5ebsd files: io/plugins/_h5ebsd.py get_metadata_filename_title
    (lines 447-467), used by the readers of all h5ebsd files (bruker_h5ebsd 128, edax_h5ebsd 93,
    kikuchipy_h5ebsd 93, oxford_h5ebsd 107).

    Strings are lists of characters. Simplification: paths with "/" as on POSIX systems. *)
From Coq Require Import List Arith Ascii.
Import ListNotations.
Local Open Scope char_scope.

Notation text := (list ascii).

(** s.split(c)[0] *)
Fixpoint before (c : ascii) (s : text) : text :=
  match s with [] => [] | x :: r => if Ascii.eqb x c then [] else x :: before c r end.
(** os.path.basename(s): what follows the last "/". *)
Fixpoint basename (s : text) : text :=
  match s with
  | [] => []
  | x :: r => if existsb (Ascii.eqb "/") s then basename r else s
  end.

(** get_metadata_filename_title (463-467): the name kept as original_filename, and the title. *)
Definition filename_title (filename group_name : text) : text * text :=
  let fname := before "." (basename filename) in
  let title := fname ++ " " :: before "/" (tl group_name) in
  let title := if (20 <? length title)%nat then firstn 20 title ++ ["."; "."; "."] else title in
  (fname, title).
