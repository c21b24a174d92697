(** Patterns read from a directory of images: src/kikuchipy/io/plugins/ebsd_directory/_api.py. A file is anything from
    which coordinates (x, y) may be extracted by a regular expression, and an image read; images have the same shape and
    data type (documented). Axes and metadata are left out. *)
From Coq Require Import List Arith ZArith Bool.
From Verif Require Import Model.Binary Model.Sorting.
Import ListNotations.
Local Open Scope nat_scope.

Section Directory.
Variables (F Image : Type) (imread : F -> Image).
(** re.search(p, fn).groups(), with two groups of digits; None if there is no match. *)
Definition regex := F -> option (Z * Z).
Definition matches (p : regex) (fn : F) : bool := match p fn with Some _ => true | None => false end.

Record scan := Scan { nav_shape : list nat; images : list Image }.

Fixpoint all_some {A} (l : list (option A)) : option (list A) :=
  match l with [] => Some [] | x :: r => let? a := x in let? r' := all_some r in Some (a :: r') end.
Fixpoint set_nth {A} (l : list A) (i : nat) (a : A) : list A :=
  match l, i with [] , _ => [] | _ :: r, O => a :: r | x :: r, S i' => x :: set_nth r i' a end.

(** Assignments data[...index(y), ...index(x)] = pat, 146-150. *)
Definition fill (xs ys : list Z) (entries : list ((Z * Z) * Image)) : option (list (option Image)) :=
  fold_left (fun acc (e : (Z * Z) * Image) => let? data := acc in
      let? j := index_of (snd (fst e)) ys in let? i := index_of (fst (fst e)) xs in
      Some (set_nth data (j * length xs + i) (Some (snd e))))
    entries (Some (repeat None (length ys * length xs))).

(** file_reader, 38-185. [defaults] are the two regular expressions tried on the first file if none is given. The
    order of [filenames] is that of glob.glob, which is arbitrary. *)
Definition file_reader (defaults : list regex) (xy_pattern : option regex) (filenames : list F) : option scan :=
  let n := length filenames in
  let? f0 := hd_error filenames in
  let pattern := match xy_pattern with Some p => Some p | None => find (fun p => matches p f0) defaults end in
  match pattern with
  | None => Some (Scan [n] (map imread filenames))
  | Some p =>
    let? coords := all_some (map p filenames) in
    let xs := unique (map fst coords) in let ys := unique (map snd coords) in
    if negb (n =? length ys * length xs) then Some (Scan [n] (map imread filenames)) else
    let? data := fill xs ys (combine coords (map imread filenames)) in
    let? data := all_some data in                     (* da.block of an array with a missing entry fails *)
    Some (Scan [length ys; length xs] data)
  end.
End Directory.
