(** Saving signals to existing files: _save in src/kikuchipy/io/_io.py, the questions asked in src/kikuchipy/io/_util.py,
    and the writer in src/kikuchipy/io/plugins/kikuchipy_h5ebsd/_api.py. *)
From Coq Require Import String List Arith ZArith Bool Decimal DecimalString DecimalZ.
From Verif Require Import Model.Binary.
Import ListNotations.
Local Open Scope Z_scope.

(** An HDF5 file written by kikuchipy (or not) with numbered scans, each with the items (datasets) written so far, or
    any other file. Groups named otherwise than "Scan <number>" are left out. *)
(** Groups are listed by h5py in the order of their names "Scan <number>". *)
Definition scan_name (n : Z) : string := NilZero.string_of_int (Z.to_int n).
Definition listed_before (n m : Z) : bool := String.leb (scan_name n) (scan_name m).

Section Save.
(** [has_header items]: a scan with these items has the groups EBSD/Data and EBSD/Header. *)
Variables (Item Bytes : Type) (has_header : list Item -> bool).
Inductive content := H5 (by_kikuchipy : bool) (scans : list (Z * list Item)) | Other (b : Bytes).

(** What the user types when asked, one after another; OSError (no terminal) when there is nothing left. Questions to
    answer by y or n, and questions for a number (None: not an integer). *)
Record answers := Answers { yes_no : list string; numbers : list (option Z) }.

(** _get_input_bool, _util.py 25-47: only the first answer may be upper case. *)
Fixpoint ask_again (l : list string) : bool * list string :=
  match l with
  | [] => (false, [])
  | a :: r => if String.eqb a "y" then (true, r) else if String.eqb a "n" then (false, r) else ask_again r
  end.
Definition ask (a : answers) : bool * answers :=
  match yes_no a with
  | [] => (false, a)
  | s :: r =>
    let s := if String.eqb s "Y" then "y"%string else if String.eqb s "N" then "n"%string else s in
    let '(b, r') := ask_again (s :: r) in (b, Answers r' (numbers a))
  end.
(** _get_input_variable(q, int), _util.py 63-87. *)
Fixpoint ask_number (l : list (option Z)) : option Z * list (option Z) :=
  match l with [] => (None, []) | Some n :: r => (Some n, r) | None :: r => ask_number r end.

(** get_valid_scan_number, 329-356: scans are listed in the order of the file. IOError is None. *)
Fixpoint valid_number (scan_nos : list Z) (scan_number : Z) (l : list (option Z)) : option Z :=
  match scan_nos with
  | [] => Some scan_number
  | i :: r =>
    if i =? scan_number then
      let '(new, l') := ask_number l in
      match new with None => None | Some n => if n =? i then None else valid_number r n l' end
    else valid_number r scan_number l
  end.

(** Changes to the file one after another; an interruption may come after any of them. *)
Definition step := content -> content.
(** file.create_group(name) and writing of an item in it. *)
Fixpoint insert_scan (n : Z) (s : list (Z * list Item)) : list (Z * list Item) :=
  match s with [] => [(n, [])] | e :: r => if listed_before n (fst e) then (n, []) :: s else e :: insert_scan n r end.
Definition new_scan (n : Z) : step := fun c => match c with H5 k s => H5 k (insert_scan n s) | Other b => Other b end.
Definition add_item (n : Z) (i : Item) : step := fun c =>
  match c with H5 k s => H5 k (map (fun e : Z * list Item => if fst e =? n then (fst e, snd e ++ [i]) else e) s) | Other b => Other b end.
Definition truncate : step := fun _ => H5 false [].
Definition sign_file : step := fun c => match c with H5 _ s => H5 true s | Other b => Other b end.

(** KikuchipyH5EBSDWriter.__init__, 238-259, check_file, 292-318, and write, 370-462: [items] are written for the signal in this order. None for an
    exception before anything is written. An existing file with add_scan must have been written by kikuchipy and have a
    scan with data and header (check_file), and create_group fails for a name in use. *)
Definition h5_steps (f : option content) (add_scan : option bool) (scan_number : Z) (l : list (option Z)) (items : list Item) : option (list step) :=
  match f, add_scan with
  | Some c, Some true =>
    match c with
    | H5 true scans =>
      if negb (existsb (fun e : Z * list Item => has_header (snd e)) scans) then None else
      let? n := valid_number (map fst scans) scan_number l in
      if existsb (Z.eqb n) (map fst scans) then None else Some (new_scan n :: map (add_item n) items)
    | _ => None
    end
  | _, _ => Some (truncate :: sign_file :: new_scan scan_number :: map (add_item scan_number) items)
  end.

(** Which writer is found from the extension. The NORDIF writer replaces the file. *)
Inductive writer := Kikuchipy (scan_number : Z) (items : list Item) | Nordif (b : Bytes).

Inductive plan := Nothing | Raise | Run (steps : list step).
(** _save, _io.py 392-463 after the writer is chosen. *)
Definition save_plan (f : option content) (w : writer) (overwrite add_scan : option bool) (a : answers) : plan :=
  let is_file := match f with Some _ => true | None => false end in
  let is_h5 := match w with Kikuchipy _ _ => true | Nordif _ => false end in
  let '(kwarg, overwrite, a) :=
    if is_h5 && negb (match overwrite with Some true => true | _ => false end) && is_file then
      let '(add, a) := match add_scan with None => ask a | Some b => (b, a) end in
      (Some add, if add then Some true else overwrite, a)
    else (None, overwrite, a) in
  let '(write, a) :=
    match overwrite with
    | None => if is_file then ask a else (true, a)
    | Some true => (true, a)
    | Some false => (negb is_file, a)
    end in
  if write then
    match w with
    | Kikuchipy n items => match h5_steps f kwarg n (numbers a) items with None => Raise | Some s => Run s end
    | Nordif b => Run [fun _ => Other b]
    end
  else Nothing.

(** The file after the first k changes, for an interruption there; all of them if k is large. A new file is created
    by the first change. *)
Definition apply_steps (f : option content) (s : list step) : option content :=
  fold_left (fun c (t : step) => Some (t (match c with Some c => c | None => H5 false [] end))) s f.
Definition file_after (k : nat) (f : option content) (p : plan) : option content :=
  match p with Run s => apply_steps f (firstn k s) | _ => f end.
Definition save (f : option content) (w : writer) (overwrite add_scan : option bool) (a : answers) : option content :=
  match save_plan f w overwrite add_scan a with Run s => apply_steps f s | _ => f end.

(** Items of a scan in a file. *)
Definition scan_of (n : Z) (f : option content) : option (list Item) :=
  match f with Some (H5 true s) => option_map snd (find (fun e : Z * list Item => fst e =? n) s) | _ => None end.
(** load() without names of scans: H5EBSDReader.check_file, _h5ebsd.py 177-210, and the first scan listed, 285-286. *)
Definition first_scan (f : option content) : option (list Item) :=
  match f with
  | Some (H5 true s) => if existsb (fun e : Z * list Item => has_header (snd e)) s then option_map snd (hd_error s) else None
  | _ => None
  end.
(** load(scan_group_names="Scan n"). *)
Definition named_scan (n : Z) (f : option content) : option (list Item) :=
  match f with
  | Some (H5 true s) => if existsb (fun e : Z * list Item => has_header (snd e)) s then scan_of n f else None
  | _ => None
  end.
End Save.
Arguments H5 {Item Bytes}. Arguments Other {Item Bytes}. Arguments Kikuchipy {Item Bytes}. Arguments Nordif {Item Bytes}.
Arguments Run {Item Bytes}. Arguments Nothing {Item Bytes}. Arguments Raise {Item Bytes}.
Arguments save_plan {Item Bytes}. Arguments file_after {Item Bytes}. Arguments save {Item Bytes}. Arguments scan_of {Item Bytes}. Arguments insert_scan {Item}. Arguments first_scan {Item Bytes}. Arguments named_scan {Item Bytes}.
Arguments h5_steps {Item Bytes}. Arguments new_scan {Item Bytes}. Arguments add_item {Item Bytes}. Arguments truncate {Item Bytes}. Arguments sign_file {Item Bytes}.
Arguments apply_steps {Item Bytes}.
