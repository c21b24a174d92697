(** How dictionaries are written to HDF5 groups: src/kikuchipy/io/plugins/_h5ebsd.py (called "h5"). The tree written
    and the dictionary read from it are those of Model/Hdf5.v.
    Left out: the types of numbers, keyword arguments passed on to h5py, the order of the children of a group (h5py
    lists them by name, here they are kept as created) and what a file holds after an exception. Exceptions are
    None. *)
From Coq Require Import Ascii String List Arith NArith ZArith Reals Bool.
From Verif Require Import Model.Binary Model.Hdf5.
Import ListNotations.
Local Open Scope list_scope.

(** Values of a dictionary to write. A str is the list of its code points. *)
Inductive pyval :=
| Str (s : list N)                                     (* str *)
| PyInt (z : Z)                                        (* Python's int *)
| Number (x : scalar)                                  (* Python's float, or a number of numpy's *)
| NdArray (shape : list nat) (entries : list scalar)   (* a numpy or dask array of numbers *)
| NumpyItems (items : list scalar)                     (* a list or tuple of numbers of numpy's *)
| PlainItems (items : list scalar)                     (* a list or tuple of Python's numbers *)
| Unindexable                                          (* None, a set, an object without items *)
| Mapping (d : list (string * pyval)).                 (* dict *)

(** str.encode: UTF-8; None is the UnicodeEncodeError on surrogates. *)
Definition utf8_char (c : N) : option (list N) :=
  (if c <? 128 then Some [c]
   else if c <? 2048 then Some [192 + c / 64; 128 + c mod 64]
   else if c <? 65536 then
     if (55296 <=? c) && (c <? 57344) then None
     else Some [224 + c / 4096; 128 + (c / 64) mod 64; 128 + c mod 64]
   else if c <? 1114112 then Some [240 + c / 262144; 128 + (c / 4096) mod 64; 128 + (c / 64) mod 64; 128 + c mod 64]
   else None)%N.
Fixpoint encode (s : list N) : option (list N) :=
  match s with [] => Some [] | c :: r => let? b := utf8_char c in let? br := encode r in Some (b ++ br) end.

(** Bytes stored in a string type of n bytes (h5py and numpy): longer ones are cut, and zeros at the end are not given
    back. *)
Fixpoint strip_zeros (b : list N) : list N :=
  match b with [] => [] | x :: r => match strip_zeros r with [] => if (x =? 0)%N then [] else [x] | r' => x :: r' end end.
Definition fixed_bytes (n : nat) (b : list N) : list N := strip_zeros (firstn n b).
Definition string_of_bytes (b : list N) : string := string_of_list_ascii (map ascii_of_N b).

(** Values written to an array of the type of its first item (h5 112-116, 125-126): a float is cut to its integer
    part, towards zero. *)
Definition truncate (x : R) : Z := if Rlt_dec x 0 then (- Int_part (- x))%Z else Int_part x.
Definition cast (first x : scalar) : scalar :=
  match first, x with
  | Int _, Float y => Int (truncate y)
  | Float _, Int z => Float (IZR z)
  | _, _ => x
  end.

(** What is written for one value that is not a dictionary (h5 104-126). Stored: a dataset; Skip: the warning and the
    end of the loop over this dictionary; Error: AttributeError for items without a dtype, IndexError for no items,
    OverflowError for an integer of more than 64 bits, UnicodeEncodeError. *)
Inductive outcome := Stored (shape : list nat) (entries : list scalar) | Skip | Error.
Definition write_leaf (v : pyval) : outcome :=
  match v with
  | Str s => match encode s with
             | Some b => Stored [1] [Text (string_of_bytes (fixed_bytes (length s + 1) b))]
             | None => Error
             end
  | PyInt z => if ((- 2 ^ 63 <=? z) && (z <? 2 ^ 63))%Z then Stored [1] [Int z] else Error
  | Number x => Stored [1] [x]
  | NdArray shape entries => Stored shape entries
  | NumpyItems [] => Error
  | NumpyItems (x :: r) => Stored [length (x :: r)] (map (cast x) (x :: r))
  | PlainItems _ => Error
  | Unindexable => Skip
  | Mapping _ => Error
  end.

(** Group.create_group and Group.create_dataset of h5py: a name is a path, whose parts but the last are made if they are
    missing; None is the ValueError if the name is taken. A name starting with a slash, which is resolved from the top
    of the file, and names with "." as a part are left out. *)
Fixpoint split_slash (s : string) : list string :=
  match s with
  | EmptyString => [EmptyString]
  | String c r =>
      if Ascii.eqb c "/" then EmptyString :: split_slash r
      else match split_slash r with [] => [String c EmptyString] | w :: ws => String c w :: ws end
  end.
Definition replace (children : list (string * node)) (k : string) (n : node) : list (string * node) :=
  map (fun kn => if (fst kn =? k)%string then (k, n) else kn) children.
Fixpoint create (children : list (string * node)) (p : list string) (n : node) : option (list (string * node)) :=
  match p with
  | [] => None
  | [k] => match assoc children k with Some _ => None | None => Some (children ++ [(k, n)]) end
  | k :: rest =>
      match assoc children k with
      | Some (Group c) => let? c' := create c rest n in Some (replace children k (Group c'))
      | Some (Dataset _ _) => None
      | None => let? c' := create [] rest n in Some (children ++ [(k, Group c')])
      end
  end.

(** _dict2hdf5group, h5 89-126, on an empty group: the children written and the keys warned about. *)
Fixpoint dict2hdf5group (v : pyval) : option (list (string * node) * list string) :=
  match v with
  | Mapping d =>
      (fix loop (d : list (string * pyval)) (children : list (string * node)) (warned : list string) :=
         match d with
         | [] => Some (children, warned)
         | (key, v) :: rest =>
             match v with
             | Mapping _ =>
                 let? cw := dict2hdf5group v in
                 let? children := create children (split_slash key) (Group (fst cw)) in
                 loop rest children (warned ++ snd cw)
             | _ =>
                 match write_leaf v with
                 | Stored shape entries =>
                     let? children := create children (split_slash key) (Dataset shape entries) in
                     loop rest children warned
                 | Skip => Some (children, warned ++ [key])
                 | Error => None
                 end
             end
         end) d [] []
  | _ => None
  end.

(** A dictionary written to a group and read again with its subgroups: _hdf5group2dict with recursive=True, h5 35-86. *)
Definition round_trip (v : pyval) : option (list (string * entry) * list string) :=
  let? cw := dict2hdf5group v in
  Some (hdf5group2dict true [] (Group (fst cw)), snd cw).
