(** What it means that a dictionary read from a file is the one that was written. *)
From Coq Require Import Ascii String List NArith ZArith Reals.
From Verif Require Import Model.Hdf5 Model.Hdf5Write.
Import ListNotations.
Local Open Scope list_scope.

(** The code points of a text that was read. *)
Definition code_points (s : string) : list N := map N_of_ascii (list_ascii_of_string s).

(** Equal values; two dictionaries are equal if they have the same keys and equal values for each. *)
Inductive equal : pyval -> entry -> Prop :=
| equal_str s t : code_points t = s -> equal (Str s) (Value (Text t))
| equal_int z : equal (PyInt z) (Value (Int z))
| equal_number x : equal (Number x) (Value x)
| equal_array shape entries : shape <> [] -> equal (NdArray shape entries) (Array shape entries)
| equal_array0 x : equal (NdArray [] [x]) (Value x)
| equal_items items : equal (NumpyItems items) (Array [length items] items)
| equal_dict d e :
    (forall k v, In (k, v) d -> exists e', get e k = Some e' /\ equal v e') ->
    (forall k, get e k <> None -> In k (map fst d)) ->
    equal (Mapping d) (Dict e).

(** Keys that name one entry of a group: not empty, without slash, and not the name "." of the group itself. *)
Definition names_one (k : string) : Prop := k <> ""%string /\ k <> "."%string /\ ~ In "/"%char (list_ascii_of_string k).
Definition starts_with_space (k : string) : Prop :=
  exists c r, k = String c r /\ In (nat_of_ascii c) [9; 10; 11; 12; 13; 32].

(** Texts of 7-bit characters which do not end with a zero. *)
Definition plain_text (s : list N) : Prop := Forall (fun c => (c < 128)%N) s /\ (s = [] \/ last s 1%N <> 0%N).

(** Dictionaries that are claimed to come back: at every level the keys are different and name one entry without space
    in front, texts are plain, Python's integers have 64 bits and arrays do not have a first axis of length one. *)
Inductive storable : pyval -> Prop :=
| storable_str s : plain_text s -> storable (Str s)
| storable_int z : (- 2 ^ 63 <= z < 2 ^ 63)%Z -> storable (PyInt z)
| storable_number x : storable (Number x)
| storable_array shape entries : hd 0 shape <> 1 -> shape <> [] -> storable (NdArray shape entries)
| storable_array0 x : storable (NdArray [] [x])
| storable_items items : length items <> 1 -> items <> [] ->
    (Forall (fun x => exists z, x = Int z) items \/ Forall (fun x => exists y, x = Float y) items) -> storable (NumpyItems items)
| storable_dict d : NoDup (map fst d) ->
    (forall k, In k (map fst d) -> names_one k /\ ~ starts_with_space k) ->
    (forall k v, In (k, v) d -> storable v) -> storable (Mapping d).
