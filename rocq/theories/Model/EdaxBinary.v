(** EDAX binary UP1/UP2 files: src/kikuchipy/io/plugins/edax_binary/_api.py. Files are smaller than 4 GB, so
    that differences of uint32 and Python integers do not overflow. Chunks of lazy arrays and metadata are left
    out. *)
From Coq Require Import String List Arith ZArith Bool.
From Verif Require Import Model.Binary.
Import ListNotations.
Local Open Scope nat_scope.

(** The extension, which decides the number of bytes of an item, 100-101. *)
Inductive ext := Up1 | Up2.
Definition nbytes (e : ext) : nat := match e with Up1 => 1 | Up2 => 2 end.

(** A step size: the integer 1 or a float64 given by its eight bytes. *)
Inductive scale := One | F64 (bytes : list Z).

Record header := Header {
  sx : nat; sy : nat; pattern_offset : nat; nx : nat; ny : nat; n_patterns : nat; dx : scale; dy : scale; is_hex : bool }.

Definition u32 (f : file) (off : nat) : option nat := option_map Z.to_nat (uint_at f off 4).

(** Version, 103-106: None is the ValueError for version 2 (or a file that is too short). *)
Definition version (f : file) : option nat :=
  let? v := u32 f 0 in if v =? 2 then None else Some v.

(** int((file_size - pattern_offset) / (sx * sy * nbytes)); dividing by 0 gives inf and int(inf) raises. *)
Definition count (e : ext) (f : file) (sx sy off : nat) : option nat :=
  if (length f <? off) || (sx * sy * nbytes e =? 0) then None else Some ((length f - off) / (sx * sy * nbytes e)).

(** read_header, 108-151: sizes at bytes 4, 8 and 12; nx and ny at 17 and 21 (one byte is skipped); the
    hexagonal flag at 25; step sizes at 26 and 34. *)
Definition read_header (e : ext) (f : file) : option header :=
  let? v := version f in
  let? sx := u32 f 4 in let? sy := u32 f 8 in let? off := u32 f 12 in
  if v =? 1 then
    let? n := count e f sx sy off in Some (Header sx sy off n 1 n One One false)
  else
    let? nx := u32 f 17 in let? ny := u32 f 21 in let? hex := uint_at f 25 1 in
    let? dx := sub f 26 8 in let? dy := sub f 34 8 in
    if (hex =? 0)%Z then Some (Header sx sy off nx ny (nx * ny) (F64 dx) (F64 dy) false)
    else let? n := count e f sx sy off in Some (Header sx sy off n 1 n (F64 dx) (F64 dy) true).

Record scan := Scan { data : nd; axes : list (axis scale) }.

(** read_scan, 153-229. nav_shape is (rows, columns). *)
Definition read_scan (e : ext) (f : file) (nav_shape : option (nat * nat)) : option scan :=
  let? h := read_header e f in
  let? shape := match nav_shape with
    | Some (r, c) =>
        if is_hex h then Some (ny h, nx h) else if r * c =? n_patterns h then Some (r, c) else None
    | None => Some (ny h, nx h)
    end in
  let '(r, c) := shape in
  let data_shape := if r =? 1 then [c; sy h; sx h] else [r; c; sy h; sx h] in
  let? a := memmap f (nbytes e) data_shape (pattern_offset h) in
  let nav_dim := length data_shape - 2 in
  let scales := [dy h; dx h] ++ firstn nav_dim [One; One] in
  let names := skipn (2 - nav_dim) ["y"; "x"]%string ++ ["dy"; "dx"]%string in
  Some (Scan a (make_axes data_shape names scales)).
