(** Oxford Instruments' binary .ebsp files: src/kikuchipy/io/plugins/oxford_binary/_api.py. Numbers are exact:
    differences of int64 do not overflow, and beam coordinates are rationals. Lazy reading gives the same data
    and is left out, as are metadata and units. *)
From Coq Require Import String List Arith ZArith QArith Qround Bool.
From Verif Require Import Model.Binary.
Import ListNotations.
Local Open Scope nat_scope.

(** get_version, 448-467. *)
Definition get_version (f : file) : option nat :=
  option_map (fun v => if (v <? 0)%Z then Z.to_nat (- v) else 0) (int_at f 0 8).
(** pattern_starts_byte_position, 195-207. *)
Definition starts_position (v : nat) : nat := if v =? 0 then 0 else if 3 <? v then 9 else 8.
(** pattern_header_size, 209-231, of int32 fields, two of them new in version 5. *)
Definition header_size (v : nat) : nat := if v <? 5 then 16 else 24.

(** count int64 from a position on. *)
Fixpoint int64s (count : nat) (bs : list Z) : list Z :=
  match count with O => [] | S c => sle (firstn 8 bs) :: int64s c (skipn 8 bs) end.

(** np.diff. *)
Fixpoint diff (l : list Z) : list Z :=
  match l with x :: ((y :: _) as r) => (y - x)%Z :: diff r | _ => [] end.
(** Position of the first entry that satisfies a test: np.nonzero(...)[0][0], IndexError (None) if there is none. *)
Fixpoint first_where {A} (test : A -> bool) (l : list A) : option nat :=
  match l with [] => None | x :: r => if test x then Some 0 else option_map S (first_where test r) end.

(** guess_number_of_patterns, 531-577. *)
Definition max_jump (v : nat) : Z := (20 * (1024 * 1344 * 2 + Z.of_nat (header_size v)))%Z.
Definition guess_number_of_patterns (v : nat) (f : file) : option nat :=
  let max_n := length f / (1600 + header_size v) in
  let assumed := int64s max_n (skipn (starts_position v) f) in
  let? i := first_where (fun d => (max_jump v <? Z.abs d)%Z) (diff assumed) in
  Some (if v <? 5 then i + 1 else i).

(** Pattern footer: which of beam_x and beam_y there are, its size as stored (pattern_footer_size), and as a
    data type, 335-372. Version 1 has both without flags. *)
Record footer := Footer { has_x : bool; has_y : bool; stored_size : nat; dtype_size : nat }.
Definition get_footer (v : nat) (f : file) (pos : nat) : option footer :=
  if v =? 1 then Some (Footer true true 16 16)
  else if 1 <? v then
    let? bx := uint_at f pos 1 in
    let x := negb (bx =? 0)%Z in
    let? by_ := uint_at f (if x then pos + 9 else pos + 1) 1 in
    let y := negb (by_ =? 0)%Z in
    let k := (if x then 1 else 0) + (if y then 1 else 0) in
    Some (Footer x y (2 + 8 * k) (9 * k))
  else Some (Footer false false 0 0).
(** Position of a coordinate in the footer data type: after the flag in versions after 1. *)
Definition flag_size (v : nat) : nat := if 1 <? v then 1 else 0.
Definition x_offset (v : nat) : nat := flag_size v.
Definition y_offset (v : nat) (ft : footer) : nat := (if has_x ft then flag_size v + 8 else 0) + flag_size v.

(** np.around: half to even. *)
Definition around (q : Q) : Z :=
  let n := Qfloor q in
  let d := (q - inject_Z n)%Q in
  match (d ?= 1 # 2)%Q with Lt => n | Gt => (n + 1)%Z | Eq => if Z.even n then n else (n + 1)%Z end.

(** get_navigation_shape_and_step_size, 282-322, from the coordinates (8 bytes each) of the first, second and last
    pattern; None for dividing by a zero step size (int of nan or inf). *)
Definition nav_shape_from (decode : list Z -> Q) (x1 x2 xl y1 yl : list Z) : option (nat * nat * Q) :=
  let step := (decode x2 - decode x1)%Q in
  if Qeq_bool step 0 then None else
  let rows := Z.to_nat (Z.abs (around (decode yl / step) - around (decode y1 / step))) + 1 in
  let cols := Z.to_nat (Z.abs (around (decode xl / step) - around (decode x1 / step))) + 1 in
  Some (rows, cols, step).

Record scan := Scan {
  patterns : list (list Z);            (* pixels of each pattern, in the order of the navigation shape *)
  nav_shape : list nat; sig_shape : nat * nat; names : list string; scales : list Q;
  map1d_id : list nat; file_order : list Z;
  beam_x : option (list (list Z)); beam_y : option (list (list Z)); map_x : option (list Z); map_y : option (list Z) }.

Fixpoint all_some {A} (l : list (option A)) : option (list A) :=
  match l with [] => Some [] | x :: r => let? a := x in let? r' := all_some r in Some (a :: r') end.
(** Fancy indexing: IndexError (None) for positions out of range. Negative positions, which count from the end,
    do not occur for patterns in the file. *)
Definition take {A} (l : list A) (order : list Z) : option (list A) :=
  all_some (map (fun k => if (k <? 0)%Z then None else nth_error l (Z.to_nat k)) order).
Fixpoint keep {A} (l : list A) (m : list bool) : list A :=
  match l, m with x :: l', b :: m' => if b then x :: keep l' m' else keep l' m' | _, _ => [] end.

(** Initialization, 91-150, get_patterns, 374-413, and get_scan, 469-529. *)
Definition read_scan (decode : list Z -> Q) (f : file) : option scan :=
  let? v := get_version f in
  let hs := header_size v in
  let? n := guess_number_of_patterns v f in
  let? sb := sub f (starts_position v) (n * 8) in
  let starts := int64s n sb in
  let first := starts_position v + n * 8 in
  let base := if v <? 5 then first else first + 8 in        (* of is_compressed *)
  let? compressed := int_at f base 4 in
  if negb (compressed =? 0)%Z then None else
  let? nrows := int_at f (base + 4) 4 in let? ncols := int_at f (base + 8) 4 in let? nb := int_at f (base + 12) 4 in
  let sy := Z.to_nat nrows in let sx := Z.to_nat ncols in let n_bytes := Z.to_nat nb in
  let item := if n_bytes =? sy * sx then 1 else 2 in
  let? ft := get_footer v f (first + hs + n_bytes) in
  let present := map (fun s => negb (s =? 0)%Z) starts in
  let n_present := length (filter (fun b => b) present) in
  let all := forallb (fun b => b) present in
  let coordinate (off : nat) (s : Z) := sub f (Z.to_nat s + hs + n_bytes + off) 8 in
  let? nav := if negb all || negb (has_x ft || has_y ft) then Some ([n_present], [inject_Z 1], ["x"; "dy"; "dx"]%string)
    else if negb (has_x ft && has_y ft) then None               (* no such field *)
    else
      let? s2 := nth_error starts 1 in
      let s1 := hd 0%Z starts in let sl := last starts 0%Z in
      let? x1 := coordinate (x_offset v) s1 in let? x2 := coordinate (x_offset v) s2 in let? xl := coordinate (x_offset v) sl in
      let? y1 := coordinate (y_offset v ft) s1 in let? yl := coordinate (y_offset v ft) sl in
      let? t := nav_shape_from decode x1 x2 xl y1 yl in
      let '(rows, cols, step) := t in Some ([rows; cols], [step; step], ["y"; "x"; "dy"; "dx"]%string) in
  let '(shape, steps, names) := nav in
  (* the memory map, 239-280: one record per pattern *)
  let rec_size := hs + sy * sx * item + dtype_size ft in
  let? bytes := sub f first (n_present * rec_size) in
  let record j := skipn (j * rec_size) bytes in
  let field {T} (get : list Z -> T) := map (fun j => get (record j)) (seq 0 n_present) in
  let data := field (fun r => items item (sy * sx) (skipn hs r)) in
  let per_pattern := (Z.of_nat (n_bytes + (hs + stored_size ft)))%Z in
  let order := map (fun s => Z.quot (s - Z.of_nat first) per_pattern) starts in
  let sorted := forallb (fun d => (d =? 1)%Z) (diff order) in
  let? data := if negb sorted && all then take data order else Some data in
  if negb (length data =? size_of shape) then None else
  let present_order := keep order present in
  let beam (off : nat) := take (field (fun r => firstn 8 (skipn (hs + sy * sx * item + off) r))) present_order in
  let position (off : nat) := take (field (fun r => sle (firstn 4 (skipn off r)))) present_order in
  let? bx := if has_x ft then option_map Some (beam (x_offset v)) else Some None in
  let? by_ := if has_y ft then option_map Some (beam (y_offset v ft)) else Some None in
  let? mx := if v <? 5 then Some None else option_map Some (position 0) in
  let? my := if v <? 5 then Some None else option_map Some (position 4) in
  Some (Scan data shape (sy, sx) names (steps ++ [inject_Z 1; inject_Z 1]) (keep (seq 0 n) present) present_order bx by_ mx my).
