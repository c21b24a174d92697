(** Binary files of patterns, described from the side of the program that writes them. *)
From Coq Require Import List Arith ZArith QArith.
From Verif Require Import Model.Binary.
Import ListNotations.
Local Open Scope nat_scope.

(** All pixel values of n patterns of a given size, pattern by pattern, row by row. *)
Definition pattern_pixels (pat : nat -> nat -> Z) (sy sx : nat) : list Z :=
  flat_map (fun y => map (fun x => pat y x) (seq 0 sx)) (seq 0 sy).
Definition all_pixels (pat : nat -> nat -> nat -> Z) (n sy sx : nat) : list Z :=
  flat_map (fun i => pattern_pixels (pat i) sy sx) (seq 0 n).

(** Values fit in items of the given number of bytes. *)
Definition fits (size : nat) (pat : nat -> nat -> nat -> Z) : Prop :=
  forall i y x, (0 <= pat i y x < 256 ^ Z.of_nat size)%Z.

(** The first bytes of an EDAX file: version, pattern width, pattern height and position of the first pattern.
    More header bytes follow until the patterns, then any trailing bytes. *)
Definition edax_file (size version sx sy : nat) (more : list Z) (pat : nat -> nat -> nat -> Z) (n : nat) (trailing : list Z) : file :=
  to_le 4 (Z.of_nat version) ++ to_le 4 (Z.of_nat sx) ++ to_le 4 (Z.of_nat sy) ++ to_le 4 (Z.of_nat (16 + length more)) ++
  more ++ flat_map (to_le size) (all_pixels pat n sy sx) ++ trailing.
(** Version 3 and later: one unknown byte, numbers of columns and rows, hexagonal flag, step sizes (float64),
    further unknown bytes. *)
Definition edax_more (unknown : Z) (nx ny : nat) (hex : Z) (dx dy rest : list Z) : list Z :=
  [unknown] ++ to_le 4 (Z.of_nat nx) ++ to_le 4 (Z.of_nat ny) ++ [hex] ++ dx ++ dy ++ rest.

(** An .ebsp file. Map points are numbered row by row; the patterns of some of them are stored in some order. *)
Record ebsp := Ebsp {
  e_version : nat; e_unknown : list Z;          (* one byte in version 4 and later *)
  e_n : nat;                                    (* number of map points *)
  e_stored : list nat;                          (* map points whose patterns are stored, in the order of the file *)
  e_sy : nat; e_sx : nat; e_item : nat;         (* size of patterns and of items in bytes *)
  e_pat : nat -> nat -> nat -> Z;               (* pattern of a map point *)
  e_bx : nat -> list Z; e_by : nat -> list Z;   (* its beam coordinates, float64 *)
  e_mx : nat -> Z; e_my : nat -> Z }.           (* its column and row, stored in version 5 and later *)

Definition ebsp_pixels (e : ebsp) (i : nat) : list Z := pattern_pixels (e_pat e i) (e_sy e) (e_sx e).
(** Pattern header, pixels and footer of a map point. *)
Definition ebsp_header (e : ebsp) (i : nat) : list Z :=
  (if e_version e <? 5 then [] else to_le 4 (e_mx e i) ++ to_le 4 (e_my e i)) ++
  to_le 4 0 ++ to_le 4 (Z.of_nat (e_sy e)) ++ to_le 4 (Z.of_nat (e_sx e)) ++ to_le 4 (Z.of_nat (e_sy e * e_sx e * e_item e)).
Definition ebsp_footer (e : ebsp) (i : nat) : list Z :=
  match e_version e with O => [] | 1 => e_bx e i ++ e_by e i | _ => [1%Z] ++ e_bx e i ++ [1%Z] ++ e_by e i end.
Definition ebsp_record (e : ebsp) (i : nat) : list Z :=
  ebsp_header e i ++ flat_map (to_le (e_item e)) (ebsp_pixels e i) ++ ebsp_footer e i.
Definition ebsp_record_size (e : ebsp) : nat :=
  (if e_version e <? 5 then 16 else 24) + e_sy e * e_sx e * e_item e + match e_version e with O => 0 | 1 => 16 | _ => 18 end.

(** Version (as a negative number) and unknown byte. *)
Definition ebsp_start (e : ebsp) : list Z :=
  match e_version e with O => [] | v => to_le 8 (- Z.of_nat v) ++ (if 3 <? v then e_unknown e else []) end.
(** Position of the first record, after the positions (int64) of all map points. *)
Definition ebsp_first (e : ebsp) : nat := length (ebsp_start e) + 8 * e_n e.
(** Position of a map point in the list of those stored. *)
Fixpoint place (l : list nat) (i : nat) : option nat :=
  match l with [] => None | j :: r => if j =? i then Some 0 else option_map S (place r i) end.
(** Byte position of the pattern of a map point, 0 if it is not stored. *)
Definition ebsp_position (e : ebsp) (i : nat) : Z :=
  match place (e_stored e) i with None => 0 | Some j => Z.of_nat (ebsp_first e + j * ebsp_record_size e) end.
Definition ebsp_file (e : ebsp) : file :=
  ebsp_start e ++ flat_map (fun i => to_le 8 (ebsp_position e i)) (seq 0 (e_n e)) ++ flat_map (ebsp_record e) (e_stored e).

(** A file as described: sizes and values fit, and each stored map point is stored once. *)
Definition ebsp_valid (e : ebsp) : Prop :=
  1 <= e_n e /\ NoDup (e_stored e) /\ (forall i, In i (e_stored e) -> i < e_n e) /\ e_stored e <> [] /\
  length (e_unknown e) = 1 /\ 1 <= e_sy e /\ 1 <= e_sx e /\ (e_item e = 1 \/ e_item e = 2) /\
  (Z.of_nat (e_sy e) < 2 ^ 31 /\ Z.of_nat (e_sx e) < 2 ^ 31 /\ Z.of_nat (e_sy e * e_sx e * e_item e) < 2 ^ 31)%Z /\
  (Z.of_nat (e_version e) < 2 ^ 63 /\ Z.of_nat (length (ebsp_file e)) < 2 ^ 63)%Z /\
  fits (e_item e) (e_pat e) /\ (forall i, length (e_bx e i) = 8 /\ length (e_by e i) = 8) /\
  (forall i, - 2 ^ 31 <= e_mx e i < 2 ^ 31 /\ - 2 ^ 31 <= e_my e i < 2 ^ 31)%Z.

(** Files whose number of map points can be found from the table of positions: at the end of the table, and not
    before, two numbers in a row differ by more than twenty of the largest patterns foreseen. What follows the table
    is the first record: before version 5 the numbers 0 and sy (four bytes each), from then on its column, row, 0, sy. *)
Definition ebsp_reach (e : ebsp) : Z := (20 * (1024 * 1344 * 2 + Z.of_nat (if (e_version e <? 5)%nat then 16 else 24)))%Z.
Definition ebsp_near (e : ebsp) : Prop :=
  forall i, S i < e_n e -> (Z.abs (ebsp_position e (S i) - ebsp_position e i) <= ebsp_reach e)%Z.
Definition ebsp_countable (e : ebsp) : Prop :=
  (e_n e + 2) * (1600 + (if e_version e <? 5 then 16 else 24)) <= length (ebsp_file e) /\ ebsp_near e /\
  if e_version e <? 5 then (ebsp_position e (e_n e - 1) + ebsp_reach e < Z.of_nat (e_sy e) * 2 ^ 32)%Z
  else exists i, hd_error (e_stored e) = Some i /\ e_my e i = 0%Z /\
    (0 <= e_mx e i /\ Z.abs (e_mx e i - ebsp_position e (e_n e - 1)) <= ebsp_reach e /\ e_mx e i + ebsp_reach e < Z.of_nat (e_sy e) * 2 ^ 32)%Z.

(** Beam positions of a map of some rows and columns from (x0, y0) with a step size. *)
Definition ebsp_grid (decode : list Z -> Q) (e : ebsp) (rows cols : nat) (x0 y0 step : Q) : Prop :=
  e_n e = rows * cols /\ ~ (step == 0)%Q /\
  forall r c, r < rows -> c < cols ->
    (decode (e_bx e (r * cols + c)%nat) == x0 + inject_Z (Z.of_nat c) * step)%Q /\
    (decode (e_by e (r * cols + c)%nat) == y0 + inject_Z (Z.of_nat r) * step)%Q.
(** Not half way between two multiples of the step size. *)
Definition off_tie (x step : Q) : Prop := forall k : Z, ~ (x / step == inject_Z k + (1 # 2))%Q.
