(** Binary files and arrays read from them, as done by Python's struct and NumPy's fromfile, tofile, memmap,
    reshape and squeeze on a little-endian machine. These are library functions, not part of kikuchipy. *)
From Coq Require Import String List Arith ZArith Bool.
Import ListNotations.
Local Open Scope nat_scope.

(** A step that may raise an error (None). *)
Definition bind {A B} (x : option A) (f : A -> option B) : option B := match x with None => None | Some a => f a end.
Notation "'let?' x ':=' e 'in' r" := (bind e (fun x => r)) (at level 200, x name, right associativity).

(** A byte is an integer in 0..255; a file is a list of bytes. *)
Definition file := list Z.

(** Unsigned value of bytes, least significant first, and the n bytes of a value. *)
Fixpoint le (bs : list Z) : Z := match bs with [] => 0 | b :: r => b + 256 * le r end%Z.
Fixpoint to_le (n : nat) (z : Z) : list Z := match n with O => [] | S n' => (z mod 256)%Z :: to_le n' (z / 256)%Z end.
(** Signed value (two's complement) of bytes. *)
Definition sle (bs : list Z) : Z :=
  let m := (256 ^ Z.of_nat (length bs))%Z in if (2 * le bs <? m)%Z then le bs else (le bs - m)%Z.

(** n bytes from a position on; None if the file ends before. *)
Definition sub (f : file) (off n : nat) : option (list Z) :=
  if off + n <=? length f then Some (firstn n (skipn off f)) else None.
(** The value of the n bytes from a position on. *)
Definition uint_at (f : file) (off n : nat) : option Z := option_map le (sub f off n).
Definition int_at (f : file) (off n : nat) : option Z := option_map sle (sub f off n).

(** n items of the given size from a list of bytes. *)
Fixpoint items (size n : nat) (bs : list Z) : list Z :=
  match n with O => [] | S n' => le (firstn size bs) :: items size n' (skipn size bs) end.

(** An array: its shape and its elements in C order. *)
Record nd := Nd { shape : list nat; elems : list Z }.
Definition size_of (s : list nat) : nat := fold_right Nat.mul 1 s.
(** Position in the list of elements. *)
Fixpoint ravel (s idx : list nat) : nat :=
  match s, idx with _ :: s', i :: idx' => i * size_of s' + ravel s' idx' | _, _ => 0 end.
Fixpoint in_shape (s idx : list nat) : Prop :=
  match s, idx with [], [] => True | n :: s', i :: idx' => i < n /\ in_shape s' idx' | _, _ => False end.
(** a[idx]. *)
Definition at_ (a : nd) (idx : list nat) : option Z := nth_error (elems a) (ravel (shape a) idx).
(** np.squeeze. *)
Definition squeeze_shape (s : list nat) : list nat := filter (fun n => negb (n =? 1)) s.
Definition squeeze (a : nd) : nd := Nd (squeeze_shape (shape a)) (elems a).
Fixpoint squeeze_index (s idx : list nat) : list nat :=
  match s, idx with n :: s', i :: idx' => if n =? 1 then squeeze_index s' idx' else i :: squeeze_index s' idx' | _, _ => [] end.

(** np.memmap(file, dtype, shape, offset): ValueError (None) if the file is too short. *)
Definition memmap (f : file) (size : nat) (s : list nat) (off : nat) : option nd :=
  option_map (fun bs => Nd s (items size (size_of s) bs)) (sub f off (size_of s * size)).

(** One entry of the list of axes returned by a reader. Scales are of any type. *)
Record axis (S : Type) := Axis { ax_size : nat; ax_index : nat; ax_name : string; ax_scale : S }.
Arguments Axis {S}. Arguments ax_size {S}. Arguments ax_index {S}. Arguments ax_name {S}. Arguments ax_scale {S}.
(** The list built for i in range(data.ndim). IndexError is not possible here: names and scales have at least as
    many entries as dimensions in all calls. *)
Definition make_axes {S} (s : list nat) (names : list string) (scales : list S) : list (axis S) :=
  map (fun t : nat * (nat * (string * S)) => Axis (fst (snd t)) (fst t) (fst (snd (snd t))) (snd (snd (snd t))))
    (combine (seq 0 (length s)) (combine s (combine names scales))).
