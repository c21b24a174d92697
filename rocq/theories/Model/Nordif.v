(** NORDIF binary files: src/kikuchipy/io/plugins/nordif/_api.py. Left out: the parsing of the setting file, of
    which only the resulting scan size, pattern size and step size are used, metadata, background and detector. *)
From Coq Require Import String List Arith ZArith Bool.
From Verif Require Import Model.Binary.
Import ListNotations.
Local Open Scope nat_scope.

(** A signal to write: data of shape navigation shape + (sy, sx), with items of a number of bytes. *)
Record signal := Signal { nav : list nat; sy : nat; sx : nat; item : nat; values : list Z }.

(** Patterns in the order of _iterate_signal(iterpath="flyback"): by increasing position in the navigation
    shape, last navigation axis fastest. *)
Definition patterns (s : signal) : list (list Z) :=
  map (fun i => firstn (sy s * sx s) (skipn (i * (sy s * sx s)) (values s))) (seq 0 (size_of (nav s))).
(** file_writer, 436-452: pattern.flatten().tofile(file) for every pattern. Both branches do the same. *)
Definition file_writer (s : signal) : file := flat_map (fun p => flat_map (to_le (item s)) p) (patterns s).

Inductive scan_size := Int (n : nat) | Pair (nx ny : nat).
(** What the setting file, if there is one, says. *)
Record settings (S : Type) := Settings { f_nx : nat; f_ny : nat; f_sx : nat; f_sy : nat; step_x : S }.
Arguments Settings {S}. Arguments f_nx {S}. Arguments f_ny {S}. Arguments f_sx {S}. Arguments f_sy {S}. Arguments step_x {S}.

(** The result: data and axes. For lazy reading, data is the array as computed later; reading beyond the end of
    the file fails then (memmap_distributed). *)
Record scan (S : Type) := Scan { data : nd; axes : list (axis S); xmap_shape : list nat }.
Arguments Scan {S}. Arguments data {S}. Arguments axes {S}. Arguments xmap_shape {S}.

(** scan_size, 83-95. "not scan_size" holds for None and 0; without a setting file 0 is taken as it is, since it
    is not None. *)
Definition chosen_scan_size {S} (arg : option scan_size) (setting_file : option (settings S)) : option scan_size :=
  match setting_file with
  | Some st => match arg with Some (Int 0) | None => Some (Pair (f_nx st) (f_ny st)) | Some s => Some s end
  | None => arg
  end.

(** file_reader, 43-192. one is 1.0. *)
Definition file_reader {S} (one : S) (f : file) (scan_size_arg : option scan_size) (pattern_size : option (nat * nat))
  (setting_file : option (settings S)) (lazy : bool) : option (scan S) :=
  let sig_size := match pattern_size, setting_file with
    | Some p, _ => Some p
    | None, Some st => Some (f_sx st, f_sy st)
    | None, None => None
    end in
  match chosen_scan_size scan_size_arg setting_file, sig_size with
  | Some n, Some (sx, sy) =>
      let '(nx, ny) := match n with Int n => (n, 1) | Pair nx ny => (nx, ny) end in
      let full := [ny; nx; sy; sx] in
      let data_size := ny * nx * sy * sx in
      let d :=
        if lazy then memmap f 1 full 0
        else
          let content := items 1 (Nat.min data_size (length f)) f in
          if length content =? data_size then Some (squeeze (Nd full content))
          else Some (Nd full (content ++ repeat 0%Z (data_size - length content))) in
      match d with
      | None => None
      | Some a =>
          let scales := match setting_file with Some st => [step_x st; step_x st; one; one] | None => [one; one; one; one] end in
          Some (Scan a (make_axes (shape a) ["y"; "x"; "dy"; "dx"]%string scales) [ny; nx])
      end
  | _, _ => None
  end.
