(** Projection centers (PCs) of a scan read from a kikuchipy h5ebsd file:
    io/plugins/kikuchipy_h5ebsd/_api.py scan2dict (lines 131-160), with padding of arrays that do not fit the map, which
    Model/KikuchipyH5.v leaves out, and EBSDDetector.pc (detectors/_ebsd_detector.py 459).

    Simplification: a PC is one value, of any type; [half] is (0.5, 0.5, 0.5). Arrays have one or two dimensions, as
    those of detectors have. *)
From Coq Require Import List Arith Bool.
From Verif Require Import Model.Binary Model.KikuchipyH5.
Import ListNotations.
Local Open Scope nat_scope.

Inductive warning := Padding | CouldNotPad.

Section StoredPCs.
Variables (P : Type) (half : P).
Record pc_array := PCs { of_shape : list nat; values : list P; warned : list warning }.

(** np.pad(pc, ((0, ny - r), (0, nx - c), (0, 0)), constant_values=0.5) (147-153). *)
Definition padded (ny nx r c : nat) (pcs : list P) : list P :=
  flat_map (fun i => map (fun j => if (i <? r) && (j <? c) then nth (i * c + j) pcs half else half) (seq 0 nx)) (seq 0 ny).

(** 131-160 and the detector made of it (np.atleast_2d): [s] is the shape of pcx in the file, [pcs] its entries in
    reading order. *)
Definition read_stored_pcs (ny nx : nat) (s : list nat) (pcs : list P) : pc_array :=
  let d := dstack_shape (unwrap_shape s) in
  let '(d, pcs, w) :=
    if 1 <? size_of d then
      if size_of d =? ny * nx then ([ny; nx], pcs, [])
      else
        let r := nth 0 d 0 in let c := nth 1 d 0 in
        (* negative widths: ValueError of np.pad, 154-159 *)
        if (r <=? ny) && (c <=? nx) then ([ny; nx], padded ny nx r c pcs, [Padding])
        else ([1], [half], [Padding; CouldNotPad])
    else (d, pcs, []) in
  PCs (match squeeze_shape d with [] => [1] | q => q end) pcs w.
End StoredPCs.
Arguments PCs {P}. Arguments of_shape {P}. Arguments values {P}. Arguments warned {P}. Arguments read_stored_pcs {P}. Arguments padded {P}.
