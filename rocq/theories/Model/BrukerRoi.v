(** Maps read from Bruker Nano h5ebsd files: src/kikuchipy/io/plugins/bruker_h5ebsd/_api.py and get_data in
    src/kikuchipy/io/plugins/_h5ebsd.py. A dataset of patterns is a list of patterns, each the list of its pixels.
    Metadata, lazy reading (same data) and arrays of one beam index, which are read as scalars, are left out. *)
From Coq Require Import List Arith ZArith Bool.
From Verif Require Import Model.Binary Model.Sorting.
Import ListNotations.
Local Open Scope Z_scope.

(** _bruker_roi_is_rectangular, bruker_h5ebsd/_api.py 187-198; None for an empty array. *)
Definition roi_is_rectangular (iy ix : list Z) : option (nat * nat * bool) :=
  let ok := forallb (fun d => d =? 1) (diff (unique iy)) && forallb (fun d => d =? 1) (diff (unique ix)) &&
    (length (unique (unique_counts iy)) =? 1)%nat && (length (unique (unique_counts ix)) =? 1)%nat in
  let? y1 := maximum iy in let? y0 := minimum iy in let? x1 := maximum ix in let? x0 := minimum ix in
  Some (Z.to_nat (y1 - y0 + 1), Z.to_nat (x1 - x0 + 1), ok).

(** Map shape and indices of patterns in it, 98-118: from the beam indices if there are any, else as given. ValueError
    (None) if the region is not accepted. *)
Definition map_of (roi : option (list Z * list Z)) (nrows ncols : nat) : option (nat * nat * option (list nat)) :=
  match roi with
  | None => Some (nrows, ncols, None)
  | Some (iy, ix) =>
    let? r := roi_is_rectangular iy ix in
    let '(ny, nx, ok) := r in
    if negb ok || negb (length iy =? length ix)%nat then None else
    let? y0 := minimum iy in let? x0 := minimum ix in
    let keys := map (fun p : Z * Z => (fst p - y0) * Z.of_nat nx + (snd p - x0)) (combine iy ix) in   (* np.ravel_multi_index *)
    Some (ny, nx, Some (argsort keys))
  end.

Fixpoint take_all {A} (l : list A) (idx : list nat) : option (list A) :=
  match idx with [] => Some [] | i :: r => let? x := nth_error l i in let? r' := take_all l r in Some (x :: r') end.

(** H5EBSDReader.get_data, _h5ebsd.py 303-372: reorder, reshape and squeeze; zeros are appended if there are too few pixels. *)
Definition get_data (patterns : list (list Z)) (ny nx sy sx : nat) (indices : option (list nat)) : option nd :=
  let? data := match indices with None => Some patterns | Some idx => take_all patterns idx end in
  let flat := concat data in
  let total := (ny * nx * sy * sx)%nat in
  if (length flat =? total)%nat then Some (squeeze (Nd [ny; nx; sy; sx] flat))
  else if (total <? length flat)%nat then None
  else Some (Nd [ny; nx; sy; sx] (flat ++ repeat 0 (total - length flat))).

(** Projection centres, 167-183: one for all patterns, or one for each in the order of the file, given the shape of the
    map (ValueError if their numbers differ). *)
Definition get_pcs {PC} (pcs : list PC) (ny nx : nat) : option (list nat * list PC) :=
  if (1 <? length pcs)%nat then if (length pcs =? ny * nx)%nat then Some ([ny; nx], pcs) else None else Some ([1%nat], pcs).

(** scan2dict, 55-185. *)
Definition read_map {PC} (roi : option (list Z * list Z)) (nrows ncols sy sx : nat) (patterns : list (list Z)) (pcs : list PC)
  : option (nd * (list nat * list PC)) :=
  let? m := map_of roi nrows ncols in
  let '(ny, nx, indices) := m in
  let? data := get_data patterns ny nx sy sx indices in
  let? pc := get_pcs pcs ny nx in
  Some (data, pc).
