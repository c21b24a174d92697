(** Reader of EMsoft master patterns: src/kikuchipy/io/plugins/_emsoft_master_pattern.py and the EBSD, TKD
    and ECP plugins built on it. Energies and intensities are rationals (every finite double is one);
    differences of energies are not rounded. *)
From Coq Require Import String List Arith ZArith QArith Qabs Bool.
Import ListNotations.
Local Open Scope nat_scope.

(** ** NumPy arrays of any dimension: shape and value at an index (one number per axis) *)

Record ndarray := Arr { shape : list nat; at_ : list nat -> Q }.

(** slice(None, None) or slice(lo, hi) with 0 <= lo, hi. *)
Inductive pyslice := All | Range (lo hi : nat).

(** a[slices], one slice per axis. The value of an index without enough entries is never used. *)
Fixpoint sliced_shape (sl : list pyslice) (s : list nat) : list nat :=
  match sl, s with
  | All :: sl', n :: s' => n :: sliced_shape sl' s'
  | Range lo hi :: sl', n :: s' => (Nat.min hi n - lo) :: sliced_shape sl' s'
  | _, _ => s
  end.
Fixpoint sliced_index (sl : list pyslice) (ix : list nat) : list nat :=
  match sl, ix with
  | All :: sl', i :: ix' => i :: sliced_index sl' ix'
  | Range lo _ :: sl', i :: ix' => (lo + i) :: sliced_index sl' ix'
  | _, _ => ix
  end.
Definition read_slices (sl : list pyslice) (a : ndarray) : ndarray :=
  Arr (sliced_shape sl (shape a)) (fun ix => at_ a (sliced_index sl ix)).

(** np.stack of two arrays. *)
Definition stack2 (a b : ndarray) : ndarray :=
  Arr (2 :: shape a) (fun ix => match ix with 0 :: ix' => at_ a ix' | _ :: ix' => at_ b ix' | [] => 0%Q end).

(** a.sum(axis=k) for k = 0 and k = 1. Simplification: exact addition. *)
Definition sum_over (n : nat) (f : nat -> Q) : Q := fold_right Qplus 0%Q (map f (seq 0 n)).
Definition sum_axis0 (a : ndarray) : ndarray :=
  Arr (tl (shape a)) (fun ix => sum_over (hd 0 (shape a)) (fun k => at_ a (k :: ix))).
Definition sum_axis1 (a : ndarray) : ndarray :=
  Arr (match shape a with n :: _ :: s => n :: s | s => s end)
      (fun ix => match ix with
                 | i :: ix' => sum_over (nth 1 (shape a) 0) (fun k => at_ a (i :: k :: ix'))
                 | [] => 0%Q
                 end).

(** a.squeeze(): axes of length 1 disappear. *)
Fixpoint unsqueeze (s ix : list nat) : list nat :=
  match s with
  | [] => []
  | n :: s' => if n =? 1 then 0 :: unsqueeze s' ix
               else match ix with i :: ix' => i :: unsqueeze s' ix' | [] => 0 :: unsqueeze s' [] end
  end.
Definition squeeze (a : ndarray) : ndarray :=
  Arr (filter (fun n => negb (n =? 1)) (shape a)) (fun ix => at_ a (unsqueeze (shape a) ix)).

(** a[..., ::-1, :]; IndexError with fewer than two axes. *)
Definition flip_rows (a : ndarray) : option ndarray :=
  let d := length (shape a) in
  if d <? 2 then None
  else Some (Arr (shape a)
              (fun ix => at_ a (firstn (d - 2) ix ++ [nth (d - 2) (shape a) 0 - 1 - nth (d - 2) ix 0; nth (d - 1) ix 0]))).

(** ** Energy selection *)

(** np.argwhere(p(energies)), flattened. *)
Definition argwhere (p : Q -> bool) (l : list Q) : list nat :=
  filter (fun i => p (nth i l 0%Q)) (seq 0 (length l)).
(** argmin: first index of the smallest value. *)
Fixpoint argmin_from (best : Q) (best_i i : nat) (l : list Q) : nat :=
  match l with
  | [] => best_i
  | x :: l' => if negb (Qle_bool best x) then argmin_from x i (S i) l' else argmin_from best best_i (S i) l'
  end.
Definition argmin (l : list Q) : option nat :=
  match l with [] => None | x :: l' => Some (argmin_from x 0 1 l') end.

(** Argument energy: None, an iterable (lo, hi), or one number. *)
Inductive energy_arg := NoEnergy | EnergyRange (lo hi : Q) | OneEnergy (e : Q).

(** get_data_shape_slices, _emsoft_master_pattern.py 263-305: (data_shape, data_slices), None for the
    IndexError/ValueError of an empty selection. Simplification: i_max - i_min is cut off at 0 (it is only
    compared with 1). *)
Definition get_data_shape_slices (npx : nat) (energies : list Q) (energy : energy_arg) : option (list nat * list pyslice) :=
  let side := npx * 2 + 1 in
  match energy with
  | NoEnergy => Some ([length energies; side; side], [All; All; All])
  | EnergyRange lo hi =>
      match argwhere (fun e => Qle_bool lo e) energies, rev (argwhere (fun e => Qle_bool e hi) energies) with
      | i :: _, j :: _ => let i_max := j + 1 in Some ([i_max - i; side; side], [Range i i_max; All; All])
      | _, _ => None
      end
  | OneEnergy e =>
      match argmin (map (fun x => Qabs (x - e)) energies) with
      | Some index => Some ([1; side; side], [Range index (index + 1); All; All])
      | None => None
      end
  end.

(** ** The file and the reader *)

Inductive diffraction := EBSD | TKD | ECP.
Inductive projection := Stereographic | Lambert.
Inductive hemisphere := Upper | Lower | Both.

(** What is read of the file: program name, npx, energies, Ebinsize, numset and the four datasets
    masterSPNH, masterSPSH, mLPNH, mLPSH. *)
Record file := File { program : string; npx : nat; energies : list Q; ebinsize : Q; numset : nat;
                      masterSPNH : ndarray; masterSPSH : ndarray; mLPNH : ndarray; mLPSH : ndarray }.

Definition diffraction_name (t : diffraction) : string :=
  match t with EBSD => "EBSD" | TKD => "TKD" | ECP => "ECP" end%string.

(** check_file_format, 228-260. *)
Definition check_file_format (t : diffraction) (f : file) : bool :=
  let n := ("EM" ++ diffraction_name t ++ "master")%string in
  ((program f =? n ++ ".f90") || (program f =? n ++ "OpenCL.f90"))%string.

(** get_datasets, 308-324. *)
Definition get_datasets (f : file) (p : projection) (h : hemisphere) : list ndarray :=
  let (nh, sh) := match p with
                  | Stereographic => (masterSPNH f, masterSPSH f)
                  | Lambert => (mLPNH f, mLPSH f)
                  end in
  match h with Both => [nh; sh] | Upper => [nh] | Lower => [sh] end.

Record axis := Axis { ax_size : nat; ax_name : string; ax_scale : Q; ax_offset : Q; ax_units : string }.
Record loaded := Loaded { l_axes : list axis; l_data : ndarray; l_projection : projection; l_hemisphere : hemisphere }.

(** -s // 2 in Python: floor division of the negative number. *)
Definition minus_half (s : nat) : Z := (- Z.of_nat s / 2)%Z.

(** EMsoftMasterPatternReader.read, 70-209. Simplifications: metadata and phase are left out; lazy and
    non-lazy reading give the same values; astype to the type of the summed data is left out. *)
Definition read (t : diffraction) (f : file) (energy : energy_arg) (p : projection) (h : hemisphere) : option loaded :=
  if negb (check_file_format t f) then None else
  match get_data_shape_slices (npx f) (energies f) energy with
  | None => None
  | Some (data_shape, data_slices) =>
      let i_min := match data_slices with Range i _ :: _ => i | _ => 0 end in
      match nth_error (energies f) i_min with
      | None => None
      | Some min_energy =>
          let datasets := get_datasets f p h in
          let summed := match p, t with Lambert, ECP => false | Lambert, _ => true | _, _ => false end in
          let data_slices := if summed then All :: data_slices else data_slices in
          let data_shape := if summed then numset f :: data_shape else data_shape in
          let data_shape := length datasets :: data_shape in
          match datasets with
          | [] => None
          | d0 :: rest =>
              let data := match rest with
                          | d1 :: _ => stack2 (read_slices data_slices d0) (read_slices data_slices d1)
                          | [] => read_slices data_slices d0
                          end in
              let '(data, data_shape) :=
                if summed then
                  match h with
                  | Both => (sum_axis1 data, hd 0 data_shape :: tl (tl data_shape))
                  | _ => (sum_axis0 data, tl data_shape)
                  end
                else (data, data_shape) in
              let data := squeeze data in
              match (match p with Stereographic => flip_rows data | Lambert => Some data end) with
              | None => None
              | Some data =>
                  let ny := nth 0 data_shape 0 in
                  let nx := nth 1 data_shape 0 in
                  let sy := nth 2 data_shape 0 in
                  let sx := nth 3 data_shape 0 in
                  let all := [("hemisphere", 1, 0, ""); ("energy", ebinsize f, min_energy, "keV");
                              ("height", 1, inject_Z (minus_half sy), "px");
                              ("width", 1, inject_Z (minus_half sx), "px")]%string%Q in
                  let dim_idx := (if ny =? 1 then [] else [0]) ++ (if nx =? 1 then [] else [1]) ++ [2; 3] in
                  let axes := map (fun ij : nat * nat =>
                                     let '(n, s, o, u) := nth (snd ij) all (""%string, 0%Q, 0%Q, ""%string) in
                                     Axis (nth (fst ij) (shape data) 0) n s o u)
                                  (combine (seq 0 (length (shape data))) dim_idx) in
                  Some (Loaded axes data p h)
              end
          end
      end
  end.
