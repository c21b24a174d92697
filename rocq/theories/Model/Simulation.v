(** Simulating patterns from a master pattern: direction cosines
    (signals/util/_master_pattern.py, lines 83-295), projection of patterns (298-527) and
    EBSDMasterPattern.get_patterns (signals/ebsd_master_pattern.py, lines 190-318).

    Simplifications: real numbers; the orix conversions between matrix and quaternion in
    "(~detector.sample_to_detector).to_matrix()" are taken to be exact, so that this is the transposed
    matrix; an index outside an array, which compiled code does not check, is None; the list of
    rotations is flat with a shape; progress bar, axes, crystal map and lazy flag are left out. *)
From Coq Require Import List Arith ZArith Reals.
From Verif Require Import Model.Detector Model.Rotations Model.Lambert.
From Verif Require Model.Pattern Model.Intensity Model.Chunking.
Import ListNotations.
Local Open Scope R_scope.

(** ** Direction cosines *)

Definition ceil (x : R) : Z := (- (up (- x) - 1))%Z.
(** np.arange(start, stop, step)[k]: there are ceil((stop - start) / step) elements *)
Definition arange (start stop step : R) (k : nat) : option R :=
  if (Z.of_nat k <? ceil ((stop - start) / step))%Z then Some (start + INR k * step) else None.

Record bounds := Bounds { b_xmin : R; b_xmax : R; b_ymin : R; b_ymax : R }.
(** gnomonic_bounds (detectors/_ebsd_detector.py 811-818, _utils/_gnonomic_bounds.py 25-65), for one PC *)
Definition gnomonic_bounds (d : detector) (p : pc3) : bounds :=
  Bounds (x_min d p) (x_max d p) (y_min d p) (y_max d p).

Definition transposed (m : mat) : mat :=
  Mat (Vec (vx (r0 m)) (vx (r1 m)) (vx (r2 m))) (Vec (vy (r0 m)) (vy (r1 m)) (vy (r2 m))) (Vec (vz (r0 m)) (vz (r1 m)) (vz (r2 m))).
(** np.dot(v, m) of a row vector *)
Definition row_times (v : vec) (m : mat) : vec :=
  Vec (vx v * vx (r0 m) + vy v * vx (r1 m) + vz v * vx (r2 m))
      (vx v * vy (r0 m) + vy v * vy (r1 m) + vz v * vy (r2 m))
      (vx v * vz (r0 m) + vy v * vz (r1 m) + vz v * vz (r2 m)).

(** np.arange(nrows * ncols)[signal_mask] *)
Definition idx_1d (nrows ncols : nat) (mask : list bool) : list nat := select mask (seq 0 (nrows * ncols)).

(** _get_direction_cosines_for_fixed_pc (133-204) *)
Definition direction_cosines_fixed (b : bounds) (pcz : R) (nrows ncols : nat) (om : mat) (mask : list bool)
    : list (option vec) :=
  let x_scale := (b_xmax b - b_xmin b) / INR ncols in
  let y_scale := (b_ymax b - b_ymin b) / INR nrows in
  map (fun idx =>
      match arange (b_xmin b) (b_xmax b) x_scale (idx mod ncols), arange (b_ymax b) (b_ymin b) (- y_scale) (idx / ncols) with
      | Some gx, Some gy =>
          Some (normalise (row_times (Vec ((gx + x_scale / 2) * pcz) ((gy - y_scale / 2) * pcz) pcz) (transposed om)))
      | _, _ => None
      end)
    (idx_1d nrows ncols mask).

(** _get_direction_cosines_for_varying_pc (216-295) *)
Definition direction_cosines_varying (bs : list bounds) (pczs : list R) (nrows ncols : nat) (om : mat) (mask : list bool)
    : list (list (option vec)) :=
  let idx := idx_1d nrows ncols mask in
  let om_row := transposed om in
  let r_g_array :=
    map (fun i =>
        match nth_error bs i, nth_error pczs i with
        | Some b, Some pcz =>
            let x_scale := (b_xmax b - b_xmin b) / INR ncols in
            let y_scale := (b_ymax b - b_ymin b) / INR nrows in
            map (fun j =>
                match arange (b_xmin b) (b_xmax b) x_scale (j mod ncols), arange (b_ymax b) (b_ymin b) (- y_scale) (j / ncols) with
                | Some gx, Some gy =>
                    Some (row_times (Vec ((gx + x_scale / 2) * pcz) ((gy - y_scale / 2) * pcz) pcz) om_row)
                | _, _ => None
                end) idx
        | _, _ => map (fun _ => None) idx
        end)
      (seq 0 (length pczs)) in
  map (map (option_map normalise)) r_g_array.

Inductive cosines := OneSet (dc : list (option vec)) | PerPC (dcs : list (list (option vec))).
(** _get_direction_cosines_from_detector (83-124).  A navigation shape (1,) with another number of PCs
    than one does not occur. *)
Definition direction_cosines (d : detector) (signal_mask : option (list bool)) : cosines :=
  let ny := Z.to_nat (d_ny d) in
  let nx := Z.to_nat (d_nx d) in
  let om := transposed (sample_to_detector d) in
  let mask := match signal_mask with None => repeat true (ny * nx) | Some m => m end in
  match nav_shape (d_pc d), pcs (d_pc d) with
  | [1%nat], p :: _ => OneSet (direction_cosines_fixed (gnomonic_bounds d p) (pcz p) ny nx om mask)
  | _, ps => PerPC (direction_cosines_varying (map (gnomonic_bounds d) ps) (map pcz ps) ny nx om mask)
  end.

(** ** Projection *)

Fixpoint all_some {A} (l : list (option A)) : option (list A) :=
  match l with
  | [] => Some []
  | Some a :: r => option_map (cons a) (all_some r)
  | None :: _ => None
  end.

(** Master pattern (two hemispheres of npx * npx pixels) and how intensities are given out. *)
Record master := Master { upper : Z -> Z -> R; lower : Z -> Z -> R; npx : Z; mp_dtype : Intensity.dtype }.

(** _project_single_pattern_from_master_pattern (449-527) *)
Definition project_single (mp : master) (dtype_out : Intensity.dtype) (rescale : bool) (out_min out_max : R)
    (q : quat) (dc : list vec) : Pattern.pattern :=
  let pattern := map (fun v => pixel_from_master_pattern (upper mp) (lower mp) (npx mp) (rotate_vector q v)) dc in
  let pattern :=
    if rescale then Pattern.rescale_with_min_max (Pattern.vmin pattern) (Pattern.vmax pattern) out_min out_max pattern
    else pattern in
  map (Intensity.cast dtype_out) pattern.

(** da.from_array(..., chunks), rechunk and slicing along the first axis: consecutive blocks *)
Fixpoint blocks {A} (cs : list nat) (l : list A) : list (list A) :=
  match cs with [] => [] | c :: r => firstn c l :: blocks r (skipn c l) end.

(** Data types are compared by "!=". *)
Definition dtype_eqb (a b : Intensity.dtype) : bool :=
  match a, b with
  | Intensity.UInt8, Intensity.UInt8 | Intensity.UInt16, Intensity.UInt16 | Intensity.UInt32, Intensity.UInt32
  | Intensity.Int8, Intensity.Int8 | Intensity.Int16, Intensity.Int16 | Intensity.Int32, Intensity.Int32
  | Intensity.Float32, Intensity.Float32 | Intensity.Float64, Intensity.Float64 => true
  | _, _ => false
  end.

(** get_patterns.  [auto]: see Model/Chunking.v.  None: ValueError. *)
Definition get_patterns auto (mp : master) (rot_shape : list nat) (rotations : list quat) (d : detector)
    (dtype_out : Intensity.dtype) (chunk_shape : option nat) : option (list nat * list (option Pattern.pattern)) :=
  let det_shape := nav_shape (d_pc d) in
  if (negb (if list_eq_dec Nat.eq_dec rot_shape det_shape then true else false) && (1 <? hd 0 det_shape))%nat%bool then None
  else if (2 <? length rot_shape)%nat then None
  else
    let nav_size := fold_right Nat.mul 1%nat rot_shape in
    let sig_size := (Z.to_nat (d_ny d) * Z.to_nat (d_nx d))%nat in
    match Chunking.get_chunking auto [nav_size; sig_size] 1 1 chunk_shape with
    | None => None
    | Some chunks =>
        let nav_chunks := nth 0 chunks [] in
        let rescale := negb (dtype_eqb dtype_out (mp_dtype mp)) in
        let out_min := if rescale then Intensity.dtype_min dtype_out else 1 in
        let out_max := if rescale then Intensity.dtype_max dtype_out else 2 in
        let project := project_single mp dtype_out rescale out_min out_max in
        let simulated :=
          match direction_cosines d None with
          | OneSet dc =>
              (* map_blocks(_project_patterns_from_master_pattern_with_fixed_pc, rot), 299-370 *)
              map (fun rots => map (fun q => option_map (project q) (all_some dc)) rots) (blocks nav_chunks rotations)
          | PerPC dcs =>
              (* map_blocks(_project_patterns_from_master_pattern_with_varying_pc, rot, dc), 374-445; dc was
                 declared to have nav_size sets *)
              map (fun rots_dcs =>
                  map (fun i =>
                      match nth_error (fst rots_dcs) i, nth_error (snd rots_dcs) i with
                      | Some q, Some dc => option_map (project q) (all_some dc)
                      | _, _ => None
                      end) (seq 0 (length (fst rots_dcs))))
                (combine (blocks nav_chunks rotations) (blocks nav_chunks dcs))
          end in
        (* simulated.reshape(nav_shape + sig_shape) *)
        Some (rot_shape ++ [Z.to_nat (d_ny d); Z.to_nat (d_nx d)], concat simulated)
    end.
