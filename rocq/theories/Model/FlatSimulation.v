(** Simulation of patterns without contrast: signals/util/_master_pattern.py
    _project_single_pattern_from_master_pattern (lines 448-527) and EBSDMasterPattern.get_patterns
    (signals/ebsd_master_pattern.py 190-318).

    As in Model/Simulation.v, here with the outcome of a division by zero (Model/FlatPatterns.v).
    Simplifications: real numbers instead of floats, and those listed in Model/Simulation.v. *)
From Coq Require Import List Arith ZArith Reals Bool.
From Verif Require Import Model.Detector Model.Rotations Model.Lambert Model.Simulation Model.FlatPatterns.
From Verif Require Model.Pattern Model.Intensity Model.Chunking.
Import ListNotations.
Local Open Scope R_scope.

(** _project_single_pattern_from_master_pattern (448-527): the intensities are rescaled at the end (521-525), if at all. *)
Definition project_shown (mp : master) (dtype_out : Intensity.dtype) (rescale : bool) (out_min out_max : R)
    (q : quat) (dc : list vec) : list (option R) :=
  let pattern := map (fun v => pixel_from_master_pattern (upper mp) (lower mp) (npx mp) (rotate_vector q v)) dc in
  let pattern :=
    if rescale then rescaled (Pattern.vmin pattern) (Pattern.vmax pattern) out_min out_max pattern
    else map Some pattern in
  map (option_map (Intensity.cast dtype_out)) pattern.

(** get_patterns (190-318).  None: ValueError; a pattern is None if there is no PC for it (C39). *)
Definition patterns_shown auto (mp : master) (rot_shape : list nat) (rotations : list quat) (d : detector)
    (dtype_out : Intensity.dtype) (chunk_shape : option nat) : option (list nat * list (option (list (option R)))) :=
  let det_shape := nav_shape (d_pc d) in
  if (negb (if list_eq_dec Nat.eq_dec rot_shape det_shape then true else false) && (1 <? hd 0 det_shape))%nat%bool then None
  else if (2 <? length rot_shape)%nat then None
  else
    let nav_size := fold_right Nat.mul 1%nat rot_shape in
    let sig_size := (Z.to_nat (d_ny d) * Z.to_nat (d_nx d))%nat in
    match Chunking.get_chunking auto [nav_size; sig_size] 1 1 chunk_shape with
    | None => None
    | Some chunks =>
        let nav_chunks := nth 0 chunks [] in
        (* 223-231 *)
        let rescale := negb (dtype_eqb dtype_out (mp_dtype mp)) in
        let out_min := if rescale then Intensity.dtype_min dtype_out else 1 in
        let out_max := if rescale then Intensity.dtype_max dtype_out else 2 in
        let project := project_shown mp dtype_out rescale out_min out_max in
        let simulated :=
          match direction_cosines d None with
          | OneSet dc =>
              map (fun rots => map (fun q => option_map (project q) (all_some dc)) rots) (blocks nav_chunks rotations)
          | PerPC dcs =>
              map (fun rots_dcs =>
                  map (fun i =>
                      match nth_error (fst rots_dcs) i, nth_error (snd rots_dcs) i with
                      | Some q, Some dc => option_map (project q) (all_some dc)
                      | _, _ => None
                      end) (seq 0 (length (fst rots_dcs))))
                (combine (blocks nav_chunks rotations) (blocks nav_chunks dcs))
          end in
        Some (rot_shape ++ [Z.to_nat (d_ny d); Z.to_nat (d_nx d)], concat simulated)
    end.
