(** Simulation of patterns: directions of pixels (property C38) and assignment of rotations and
    projection centers (property C39). *)
From Coq Require Import List Arith ZArith Reals Lra Lia.
From Verif Require Import Model.Detector Model.Rotations Model.Lambert Model.Simulation Spec.DetectorGeometry
  Proofs.DetectorProofs Proofs.DetectorTilt Proofs.LambertProofs Proofs.SimulationProofs Proofs.ListLemmas.
From Verif Require Model.Pattern Model.Intensity Model.Chunking Proofs.ChunkingProofs.
Import ListNotations.
Local Open Scope R_scope.

(** ** Specification *)

Definition n_rows (d : detector) : nat := Z.to_nat (d_ny d).
Definition n_cols (d : detector) : nat := Z.to_nat (d_nx d).
(** Vector, in microns and in the detector's reference frame (to the right, upwards, towards the
    detector), from the source point to the centre of the pixel with the given number, counting pixels
    row by row from the upper left corner. *)
Definition to_pixel_centre (d : detector) (p : pc3) (idx : nat) : vec :=
  let pitch := d_px_size d * d_binning d in
  let source := bruker_position (nrows d) (ncols d) (d_binning d) (d_px_size d) (pcx p) (pcy p) (pcz p) in
  Vec ((INR (idx mod n_cols d) + 1 / 2) * pitch - right_of_left_edge source)
      (below_top_edge source - (INR (idx / n_cols d) + 1 / 2) * pitch)
      (distance source).
(** v, in the sample's reference frame, is the unit vector in this direction. *)
Definition points_at (d : detector) (p : pc3) (idx : nat) (v : vec) : Prop :=
  norm v = 1 /\ exists k, 0 < k /\
    mat_times (sample_to_detector d) v
    = let c := to_pixel_centre d p idx in Vec (k * vx c) (k * vy c) (k * vz c).
(** Pixels selected by a mask (all without a mask), in detector order. *)
Definition pixels (d : detector) (mask : option (list bool)) : list nat :=
  match mask with
  | None => seq 0 (n_rows d * n_cols d)
  | Some m => filter (fun i => nth i m false) (seq 0 (n_rows d * n_cols d))
  end.
(** Directions for PC number i; with one common PC it is that for every i. *)
Definition for_pc (c : cosines) (i : nat) : option (list (option vec)) :=
  match c with OneSet dc => Some dc | PerPC dcs => nth_error dcs i end.

(** Detectors with PCs in front of the detector; one PC for the navigation shape (1,). *)
Definition with_pcs (d : detector) : Prop :=
  valid d /\ Forall (fun p => 0 < pcz p) (pcs (d_pc d)) /\ (nav_shape (d_pc d) = [1%nat] -> length (pcs (d_pc d)) = 1%nat).

(** ** Proofs about directions *)

Definition direction (d : detector) (p : pc3) (idx : nat) : vec := normalise (row_times (raw d p idx) (sample_to_detector d)).

Lemma direction_points d p idx : valid d -> 0 < pcz p -> points_at d p idx (direction d p idx).
Proof.
  intros Hd Hp. pose proof (sample_to_detector_orthonormal (deg2rad (d_sample_tilt d)) (deg2rad (d_tilt d)) (deg2rad (d_azimuthal d)) (deg2rad (d_twist d))) as Ho.
  fold (sample_to_detector d) in Ho.
  destruct (raw_geometry d p Hd Hp idx) as [Hk E]. cbv zeta in E. set (k := / (nrows d * (d_px_size d * d_binning d))) in *.
  pose proof (norm_pos _ (raw_nonzero d p Hp idx)) as Hn. pose proof (row_times_norm _ (raw d p idx) Ho) as En.
  split.
  - unfold direction, norm at 1. rewrite normalise_unit; [apply sqrt_1|].
    pose proof (norm_sq (row_times (raw d p idx) (sample_to_detector d))) as S. rewrite En in S. unfold nonzero.
    destruct (Req_dec (vx (row_times (raw d p idx) (sample_to_detector d))) 0) as [E1|]; [|auto].
    destruct (Req_dec (vy (row_times (raw d p idx) (sample_to_detector d))) 0) as [E2|]; [|auto]. right. right. intros E3.
    rewrite E1, E2, E3 in S. nra.
  - exists (/ norm (raw d p idx) * k). split; [apply Rmult_lt_0_compat; [now apply Rinv_0_lt_compat|exact Hk]|].
    unfold direction, normalise. rewrite En.
    set (w := row_times (raw d p idx) (sample_to_detector d)) in *.
    replace (Vec (vx w / norm (raw d p idx)) (vy w / norm (raw d p idx)) (vz w / norm (raw d p idx)))
      with (Vec (/ norm (raw d p idx) * vx w) (/ norm (raw d p idx) * vy w) (/ norm (raw d p idx) * vz w))
      by (apply vec_ext; cbn [vx vy vz]; unfold Rdiv; ring).
    rewrite mat_times_scale. cbv zeta. unfold w. rewrite undo by exact Ho.
    set (n := / norm (raw d p idx)). rewrite E. unfold to_pixel_centre, bruker_position. cbn [vx vy vz right_of_left_edge below_top_edge distance].
    apply vec_ext; cbn [vx vy vz]; unfold n_cols; ring.
Qed.

Lemma fixed_directions d p mask : valid d -> 0 < pcz p -> (forall m, mask = Some m -> length m = (n_rows d * n_cols d)%nat) ->
  direction_cosines_fixed (gnomonic_bounds d p) (pcz p) (n_rows d) (n_cols d) (transposed (sample_to_detector d))
    (match mask with None => repeat true (n_rows d * n_cols d) | Some m => m end)
  = map (fun idx => Some (direction d p idx)) (pixels d mask).
Proof.
  intros Hd Hp Hm. unfold n_rows, n_cols in *. destruct mask as [m|].
  - now rewrite fixed_eq by auto.
  - rewrite fixed_eq by (auto; apply repeat_length). unfold pixels, direction, n_rows, n_cols.
    set (l := seq 0 (Z.to_nat (d_ny d) * Z.to_nat (d_nx d))).
    assert (E : filter (fun i => nth i (repeat true (Z.to_nat (d_ny d) * Z.to_nat (d_nx d))) false) l = l); [|now rewrite E].
    assert (G : forall i, In i l -> nth i (repeat true (Z.to_nat (d_ny d) * Z.to_nat (d_nx d))) false = true).
    { intros i Hi. apply in_seq in Hi. rewrite (nth_indep _ false true) by (rewrite repeat_length; lia). apply nth_repeat. }
    clearbody l. induction l as [|x l IH]; [reflexivity|]. cbn [filter]. rewrite G by (simpl; auto). f_equal. apply IH. intros i Hi. apply G. simpl; auto.
Qed.
Lemma sets_of_directions d mask i p : with_pcs d -> (forall m, mask = Some m -> length m = (n_rows d * n_cols d)%nat) ->
  nth_error (pcs (d_pc d)) i = Some p ->
  for_pc (direction_cosines d mask) i = Some (map (fun idx => Some (direction d p idx)) (pixels d mask)).
Proof.
  intros (Hd & Hps & H1) Hm Hi. assert (Hp : 0 < pcz p) by (rewrite Forall_forall in Hps; eapply Hps, nth_error_In, Hi).
  assert (V : for_pc (PerPC (direction_cosines_varying (map (gnomonic_bounds d) (pcs (d_pc d))) (map pcz (pcs (d_pc d)))
              (Z.to_nat (d_ny d)) (Z.to_nat (d_nx d)) (transposed (sample_to_detector d))
              (match mask with None => repeat true (Z.to_nat (d_ny d) * Z.to_nat (d_nx d)) | Some m => m end))) i
            = Some (map (fun idx => Some (direction d p idx)) (pixels d mask))).
  { cbn [for_pc]. rewrite varying_eq; auto.
    - rewrite nth_error_map, Hi. cbn [option_map]. f_equal. exact (fixed_directions d p mask Hd Hp Hm).
    - destruct mask as [m|]; [now apply Hm|apply repeat_length]. }
  unfold direction_cosines. destruct (nav_shape (d_pc d)) as [|[|[|n]] [|n' r]]; try exact V.
  specialize (H1 eq_refl). destruct (pcs (d_pc d)) as [|p' [|p'' ps]]; try discriminate.
  destruct i as [|[|i]]; try discriminate. injection Hi as ->. cbn [for_pc]. f_equal. exact (fixed_directions d p mask Hd Hp Hm).
Qed.

(** ** C38 *)

(** For every detector, mask and PC: one direction per selected pixel, in detector order, each the unit
    vector from the source point to the centre of its pixel. *)
Theorem C38_unit_vectors_through_pixel_centres d mask i p :
  with_pcs d -> (forall m, mask = Some m -> length m = (n_rows d * n_cols d)%nat) -> nth_error (pcs (d_pc d)) i = Some p ->
  exists vs, for_pc (direction_cosines d mask) i = Some (map Some vs) /\ Forall2 (points_at d p) (pixels d mask) vs.
Proof.
  intros Hd Hm Hi. exists (map (direction d p) (pixels d mask)). split.
  - rewrite map_map. now apply sets_of_directions.
  - destruct Hd as (Hd & Hps & _). assert (Hp : 0 < pcz p) by (rewrite Forall_forall in Hps; eapply Hps, nth_error_In, Hi).
    induction (pixels d mask) as [|x l IH]; constructor; [now apply direction_points|exact IH].
Qed.
(** This determines the directions. *)
Theorem C38_direction_unique d p idx u v : points_at d p idx u -> points_at d p idx v -> u = v.
Proof.
  intros (Nu & k & Hk & Eu) (Nv & l & Hl & Ev). cbv zeta in *.
  pose proof (sample_to_detector_orthonormal (deg2rad (d_sample_tilt d)) (deg2rad (d_tilt d)) (deg2rad (d_azimuthal d)) (deg2rad (d_twist d))) as Ho.
  fold (sample_to_detector d) in Ho. set (m := sample_to_detector d) in *. clearbody m.
  set (c := to_pixel_centre d p idx) in *. clearbody c.
  (* v = (l / k) u, because the matrix is one to one *)
  assert (I : forall w, mat_times m w = Vec 0 0 0 -> w = Vec 0 0 0).
  { clear - Ho. intros w. destruct m as [[a b c] [d' e f] [g h i]], w as [x y z]. unfold mat_times, orthonormal, dot, triple in *. cbn [r0 r1 r2 vx vy vz] in *.
    destruct Ho as (_ & _ & _ & _ & _ & _ & Ht). intros H. injection H as H1 H2 H3.
    set (D := a * (e * i - f * h) - b * (d' * i - f * g) + c * (d' * h - e * g)) in *.
    assert (X : D * x = (a * x + b * y + c * z) * (e * i - f * h) + (d' * x + e * y + f * z) * (c * h - b * i) + (g * x + h * y + i * z) * (b * f - c * e)) by (unfold D; ring).
    assert (Y : D * y = (a * x + b * y + c * z) * (f * g - d' * i) + (d' * x + e * y + f * z) * (a * i - c * g) + (g * x + h * y + i * z) * (c * d' - a * f)) by (unfold D; ring).
    assert (Z : D * z = (a * x + b * y + c * z) * (d' * h - e * g) + (d' * x + e * y + f * z) * (b * g - a * h) + (g * x + h * y + i * z) * (a * e - b * d')) by (unfold D; ring).
    rewrite H1, H2, H3, Ht in X, Y, Z. apply vec_ext; cbn [vx vy vz]; lra. }
  assert (E : Vec (l * vx u - k * vx v) (l * vy u - k * vy v) (l * vz u - k * vz v) = Vec 0 0 0).
  { apply I. unfold mat_times, dot in *. injection Eu as U1 U2 U3. injection Ev as V1 V2 V3. apply vec_ext; cbn [vx vy vz].
    - transitivity (l * (vx (r0 m) * vx u + vy (r0 m) * vy u + vz (r0 m) * vz u) - k * (vx (r0 m) * vx v + vy (r0 m) * vy v + vz (r0 m) * vz v)); [ring|]. rewrite U1, V1. ring.
    - transitivity (l * (vx (r1 m) * vx u + vy (r1 m) * vy u + vz (r1 m) * vz u) - k * (vx (r1 m) * vx v + vy (r1 m) * vy v + vz (r1 m) * vz v)); [ring|]. rewrite U2, V2. ring.
    - transitivity (l * (vx (r2 m) * vx u + vy (r2 m) * vy u + vz (r2 m) * vz u) - k * (vx (r2 m) * vx v + vy (r2 m) * vy v + vz (r2 m) * vz v)); [ring|]. rewrite U3, V3. ring. }
  injection E as E1 E2 E3.
  pose proof (norm_sq u) as Su. pose proof (norm_sq v) as Sv. rewrite Nu in Su. rewrite Nv in Sv.
  assert (KL : l * l = k * k).
  { transitivity (l * vx u * (l * vx u) + l * vy u * (l * vy u) + l * vz u * (l * vz u)).
    - transitivity (l * l * (vx u * vx u + vy u * vy u + vz u * vz u)); [rewrite <- Su; ring|ring].
    - replace (l * vx u) with (k * vx v) by lra. replace (l * vy u) with (k * vy v) by lra. replace (l * vz u) with (k * vz v) by lra.
      transitivity (k * k * (vx v * vx v + vy v * vy v + vz v * vz v)); [ring|rewrite <- Sv; ring]. }
  assert (l = k) by nra. subst l. apply vec_ext; apply (Rmult_eq_reg_l k); lra.
Qed.

(** ** C39 *)

(** The pattern of a rotation and a PC: intensities looked up in the rotated directions of all pixels,
    stretched to the range of the data type if it is not that of the master pattern. *)
Definition is_pattern_of (mp : master) (t : Intensity.dtype) (d : detector) (q : quat) (p : pc3) (pat : Pattern.pattern) : Prop :=
  exists vs, Forall2 (points_at d p) (pixels d None) vs /\
    let I := map (fun v => pixel_from_master_pattern (upper mp) (lower mp) (npx mp) (rotate_vector q v)) vs in
    pat = map (Intensity.cast t)
            (if Simulation.dtype_eqb t (mp_dtype mp) then I
             else Pattern.rescale_with_min_max (Pattern.vmin I) (Pattern.vmax I) (Intensity.dtype_min t) (Intensity.dtype_max t) I).
Lemma dtype_eqb_eq a b : Simulation.dtype_eqb a b = true <-> a = b.
Proof. destruct a, b; simpl; split; congruence. Qed.

Lemma nav_chunks_length auto n m chunk_shape chunks : (forall specs s i, (1 <= auto specs s i)%nat) ->
  Chunking.get_chunking auto [n; m] 1 1 chunk_shape = Some chunks -> Chunking.axis_length (nth 0 chunks []) = n.
Proof.
  intros Ha E. unfold Chunking.get_chunking in E.
  pose proof (ChunkingProofs.normalize_chunks_shape auto _ _ _ Ha E) as S.
  specialize (S ltac:(rewrite app_length, !repeat_length; reflexivity)).
  destruct chunks as [|c r]; [discriminate|]. cbn [map] in S. injection S as S _. exact S.
Qed.

Section GetPatterns.
Variables (auto : list Chunking.spec -> list nat -> nat -> nat) (mp : master) (rot_shape : list nat) (rotations : list quat)
  (d : detector) (t : Intensity.dtype) (chunk_shape : option nat).
Hypothesis Hauto : forall specs s i, (1 <= auto specs s i)%nat.
Hypothesis Hd : with_pcs d.
Hypothesis Hrot : length rotations = fold_right Nat.mul 1%nat rot_shape.

Definition projected (q : quat) (p : pc3) : Pattern.pattern :=
  project_single mp t (negb (Simulation.dtype_eqb t (mp_dtype mp)))
    (if negb (Simulation.dtype_eqb t (mp_dtype mp)) then Intensity.dtype_min t else 1)
    (if negb (Simulation.dtype_eqb t (mp_dtype mp)) then Intensity.dtype_max t else 2)
    q (map (direction d p) (pixels d None)).
Lemma projected_is_pattern q p : 0 < pcz p -> is_pattern_of mp t d q p (projected q p).
Proof using Hd.
  intros Hp. exists (map (direction d p) (pixels d None)). split.
  - destruct Hd as (Hv & _). induction (pixels d None) as [|x l IH]; constructor; [now apply direction_points|exact IH].
  - unfold projected, project_single. destruct (Simulation.dtype_eqb t (mp_dtype mp)); reflexivity.
Qed.

Lemma get_patterns_flat sh l : get_patterns auto mp rot_shape rotations d t chunk_shape = Some (sh, l) ->
  sh = rot_shape ++ [n_rows d; n_cols d] /\
  l = match direction_cosines d None with
      | OneSet dc => map (fun q => option_map (project_single mp t (negb (Simulation.dtype_eqb t (mp_dtype mp)))
    (if negb (Simulation.dtype_eqb t (mp_dtype mp)) then Intensity.dtype_min t else 1)
    (if negb (Simulation.dtype_eqb t (mp_dtype mp)) then Intensity.dtype_max t else 2) q) (all_some dc)) rotations
      | PerPC dcs => zip_opt (fun q dc => option_map (project_single mp t (negb (Simulation.dtype_eqb t (mp_dtype mp)))
    (if negb (Simulation.dtype_eqb t (mp_dtype mp)) then Intensity.dtype_min t else 1)
    (if negb (Simulation.dtype_eqb t (mp_dtype mp)) then Intensity.dtype_max t else 2) q) (all_some dc)) rotations dcs
      end.
Proof using Hauto Hrot.
  unfold get_patterns. destruct (_ && _)%bool; [discriminate|]. destruct (2 <? length rot_shape)%nat; [discriminate|].
  destruct (Chunking.get_chunking auto _ 1 1 chunk_shape) as [chunks|] eqn:E; [|discriminate].
  apply nav_chunks_length in E; [|exact Hauto]. rewrite <- Hrot in E.
  intros H. injection H as <- <-. split; [reflexivity|].
  destruct (direction_cosines d None) as [dc|dcs].
  - apply blocks_map_concat. now symmetry.
  - apply (zip_opt_blocks (fun q dc => option_map (project_single mp t (negb (Simulation.dtype_eqb t (mp_dtype mp)))
    (if negb (Simulation.dtype_eqb t (mp_dtype mp)) then Intensity.dtype_min t else 1)
    (if negb (Simulation.dtype_eqb t (mp_dtype mp)) then Intensity.dtype_max t else 2) q) (all_some dc)) (nth 0 chunks []) rotations dcs). now symmetry.
Qed.
Lemma all_some_directions p : all_some (map (fun idx => Some (direction d p idx)) (pixels d None)) = Some (map (direction d p) (pixels d None)).
Proof using. apply all_some_map. Qed.

(** One PC per pattern: pattern i is that of rotation i and PC i, for any chunk shape and choice of
    chunks, and the shape is the rotations' followed by the detector's. *)
Theorem C39_pattern_i_uses_rotation_i_and_pc_i sh l i q p :
  nav_shape (d_pc d) <> [1%nat] -> get_patterns auto mp rot_shape rotations d t chunk_shape = Some (sh, l) ->
  nth_error rotations i = Some q -> nth_error (pcs (d_pc d)) i = Some p ->
  sh = rot_shape ++ [n_rows d; n_cols d] /\ length l = length rotations
  /\ exists pat, nth_error l i = Some (Some pat) /\ is_pattern_of mp t d q p pat.
Proof using Hauto Hrot Hd.
  intros Hn E Hq Hp. destruct (get_patterns_flat sh l E) as [Es El]. split; [exact Es|].
  assert (Hpz : 0 < pcz p) by (destruct Hd as (_ & Hps & _); rewrite Forall_forall in Hps; eapply Hps, nth_error_In, Hp).
  pose proof (sets_of_directions d None i p Hd ltac:(discriminate) Hp) as S.
  destruct (direction_cosines d None) as [dc|dcs] eqn:Ec.
  - exfalso. unfold direction_cosines in Ec. destruct (nav_shape (d_pc d)) as [|[|[|n]] [|n' r]]; try discriminate. apply Hn. reflexivity.
  - cbn [for_pc] in S. subst l. split; [unfold zip_opt; now rewrite map_length, seq_length|].
    exists (projected q p). split; [|now apply projected_is_pattern].
    rewrite (zip_opt_nth _ _ _ _ _ _ Hq S). rewrite all_some_directions. reflexivity.
Qed.
(** One common PC: pattern i is that of rotation i and this PC. *)
Theorem C39_common_pc sh l i q p :
  nav_shape (d_pc d) = [1%nat] -> get_patterns auto mp rot_shape rotations d t chunk_shape = Some (sh, l) ->
  nth_error rotations i = Some q -> nth_error (pcs (d_pc d)) 0 = Some p ->
  sh = rot_shape ++ [n_rows d; n_cols d] /\ length l = length rotations
  /\ exists pat, nth_error l i = Some (Some pat) /\ is_pattern_of mp t d q p pat.
Proof using Hauto Hrot Hd.
  intros Hn E Hq Hp. destruct (get_patterns_flat sh l E) as [Es El]. split; [exact Es|].
  assert (Hpz : 0 < pcz p) by (destruct Hd as (_ & Hps & _); rewrite Forall_forall in Hps; eapply Hps, nth_error_In, Hp).
  pose proof (sets_of_directions d None 0 p Hd ltac:(discriminate) Hp) as S.
  destruct (direction_cosines d None) as [dc|dcs] eqn:Ec.
  - cbn [for_pc] in S. injection S as ->. subst l. split; [now rewrite map_length|].
    exists (projected q p). split; [|now apply projected_is_pattern].
    rewrite nth_error_map, Hq. cbn [option_map]. rewrite all_some_directions. reflexivity.
  - exfalso. unfold direction_cosines in Ec. rewrite Hn in Ec. destruct (pcs (d_pc d)); discriminate.
Qed.
(** A pattern for which there is no PC is read from outside the array of directions: its intensities
    are undefined. *)
Theorem C39_rotation_without_pc sh l i q :
  nav_shape (d_pc d) <> [1%nat] -> get_patterns auto mp rot_shape rotations d t chunk_shape = Some (sh, l) ->
  nth_error rotations i = Some q -> (length (pcs (d_pc d)) <= i)%nat ->
  nth_error l i = Some None.
Proof using Hauto Hrot Hd.
  intros Hn E Hq Hp. destruct (get_patterns_flat sh l E) as [Es El].
  assert (Ec : direction_cosines d None = PerPC (direction_cosines_varying (map (gnomonic_bounds d) (pcs (d_pc d))) (map pcz (pcs (d_pc d)))
              (Z.to_nat (d_ny d)) (Z.to_nat (d_nx d)) (transposed (sample_to_detector d)) (repeat true (Z.to_nat (d_ny d) * Z.to_nat (d_nx d))))).
  { unfold direction_cosines. destruct (nav_shape (d_pc d)) as [|[|[|n]] [|n' r]]; try reflexivity. now contradiction Hn. }
  rewrite Ec in El. subst l. eapply zip_opt_out; [exact Hq|]. apply nth_error_None.
  unfold direction_cosines_varying. rewrite !map_length, seq_length. exact Hp.
Qed.

(** Navigation shapes that differ are rejected if the detector's first navigation axis is longer than one ... *)
Theorem C39_shape_mismatch_rejected_partial n r : nav_shape (d_pc d) = n :: r -> (1 < n)%nat -> rot_shape <> n :: r ->
  get_patterns auto mp rot_shape rotations d t chunk_shape = None.
Proof using.
  clear Hauto Hd Hrot.
  intros En Hn Hne. unfold get_patterns. rewrite En. destruct (list_eq_dec Nat.eq_dec rot_shape (n :: r)); [contradiction|].
  cbn [hd negb andb]. destruct (Nat.ltb_spec 1 n); [reflexivity|lia].
Qed.
(** ... and rotations with more than two axes always; ... *)
Theorem C39_too_many_axes_rejected : (2 < length rot_shape)%nat -> get_patterns auto mp rot_shape rotations d t chunk_shape = None.
Proof using.
  clear Hauto Hd Hrot.
  intros H. unfold get_patterns. destruct (_ && _)%bool; [reflexivity|]. destruct (Nat.ltb_spec 2 (length rot_shape)); [reflexivity|lia].
Qed.
(** ... everything else is accepted, in particular any number of rotations for a detector with navigation
    shape (1, n). *)
Theorem C39_accepted : (rot_shape = nav_shape (d_pc d) \/ hd 0%nat (nav_shape (d_pc d)) = 1%nat) -> (length rot_shape <= 2)%nat -> chunk_shape <> Some 0%nat ->
  exists sh l, get_patterns auto mp rot_shape rotations d t chunk_shape = Some (sh, l).
Proof using.
  clear Hauto Hd Hrot.
  intros H Hl Hc. unfold get_patterns.
  replace (negb (if list_eq_dec Nat.eq_dec rot_shape (nav_shape (d_pc d)) then true else false) && (1 <? hd 0%nat (nav_shape (d_pc d)))%nat)%bool with false.
  - replace (2 <? length rot_shape)%nat with false by (symmetry; apply Nat.ltb_ge; lia).
    unfold Chunking.get_chunking, Chunking.normalize_chunks. destruct existsb eqn:E; [|eauto]. exfalso.
    apply existsb_exists in E. destruct E as (s & Hs & Hz). apply in_app_iff in Hs.
    destruct Hs as [Hs|Hs]; apply repeat_spec in Hs; subst s; [|discriminate]. destruct chunk_shape as [[|c]|]; congruence.
  - destruct (list_eq_dec Nat.eq_dec rot_shape (nav_shape (d_pc d))); [reflexivity|]. destruct H as [H|H]; [contradiction|]. rewrite H. reflexivity.
Qed.
End GetPatterns.

(** The claim of an error for every difference of shapes is false: several PCs in navigation shape (1, n)
    and any other number of rotations are accepted, and patterns beyond the n-th are undefined. *)
Theorem C39_shape_mismatch_rejected_refuted : forall auto mp d t n m q, (forall specs s i, (1 <= auto specs s i)%nat) ->
  with_pcs d -> nav_shape (d_pc d) = [1%nat; n] -> length (pcs (d_pc d)) = n -> (n < m)%nat ->
  exists sh l, get_patterns auto mp [m] (repeat q m) d t None = Some (sh, l)
    /\ forall i, (n <= i < m)%nat -> nth_error l i = Some None.
Proof.
  intros auto mp d t n m q Ha Hd Hs Hn Hm.
  destruct (C39_accepted auto mp [m] (repeat q m) d t None) as (sh & l & E); [rewrite Hs; auto|simpl; lia|discriminate|].
  exists sh, l. split; [exact E|]. intros i Hi.
  eapply (C39_rotation_without_pc auto mp [m] (repeat q m) d t None Ha Hd); [rewrite repeat_length; simpl; lia|rewrite Hs; discriminate|exact E| |lia].
  rewrite (nth_error_nth' _ q) by (rewrite repeat_length; lia). now rewrite nth_repeat.
Qed.
(** This happens to a detector with one PC after cropping, which makes its navigation shape (1, 1). *)
Theorem C39_cropped_detector_refuted : forall auto mp d d' p ext t m q, (forall specs s i, (1 <= auto specs s i)%nat) ->
  valid d -> 1 <= d_binning d -> d_pc d = PCArray [1%nat] [p] -> 0 < pcz p -> crop d ext = Some d' -> (1 < m)%nat ->
  exists sh l, get_patterns auto mp [m] (repeat q m) d' t None = Some (sh, l) /\ nth_error l 1 = Some None.
Proof.
  intros auto mp d d' p ext t m q Ha Hd Hb Ep Hp Hc Hm.
  assert (W : with_pcs d' /\ nav_shape (d_pc d') = [1%nat; 1%nat] /\ length (pcs (d_pc d')) = 1%nat).
  { destruct ext as [[[top bottom] left] right]. unfold crop in Hc. destruct Hd as (H1 & H2 & H3 & H4).
    destruct (orb _ _) eqn:Eo; [discriminate|]. injection Hc as <-. apply Bool.orb_false_iff in Eo. destruct Eo as [E1 E2].
    apply Z.leb_gt in E1, E2. unfold with_pcs, valid. cbn [d_ny d_nx d_px_size d_binning d_pc]. rewrite Ep. cbn [nav_shape pcs dstack_shape map length].
    split; [|auto]. split; [|split; [|discriminate]].
    - split; [lia|]. split; [lia|]. split; [exact H3|]. apply (IZR_lt 0). unfold trunc. destruct (Rle_dec 0 (d_binning d)); [|lra].
      pose proof (archimed (d_binning d)) as [Ar _]. assert (1 < up (d_binning d))%Z by (apply lt_IZR; lra). lia.
    - constructor; [|constructor]. cbn [pcz]. assert (0 < nrows d) by (unfold nrows; apply (IZR_lt 0); lia).
      assert (0 < IZR (Z.min bottom (d_ny d) - Z.max top 0)) by (apply (IZR_lt 0); lia).
      apply Rdiv_lt_0_compat; [now apply Rmult_lt_0_compat|auto]. }
  destruct W as (W & Ws & Wl).
  destruct (C39_shape_mismatch_rejected_refuted auto mp d' t 1 m q Ha W Ws Wl Hm) as (sh & l & E & H).
  exists sh, l. split; [exact E|]. apply H. lia.
Qed.

(** ** C38 continued: one common PC and the same PC repeated for each pattern give the same patterns. *)
Theorem C38_fixed_and_varying_pc_agree auto auto' mp rot_shape rotations d p t chunk_shape chunk_shape' sh l sh' l' :
  (forall specs s i, (1 <= auto specs s i)%nat) -> (forall specs s i, (1 <= auto' specs s i)%nat) -> valid d -> 0 < pcz p ->
  length rotations = fold_right Nat.mul 1%nat rot_shape -> rot_shape <> [1%nat] ->
  get_patterns auto mp rot_shape rotations (with_pc d (PCArray [1%nat] [p])) t chunk_shape = Some (sh, l) ->
  get_patterns auto' mp rot_shape rotations (with_pc d (PCArray rot_shape (repeat p (length rotations)))) t chunk_shape' = Some (sh', l') ->
  sh = sh' /\ l = l'.
Proof.
  intros Ha Ha' Hd Hp Hl Hne E E'.
  set (d1 := with_pc d (PCArray [1%nat] [p])) in *. set (d2 := with_pc d (PCArray rot_shape (repeat p (length rotations)))) in *.
  assert (W1 : with_pcs d1) by (split; [exact Hd|split; [repeat constructor; exact Hp|reflexivity]]).
  assert (W2 : with_pcs d2).
  { split; [exact Hd|]. split; [|intros; contradiction]. apply Forall_forall. intros x Hx. apply repeat_spec in Hx. now subst x. }
  destruct (get_patterns_flat auto mp rot_shape rotations d1 t chunk_shape Ha Hl sh l E) as [Es El].
  destruct (get_patterns_flat auto' mp rot_shape rotations d2 t chunk_shape' Ha' Hl sh' l' E') as [Es' El'].
  split; [rewrite Es, Es'; reflexivity|].
  assert (Ln : length l = length rotations).
  { subst l. destruct (direction_cosines d1 None); [now rewrite map_length|unfold zip_opt; now rewrite map_length, seq_length]. }
  assert (Ln' : length l' = length rotations).
  { subst l'. destruct (direction_cosines d2 None); [now rewrite map_length|unfold zip_opt; now rewrite map_length, seq_length]. }
  apply (nth_ext _ _ None None); [congruence|]. intros i Hi. rewrite Ln in Hi.
  destruct (nth_error rotations i) as [q|] eqn:Hq; [|apply nth_error_None in Hq; lia].
  assert (Hp2 : nth_error (pcs (d_pc d2)) i = Some p).
  { cbn [d2 with_pc d_pc pcs]. rewrite (nth_error_nth' _ p) by (rewrite repeat_length; lia). now rewrite nth_repeat. }
  destruct (C39_common_pc auto mp rot_shape rotations d1 t chunk_shape Ha W1 Hl sh l i q p eq_refl E Hq eq_refl) as (_ & _ & pat & N1 & vs & F1 & P1).
  destruct (C39_pattern_i_uses_rotation_i_and_pc_i auto' mp rot_shape rotations d2 t chunk_shape' Ha' W2 Hl sh' l' i q p Hne E' Hq Hp2) as (_ & _ & pat' & N2 & vs' & F2 & P2).
  rewrite (nth_error_nth _ _ None N1), (nth_error_nth _ _ None N2). f_equal.
  assert (V : vs = vs').
  { change (pixels d1 None) with (pixels d None) in F1. change (pixels d2 None) with (pixels d None) in F2.
    clear P1 P2 N1 N2. revert vs vs' F1 F2. induction (pixels d None) as [|x xs IH]; intros vs vs' F1 F2.
    - inversion F1. inversion F2. reflexivity.
    - inversion F1 as [|? v ? vr A B]. inversion F2 as [|? v' ? vr' A' B']. subst. f_equal; [|now apply IH].
      apply (C38_direction_unique d p x); assumption. }
  subst vs'. rewrite P1, P2. reflexivity.
Qed.

(** A 60 x 80 detector with two PCs, a mask, and patterns for two rotations. *)
Definition example_detector : detector := Det 60 80 70 8 0 0 0 70 (PCArray [2%nat] [PC (1/2) (1/4) (1/2); PC (2/5) (1/4) (3/5)]).
Example example_detector_ok : with_pcs example_detector.
Proof.
  split; [|split; [repeat constructor; cbn; lra|discriminate]]. unfold valid, example_detector. cbn [d_ny d_nx d_px_size d_binning].
  repeat split; try lia; lra.
Qed.
Example example_accepted mp : exists sh l,
  get_patterns (fun _ _ _ => 1%nat) mp [2%nat] [Quat 1 0 0 0; Quat 0 1 0 0] example_detector Intensity.Float32 None = Some (sh, l).
Proof. apply C39_accepted; [left; reflexivity|simpl; lia|discriminate]. Qed.
Example example_mask : pixels (Det 2 3 1 1 0 0 0 0 (PCArray [1%nat] [PC 0 0 1])) (Some [true; false; false; false; true; true]) = [0; 4; 5]%nat.
Proof. reflexivity. Qed.

Print Assumptions C38_unit_vectors_through_pixel_centres.
Print Assumptions C38_fixed_and_varying_pc_agree.
Print Assumptions C39_pattern_i_uses_rotation_i_and_pc_i.
Print Assumptions C39_cropped_detector_refuted.
