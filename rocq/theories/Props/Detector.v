(** EBSD detector geometry: properties C09-C15, C53, C54. *)
From Coq Require Import String.
From Coq Require Import ZArith Reals List Lra Lia.
From Verif Require Import Spec.DetectorGeometry Spec.Rotation Model.Detector
  Proofs.ListLemmas Proofs.DetectorProofs Proofs.DetectorTilt.
Import ListNotations.
Open Scope R_scope.

(** A concrete detector, used to show that hypotheses can be met. *)
Definition det60x80 : detector :=
  Det 60 80 59.2 8 0 0 0 70 (PCArray [2%nat] [PC 0.4 0.2 0.6; PC 0.7 0.8 0.5]).
Example det60x80_valid : valid det60x80.
Proof. unfold valid; simpl. repeat split; lia || lra. Qed.

(** ** C09 *)

(** A PC converted to Bruker's convention is at the place the documentation gives for the
    original convention. *)
Theorem C09_to_bruker_keeps_position :
  forall d name pos p q, valid d ->
    In (name, pos) documented_conventions -> to_bruker name d p = Some q ->
    bruker_position (nrows d) (ncols d) (d_binning d) (d_px_size d) (pcx q) (pcy q) (pcz q)
    = pos (nrows d) (ncols d) (d_binning d) (d_px_size d) (pcx p) (pcy p) (pcz p).
Proof. intros d name pos p q Hv. exact (to_bruker_position d Hv name pos p q). Qed.
Print Assumptions C09_to_bruker_keeps_position.

(** Conversions with any accepted name are inverse to each other. *)
Theorem C09_conventions_inverse :
  forall d name p q, valid d ->
    (to_bruker name d p = Some q <-> from_bruker name d q = Some p).
Proof. intros d name p q Hv. split; [apply from_to|apply to_from]; exact Hv. Qed.
Print Assumptions C09_conventions_inverse.

(** A detector created with PCs in a convention reports the same PCs in it. *)
Theorem C09_detector_reports_given_pcs :
  forall ny nx px b ti az tw st pc name d,
    (1 <= ny)%Z -> (1 <= nx)%Z -> 0 < px -> 0 < b ->
    new_detector ny nx px b ti az tw st pc name = Some d ->
    detector_pc_in name d = Some pc.
Proof. exact new_detector_pc_in. Qed.
Print Assumptions C09_detector_reports_given_pcs.

(** From one convention to another: the place is the same in both. *)
Theorem C09_between_conventions :
  forall d name1 pos1 name2 pos2 p q r, valid d ->
    In (name1, pos1) documented_conventions -> In (name2, pos2) documented_conventions ->
    to_bruker name1 d p = Some q -> from_bruker name2 d q = Some r ->
    pos1 (nrows d) (ncols d) (d_binning d) (d_px_size d) (pcx p) (pcy p) (pcz p)
    = pos2 (nrows d) (ncols d) (d_binning d) (d_px_size d) (pcx r) (pcy r) (pcz r).
Proof.
  intros d n1 p1 n2 p2 p q r Hv H1 H2 H3 H4.
  rewrite <- (C09_to_bruker_keeps_position d n1 p1 p q Hv H1 H3).
  apply (C09_conventions_inverse d n2 r q Hv) in H4.
  exact (C09_to_bruker_keeps_position d n2 p2 r q Hv H2 H4).
Qed.

(** All documented names are accepted, whatever their case. *)
Theorem C09_documented_names_accepted :
  forall d name pos p, In (name, pos) documented_conventions -> exists q, to_bruker name d p = Some q.
Proof.
  intros d name pos p H. unfold documented_conventions in H. simpl in H.
  repeat (destruct H as [H|H]; [injection H as <- <-; eexists; reflexivity|]). contradiction.
Qed.
Lemma lower_ascii_idem c : lower_ascii (lower_ascii c) = lower_ascii c.
Proof. destruct c as [[] [] [] [] [] [] [] []]; reflexivity. Qed.
Theorem C09_names_case_insensitive :
  forall s, get_pc_convention (lower s) = get_pc_convention s.
Proof.
  intros s. unfold get_pc_convention. replace (lower (lower s)) with (lower s); [reflexivity|].
  symmetry. induction s as [|c s IH]; simpl; [reflexivity|]. rewrite IH, lower_ascii_idem. reflexivity.
Qed.

Example C09_case : exists q, to_bruker "EMsoft4" det60x80 (PC (-64) 144 17049.6) = Some q
  /\ pcx q = 0.4 /\ pcy q = 0.2 /\ pcz q = 0.6.
Proof.
  exists (pc_emsoft2bruker 4 det60x80 (PC (-64) 144 17049.6)). split; [reflexivity|].
  unfold pc_emsoft2bruker, ncols, nrows, det60x80; simpl. repeat split; lra.
Qed.

(** ** C10 *)

Theorem C10_pixel_gnomonic_inverse :
  forall d p yx, valid d -> pcz p <> 0 ->
    to_pixel d p (to_gnomonic d p yx) = yx /\ to_gnomonic d p (to_pixel d p yx) = yx.
Proof. intros. split; [apply pixel_gnomonic|apply gnomonic_pixel]; assumption. Qed.
Print Assumptions C10_pixel_gnomonic_inverse.

(** The conversion is the geometric one: offsets from the PC in units of its distance. *)
Theorem C10_to_gnomonic_is_geometric :
  forall d p y x, valid d -> pcz p <> 0 ->
    let pos := bruker_position (nrows d) (ncols d) (d_binning d) (d_px_size d) (pcx p) (pcy p) (pcz p) in
    let px := d_binning d * d_px_size d in
    to_gnomonic d p (y, x) = (gnomonic_y pos (y * px), gnomonic_x pos (x * px)).
Proof. exact to_gnomonic_geometry. Qed.

(** Corners and projection center. *)
Theorem C10_anchors :
  forall d p, valid d -> pcz p <> 0 ->
    to_gnomonic d p (0, 0) = (y_max d p, x_min d p) /\
    to_gnomonic d p (nrows d, ncols d) = (y_min d p, x_max d p) /\
    to_gnomonic d p (pcy p * nrows d, pcx p * ncols d) = (0, 0).
Proof.
  intros d p Hv Hz. destruct (valid_pos d Hv).
  unfold to_gnomonic, apply_factors, pix_to_gn, y_min, y_max, x_min, x_max, aspect_ratio; cbn [fst snd m_x c_x m_y c_y].
  repeat split; f_equal; field; repeat split; lra.
Qed.

(** The array version: a set of points converted for all PCs and converted back is that
    set of points for each PC. *)
Theorem C10_arrays_round_trip :
  forall d l gn, valid d -> (forall p, In p (pcs (d_pc d)) -> pcz p <> 0) ->
    to_gnomonic_coords d (Shared l) = PerPC gn ->
    to_pixel_coords d (Stacked gn) = PerPC (map (fun _ => l) (pcs (d_pc d))).
Proof.
  intros d l gn Hv Hz H. unfold to_gnomonic_coords, to_pixel_coords in *.
  eapply convert_roundtrip; [|exact H]. intros p Hp yx. apply (pixel_gnomonic d p yx Hv). auto.
Qed.
Example C10_case : forall p, In p (pcs (d_pc det60x80)) -> pcz p <> 0.
Proof. simpl. intros p [<-|[<-|[]]]; simpl; lra. Qed.

(** ** C11 *)

(** Every point of the cropped detector keeps its gnomonic coordinates. *)
Theorem C11_crop_keeps_gnomonic_coordinates :
  forall d top bottom left right d' i p p' y x,
    valid d ->
    (0 <= top)%Z -> (bottom <= d_ny d)%Z -> (0 <= left)%Z -> (right <= d_nx d)%Z ->
    crop d (top, bottom, left, right) = Some d' ->
    nth_error (pcs (d_pc d)) i = Some p -> nth_error (pcs (d_pc d')) i = Some p' ->
    pcz p <> 0 ->
    to_gnomonic d' p' (y, x) = to_gnomonic d p (y + IZR top, x + IZR left).
Proof. exact crop_gnomonic. Qed.
Print Assumptions C11_crop_keeps_gnomonic_coordinates.

(** Shape and kept attributes; the number of PCs does not change. *)
Theorem C11_crop_shape_and_attributes :
  forall d top bottom left right d',
    (0 <= top)%Z -> (bottom <= d_ny d)%Z -> (0 <= left)%Z -> (right <= d_nx d)%Z ->
    crop d (top, bottom, left, right) = Some d' ->
    d_ny d' = (bottom - top)%Z /\ d_nx d' = (right - left)%Z /\
    d_px_size d' = d_px_size d /\ d_tilt d' = d_tilt d /\
    d_azimuthal d' = d_azimuthal d /\ d_sample_tilt d' = d_sample_tilt d /\
    length (pcs (d_pc d')) = length (pcs (d_pc d)).
Proof.
  intros d t b l r d' H1 H2 H3 H4 Hc.
  destruct (crop_inside _ _ _ _ _ _ H1 H2 H3 H4 Hc) as (_ & _ & E1 & E2 & E3 & E4 & E5 & E6 & _ & _ & _ & E7).
  rewrite E7, map_length. repeat split; assumption.
Qed.

(** So is a whole binning factor ... *)
Theorem C11_crop_keeps_binning :
  forall d e d' b, crop d e = Some d' -> d_binning d = IZR b -> d_binning d' = d_binning d.
Proof.
  intros d [[[t b'] l] r] d' b H E. unfold crop in H. destruct (orb _ _); [discriminate H|]. injection H as <-.
  cbn [d_binning]. rewrite E, trunc_IZR. reflexivity.
Qed.
(** ... but not another one, which a detector has after its signal was rebinned by such a factor. *)
Theorem C11_crop_keeps_fractional_binning_refuted :
  forall d e d', crop d e = Some d' -> (forall b, d_binning d <> IZR b) -> d_binning d' <> d_binning d.
Proof.
  intros d [[[t b'] l] r] d' H N E. unfold crop in H. destruct (orb _ _); [discriminate H|]. injection H as <-.
  cbn [d_binning] in E. exact (N _ (eq_sym E)).
Qed.

(** Cropping succeeds for every extent with at least one pixel. *)
Theorem C11_crop_succeeds :
  forall d top bottom left right,
    (0 <= top < bottom)%Z -> (bottom <= d_ny d)%Z -> (0 <= left < right)%Z -> (right <= d_nx d)%Z ->
    exists d', crop d (top, bottom, left, right) = Some d'.
Proof.
  intros d t b l r H1 H2 H3 H4. unfold crop.
  rewrite (Z.max_l t 0), (Z.max_l l 0), (Z.min_l b), (Z.min_l r) by lia.
  destruct (Z.leb_spec (b - t) 0); [lia|]. destruct (Z.leb_spec (r - l) 0); [lia|]. simpl. eauto.
Qed.

Theorem C11_crop_composes :
  forall d t1 b1 l1 r1 t2 b2 l2 r2 d1 d2,
    valid d ->
    (0 <= t1)%Z -> (b1 <= d_ny d)%Z -> (0 <= l1)%Z -> (r1 <= d_nx d)%Z ->
    (0 <= t2)%Z -> (b2 <= b1 - t1)%Z -> (0 <= l2)%Z -> (r2 <= r1 - l1)%Z ->
    crop d (t1, b1, l1, r1) = Some d1 -> crop d1 (t2, b2, l2, r2) = Some d2 ->
    crop d (t1 + t2, t1 + b2, l1 + l2, l1 + r2)%Z = Some d2.
Proof. exact crop_crop. Qed.
Print Assumptions C11_crop_composes.

(** The twist angle is lost by every crop of a detector with a twist. *)
Theorem C11_crop_keeps_twist_refuted :
  forall d e d', crop d e = Some d' -> d_twist d <> 0 -> d_twist d' <> d_twist d.
Proof.
  intros d [[[t b] l] r] d'. unfold crop. destruct (orb _ _); [discriminate|].
  intros H. injection H as <-. simpl. auto.
Qed.
(** A 1D navigation shape becomes 2D; 2D shapes are kept. *)
Theorem C11_crop_keeps_1d_navigation_shape_refuted :
  forall d e d' n, crop d e = Some d' -> nav_shape (d_pc d) = [n] -> nav_shape (d_pc d') = [1%nat; n].
Proof.
  intros d [[[t b] l] r] d' n. unfold crop. destruct (orb _ _); [discriminate|].
  intros H. injection H as <-. simpl. intros ->. reflexivity.
Qed.
Theorem C11_crop_keeps_2d_navigation_shape :
  forall d e d' n m, crop d e = Some d' -> nav_shape (d_pc d) = [n; m] -> nav_shape (d_pc d') = [n; m].
Proof.
  intros d [[[t b] l] r] d' n m. unfold crop. destruct (orb _ _); [discriminate|].
  intros H. injection H as <-. simpl. intros ->. reflexivity.
Qed.
Example C11_case : exists d', crop det60x80 (10, 50, 20, 80)%Z = Some d' /\ d_ny d' = 40%Z.
Proof. eexists. split; [reflexivity|]. reflexivity. Qed.

(** ** C12 *)

Theorem C12_sample_to_detector_proper_rotation :
  forall sigma theta omega gamma,
    proper_rotation (mat_entry (sample_to_detector_matrix sigma theta omega gamma)).
Proof. intros. apply orthonormal_proper, sample_to_detector_orthonormal. Qed.
Print Assumptions C12_sample_to_detector_proper_rotation.

(** Without azimuthal and twist angles: the rotation by theta - sigma about the axis
    which is the detector's X and the sample's Y. *)
Theorem C12_matrix_without_azimuthal_and_twist :
  forall sigma theta,
    sample_to_detector_matrix sigma theta 0 0 =
    Mat (Vec 0 1 0)
        (Vec (sin (theta - sigma)) 0 (cos (theta - sigma)))
        (Vec (cos (theta - sigma)) 0 (- sin (theta - sigma))).
Proof. exact matrix_no_azimuthal_twist. Qed.

(** ** C13 *)

(** Where the upper left corner is not the farthest one. *)
Theorem C13_r_max_largest_radius_partial :
  forall d p x y, valid d -> 0 < pcz p -> (pcx p <= /2 \/ pcy p <= /2) ->
    x_min d p <= x <= x_max d p -> y_min d p <= y <= y_max d p ->
    sqrt (x^2 + y^2) <= r_max d p.
Proof. exact r_max_bound. Qed.
Print Assumptions C13_r_max_largest_radius_partial.

Theorem C13_r_max_is_a_corner_radius :
  forall d p, exists x y,
    (x = x_min d p \/ x = x_max d p) /\ (y = y_min d p \/ y = y_max d p) /\
    r_max d p = sqrt (x^2 + y^2).
Proof. exact r_max_attained. Qed.

(** Otherwise, always, the upper left corner is farther away than [r_max]. *)
Theorem C13_r_max_refuted :
  forall d p, valid d -> 0 < pcz p -> /2 < pcx p -> /2 < pcy p ->
    r_max d p < sqrt ((x_min d p)^2 + (y_max d p)^2).
Proof. exact r_max_too_small. Qed.
Print Assumptions C13_r_max_refuted.
Example C13_cases :
  (pcx (PC 0.4 0.2 0.6) <= /2) /\ (/2 < pcx (PC 0.7 0.8 0.5) /\ /2 < pcy (PC 0.7 0.8 0.5)).
Proof. simpl. lra. Qed.

(** ** C14 *)

(** PC indices given as one (row, column) pair per PC: the documented formulas, with the
    mean position rounded to integers. *)
Theorem C14_extrapolate_pc_pair_layout_partial :
  forall d (idx : list (R * R)) ny nx dy dx b y x,
    d_binning d = IZR b ->
    (y < ny)%nat -> (x < nx)%nat ->
    let ybar := round_half_even (meanR (map fst idx)) in
    let xbar := round_half_even (meanR (map snd idx)) in
    let alpha := deg2rad (90 - d_sample_tilt d + d_tilt d) in
    let m := mean_pc (pcs (d_pc d)) in
    exists l, extrapolate_pc d (map (fun p => [fst p; snd p]) idx) 2 None ny nx dy dx = Some l /\
      length l = (ny * nx)%nat /\
      nth_error l (y * nx + x) = Some
        (PC (pcx m + (IZR xbar - INR x) * dx / (d_px_size d * ncols d * d_binning d))
            (pcy m + (IZR ybar - INR y) * dy * cos alpha / (d_px_size d * nrows d * d_binning d))
            (pcz m - (IZR ybar - INR y) * dy * sin alpha / (d_px_size d * nrows d * d_binning d))).
Proof.
  intros d idx ny nx dy dx b y x Hb Hy Hx ybar xbar alpha m.
  unfold extrapolate_pc, pc_indices_mean. cbn [transpose map].
  rewrite !map_map. cbn [hd tl]. fold ybar xbar m.
  match goal with |- exists l, Some ?L = Some l /\ _ => exists L end.
  split; [reflexivity|].
  match goal with |- length (flat_map (fun y => map (fun x => ?g y x) _) _) = _ /\ _ => idtac | _ => idtac end.
  rewrite Hb, trunc_IZR.
  split.
  - exact (grid_length (fun y x => extrapolated_pc d (nrows d) (ncols d) (d_px_size d) (IZR b) dy dx ybar xbar m (INR y) (INR x)) ny nx).
  - etransitivity; [exact (grid_nth (fun y x => extrapolated_pc d (nrows d) (ncols d) (d_px_size d) (IZR b) dy dx ybar xbar m (INR y) (INR x)) ny nx y x Hy Hx)|].
    f_equal. unfold extrapolated_pc. fold alpha. f_equal.
    + replace (d_px_size d * ncols d * IZR b) with (d_px_size d * IZR b * ncols d) by ring.
      unfold Rdiv. ring.
    + replace (d_px_size d * nrows d * IZR b) with (d_px_size d * IZR b * nrows d) by ring.
      unfold Rdiv. ring.
    + replace (d_px_size d * nrows d * IZR b) with (d_px_size d * IZR b * nrows d) by ring.
      unfold Rdiv. ring.
Qed.
Print Assumptions C14_extrapolate_pc_pair_layout_partial.

(** Hence the mean PC is at the mean position. *)
Theorem C14_mean_pc_at_mean_position_partial :
  forall d (idx : list (R * R)) ny nx dy dx b y x l,
    d_binning d = IZR b -> (y < ny)%nat -> (x < nx)%nat ->
    IZR (round_half_even (meanR (map fst idx))) = INR y ->
    IZR (round_half_even (meanR (map snd idx))) = INR x ->
    extrapolate_pc d (map (fun p => [fst p; snd p]) idx) 2 None ny nx dy dx = Some l ->
    nth_error l (y * nx + x) = Some (mean_pc (pcs (d_pc d))).
Proof.
  intros d idx ny nx dy dx b y x l Hb Hy Hx Ey Ex H.
  destruct (C14_extrapolate_pc_pair_layout_partial d idx ny nx dy dx b y x Hb Hy Hx) as (l' & H' & _ & Hn).
  rewrite H in H'. injection H' as <-. rewrite Hn. f_equal.
  unfold mean_pc in *. cbn [pcx pcy pcz] in *. rewrite Ey, Ex. unfold Rdiv. f_equal; ring.
Qed.

(** The documented layout, (2, n): the mean is taken over the row and column index of one
    PC instead of over the PCs. Two PCs at (0, 4) and (2, 4): mean position (1, 4), but
    the mean PC lands on position (2, 3), and the PC at (1, 4) is another one. *)
Lemma round_IZR z : round_half_even (IZR z) = z.
Proof.
  unfold round_half_even.
  assert (Hup : up (IZR z) = (z + 1)%Z) by (symmetry; apply tech_up; rewrite plus_IZR; lra).
  rewrite Hup. replace (z + 1 - 1)%Z with z by lia.
  destruct (Rlt_dec (IZR z - IZR z) (/ 2)); [reflexivity|lra].
Qed.
Example C14_case :
  d_binning det60x80 = IZR 8 /\
  IZR (round_half_even (meanR (map fst [(0, 4); (2, 4)]))) = INR 1 /\
  IZR (round_half_even (meanR (map snd [(0, 4); (2, 4)]))) = INR 4.
Proof.
  split; [reflexivity|]. split.
  - replace (meanR (map fst [(0, 4); (2, 4)])) with (IZR 1) by (unfold meanR; simpl; lra).
    rewrite round_IZR. simpl. lra.
  - replace (meanR (map snd [(0, 4); (2, 4)])) with (IZR 4) by (unfold meanR; simpl; lra).
    rewrite round_IZR. simpl. lra.
Qed.
Theorem C14_documented_layout_refuted :
  exists d ys xs l,
    valid d /\ length ys = length (pcs (d_pc d)) /\ length xs = length ys /\
    round_half_even (meanR ys) = 1%Z /\ round_half_even (meanR xs) = 4%Z /\
    extrapolate_pc d [ys; xs] 2 None 3 5 1 1 = Some l /\
    nth_error l (1 * 5 + 4) <> Some (mean_pc (pcs (d_pc d))).
Proof.
  exists (Det 60 80 1 1 0 0 0 70 (PCArray [2%nat] [PC 0.5 0.5 0.5; PC 0.5 0.5 0.5])), [0; 2], [4; 4].
  eexists. split; [unfold valid; simpl; repeat split; lia || lra|].
  split; [reflexivity|]. split; [reflexivity|].
  assert (E1 : round_half_even (meanR [0; 2]) = 1%Z).
  { replace (meanR [0; 2]) with (IZR 1); [apply round_IZR|]. unfold meanR; simpl. lra. }
  assert (E2 : round_half_even (meanR [4; 4]) = 4%Z).
  { replace (meanR [4; 4]) with (IZR 4); [apply round_IZR|]. unfold meanR; simpl. lra. }
  split; [exact E1|]. split; [exact E2|].
  assert (E3 : pc_indices_mean [[0; 2]; [4; 4]] 2 None = [2%Z; 3%Z]).
  { unfold pc_indices_mean. cbn [transpose map hd tl]. f_equal; [|f_equal].
    - replace (meanR [0; 4]) with (IZR 2); [apply round_IZR|]. unfold meanR; simpl. lra.
    - replace (meanR [2; 4]) with (IZR 3); [apply round_IZR|]. unfold meanR; simpl. lra. }
  split.
  - unfold extrapolate_pc. rewrite E3. reflexivity.
  - change (flat_map ?f (seq 0 3)) with (flat_map f (seq 0 3)).
    cbn [seq flat_map map app nth_error Nat.mul Nat.add].
    intros H. injection H as Hx Hy Hz. clear Hy Hz.
    unfold extrapolated_pc in Hx. cbn [pcx] in Hx. revert Hx.
    cbn [d_pc pcs]. unfold mean_pc. cbn [pcx map].
    replace (d_binning (Det 60 80 1 1 0 0 0 70 (PCArray [2%nat] [PC 0.5 0.5 0.5; PC 0.5 0.5 0.5]))) with (IZR 1) by reflexivity.
    rewrite trunc_IZR. unfold ncols; cbn [d_nx d_px_size]. cbn [INR]. lra.
Qed.
Print Assumptions C14_documented_layout_refuted.

(** ** C54: extrapolated PCs lie on the sample plane seen through [sample_to_detector] *)

(** Without azimuthal and twist angles: in microns, towards the right, upwards and away
    from the detector, the PC moves against the displacement of the beam on the sample,
    rotated into the detector frame. *)
Theorem C54_extrapolated_pcs_are_the_rotated_sample_plane :
  forall d dy dx (ybar xbar : Z) (m : pc3) y x,
    valid d -> d_azimuthal d = 0 -> d_twist d = 0 ->
    let p := extrapolated_pc d (nrows d) (ncols d) (d_px_size d) (d_binning d) dy dx ybar xbar m y x in
    let M := mat_entry (sample_to_detector d) in
    let step k := match k with O => (y - IZR ybar) * dy | S O => (x - IZR xbar) * dx | _ => 0 end in
    let moved i := entry3 (fun k => M i k * step k) in
    (pcx p - pcx m) * width d = - moved 0%nat /\
    - (pcy p - pcy m) * height d = - moved 1%nat /\
    - (pcz p - pcz m) * height d = - moved 2%nat.
Proof.
  intros d dy dx ybar xbar m y x Hv Haz Htw p M step moved.
  destruct (valid_pos d Hv) as [Hr Hc]. destruct Hv as (_ & _ & Hp & Hb).
  assert (EM : sample_to_detector d = sample_to_detector_matrix (deg2rad (d_sample_tilt d)) (deg2rad (d_tilt d)) 0 0).
  { unfold sample_to_detector. rewrite Haz, Htw. unfold deg2rad at 3 4. rewrite Rmult_0_l. reflexivity. }
  unfold moved, M, entry3, step, mat_entry. rewrite EM, matrix_no_azimuthal_twist. cbn [row r0 r1 r2 vec_entry vx vy vz].
  unfold p, extrapolated_pc. cbn [pcx pcy pcz]. unfold width, height.
  assert (Ha : deg2rad (90 - d_sample_tilt d + d_tilt d) = PI / 2 - (deg2rad (d_sample_tilt d) - deg2rad (d_tilt d))).
  { unfold deg2rad. field. }
  set (phi := deg2rad (d_tilt d) - deg2rad (d_sample_tilt d)).
  replace (deg2rad (d_sample_tilt d) - deg2rad (d_tilt d)) with (- phi) in Ha by (unfold phi; ring).
  rewrite Ha, cos_shift, sin_shift, sin_neg, cos_neg.
  repeat split; field; repeat split; lra.
Qed.
Print Assumptions C54_extrapolated_pcs_are_the_rotated_sample_plane.

(** ** C15 *)

(** The tilt found by [fit_pc] and [estimate_xtilt] for PCs made by [extrapolate_pc]. *)
Theorem C15_x_tilt_of_extrapolated_pcs :
  forall d rows cols px b dy dx ybar xbar mean (pts : list (R * R)),
    let alpha := deg2rad (90 - d_sample_tilt d + d_tilt d) in
    0 < alpha < PI -> dy <> 0 -> px * b * rows <> 0 ->
    (exists y1 x1 y2 x2, In (y1, x1) pts /\ In (y2, x2) pts /\ y1 <> y2) ->
    x_tilt (map (fun yx => extrapolated_pc d rows cols px b dy dx ybar xbar mean (fst yx) (snd yx)) pts) = alpha.
Proof. intros d rows cols px b dy dx ybar xbar mean pts. exact (x_tilt_extrapolated d rows cols px b dy dx ybar xbar mean pts). Qed.
Print Assumptions C15_x_tilt_of_extrapolated_pcs.

(** Detector without tilt: the sample tilt is recovered. *)
Theorem C15_fit_recovers_sample_tilt_partial :
  forall d rows cols px b dy dx ybar xbar mean (pts : list (R * R)),
    d_tilt d = 0 -> -90 < d_sample_tilt d < 90 -> dy <> 0 -> px * b * rows <> 0 ->
    (exists y1 x1 y2 x2, In (y1, x1) pts /\ In (y2, x2) pts /\ y1 <> y2) ->
    fitted_sample_tilt d (map (fun yx => extrapolated_pc d rows cols px b dy dx ybar xbar mean (fst yx) (snd yx)) pts)
    = d_sample_tilt d.
Proof.
  intros d rows cols px b dy dx ybar xbar mean pts Ht Hs Hdy Hf Hpts.
  rewrite fitted_tilt_extrapolated; try assumption.
  - rewrite Ht. ring.
  - rewrite Ht. unfold deg2rad. pose proof PI_RGT_0. split; nra.
Qed.

(** With a detector tilt theta the result is sigma - 2 theta. *)
Theorem C15_fit_with_detector_tilt_refuted :
  forall d rows cols px b dy dx ybar xbar mean (pts : list (R * R)),
    d_tilt d <> 0 -> 0 < 90 - d_sample_tilt d + d_tilt d < 180 ->
    dy <> 0 -> px * b * rows <> 0 ->
    (exists y1 x1 y2 x2, In (y1, x1) pts /\ In (y2, x2) pts /\ y1 <> y2) ->
    let fitted := fitted_sample_tilt d (map (fun yx => extrapolated_pc d rows cols px b dy dx ybar xbar mean (fst yx) (snd yx)) pts) in
    fitted = d_sample_tilt d - 2 * d_tilt d /\ fitted <> d_sample_tilt d.
Proof.
  intros d rows cols px b dy dx ybar xbar mean pts Ht Ha Hdy Hf Hpts fitted.
  assert (E : fitted = d_sample_tilt d - 2 * d_tilt d).
  { apply fitted_tilt_extrapolated; try assumption. unfold deg2rad. pose proof PI_RGT_0. split; nra. }
  split; [exact E|]. rewrite E. lra.
Qed.
Print Assumptions C15_fit_with_detector_tilt_refuted.

(** The affine fit: PCs that are an affine function of the map indices are reproduced at
    all map points, whatever minimiser the solver returns, if three of the indices are not
    on a line. (One coordinate; the three coordinates are fitted separately.) *)
Theorem C15_affine_fit_exact :
  forall (pts : list (R * R)) (truth fit : affine) p q r,
    In p pts -> In q pts -> In r pts ->
    (fst q - fst p) * (snd r - snd p) - (fst r - fst p) * (snd q - snd p) <> 0 ->
    lstsq pts (map (affine_at truth) pts) fit ->
    forall any, affine_at fit any = affine_at truth any.
Proof.
  intros pts truth fit p q r Hp Hq Hr Hd HL any.
  pose proof (lstsq_exact pts truth fit HL) as HE.
  rewrite (affine_three fit truth p q r Hd (HE p Hp) (HE q Hq) (HE r Hr)). reflexivity.
Qed.
Example C15_case :
  exists y1 x1 y2 x2 : R, In (y1, x1) [(0, 0); (0, 1); (1, 0)] /\ In (y2, x2) [(0, 0); (0, 1); (1, 0)] /\ y1 <> y2.
Proof. exists 0, 1, 1, 0. simpl. repeat split; auto. Qed.
Example C15_case_points : (fst (0, 1) - fst (0, 0)) * (snd (1, 0) - snd (0, 0)) - (fst (1, 0) - fst (0, 0)) * (snd (0, 1) - snd (0, 0)) <> 0.
Proof. simpl. lra. Qed.

(** ** C53: x_scale and y_scale *)

(** They are (N / (N - 1)) times the gnomonic distance of neighbouring pixels. *)
Theorem C53_scale_is_pixel_pitch_refuted :
  forall d p y x, valid d -> pcz p <> 0 -> (2 <= d_nx d)%Z -> (2 <= d_ny d)%Z ->
    x_scale d p * (ncols d - 1) = ncols d * (snd (to_gnomonic d p (y, x + 1)) - snd (to_gnomonic d p (y, x))) /\
    y_scale d p * (nrows d - 1) = nrows d * (fst (to_gnomonic d p (y, x)) - fst (to_gnomonic d p (y + 1, x))) /\
    x_scale d p <> snd (to_gnomonic d p (y, x + 1)) - snd (to_gnomonic d p (y, x)).
Proof.
  intros d p y x Hv Hz Hnx Hny. destruct (valid_pos d Hv) as [Hr Hc].
  pose proof (aspect_pos d Hv) as Ha.
  assert (2 <= ncols d) by (unfold ncols; apply (IZR_le 2); exact Hnx).
  assert (2 <= nrows d) by (unfold nrows; apply (IZR_le 2); exact Hny).
  assert (Ex : (d_nx d =? 1)%Z = false) by (apply Z.eqb_neq; lia).
  assert (Ey : (d_ny d =? 1)%Z = false) by (apply Z.eqb_neq; lia).
  unfold x_scale, y_scale, to_gnomonic, apply_factors, pix_to_gn. rewrite Ex, Ey. cbn [fst snd m_x c_x m_y c_y].
  rewrite gn_span_x by assumption.
  replace (y_max d p - y_min d p) with (/ pcz p) by (unfold y_max, y_min; field; exact Hz).
  rewrite gn_span_y by assumption.
  repeat split.
  - field. repeat split; lra.
  - field. repeat split; lra.
  - intros Heq.
    assert (Hk : aspect_ratio d * ncols d = aspect_ratio d * (ncols d - 1)).
    { assert (H' : aspect_ratio d / pcz p / (ncols d - 1) * (pcz p * ncols d * (ncols d - 1))
        = aspect_ratio d / pcz p / (ncols d - 1 + 1) * (pcz p * ncols d * (ncols d - 1))) by (rewrite Heq; field; repeat split; lra).
      transitivity (aspect_ratio d / pcz p / (ncols d - 1) * (pcz p * ncols d * (ncols d - 1))); [field; repeat split; lra|].
      rewrite H'. field. repeat split; lra. }
    nra.
Qed.
Print Assumptions C53_scale_is_pixel_pitch_refuted.
