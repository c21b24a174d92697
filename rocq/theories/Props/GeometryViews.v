(** C90: side and top views of detector and sample. *)
From Coq Require Import List Arith ZArith Reals Lra Lia Psatz.
From Verif Require Import Model.Detector Model.Simulation Model.GeometryViews Spec.Rotation Spec.DetectorGeometry Spec.KikuchiBands Spec.MicroscopeFrame.
From Verif Require Import Proofs.DetectorTilt Proofs.DetectorProofs Proofs.KikuchiLinesProofs.
Import ListNotations.
Local Open Scope R_scope.

(** ** The detector's axes in the sample *)
Lemma rotate_unit v axis a : dot axis axis = 1 -> rotate_about_axis v axis a = rodrigues axis a v.
Proof.
  intros H. unfold rotate_about_axis. rewrite (norm_one _ H). unfold Rdiv. rewrite Rinv_1, !Rmult_1_r. now destruct axis.
Qed.
Lemma rotate_basis_unit m i a : orthonormal m -> rotate_basis m (i, a) =
  Mat (rodrigues (Detector.row i m) a (r0 m)) (rodrigues (Detector.row i m) a (r1 m)) (rodrigues (Detector.row i m) a (r2 m)).
Proof.
  intros Ho. assert (Hu : dot (Detector.row i m) (Detector.row i m) = 1) by (destruct Ho as (H0 & H1 & H2 & _); destruct i as [|[|i]]; assumption).
  unfold rotate_basis. rewrite (norm_one _ Hu). unfold Rdiv. rewrite Rinv_1, !Rmult_1_r. destruct (Detector.row i m); reflexivity.
Qed.
Definition detector_x (f w : R) : vec := Vec (cos f * sin w) (cos w) (- (sin f * sin w)).
Definition detector_y (f : R) : vec := Vec (sin f) 0 (cos f).
Definition detector_z (f w : R) : vec := Vec (cos f * cos w) (- sin w) (- (sin f * cos w)).
Lemma s2d_without_twist d : d_twist d = 0 ->
  let f := deg2rad (d_tilt d) - deg2rad (d_sample_tilt d) in let w := deg2rad (d_azimuthal d) in
  sample_to_detector d = Mat (detector_x f w) (detector_y f) (detector_z f w).
Proof.
  intros Ht f w. unfold sample_to_detector, sample_to_detector_matrix. rewrite Ht. cbn [fold_left].
  set (s := deg2rad (d_sample_tilt d)) in *. set (t := deg2rad (d_tilt d)) in *. fold w. 
  assert (O : orthonormal (Mat (Vec 0 1 0) (Vec 0 0 1) (Vec 1 0 0))) by (unfold orthonormal, dot, triple; cbn; repeat split; ring).
  assert (E1 : rotate_basis (Mat (Vec 0 1 0) (Vec 0 0 1) (Vec 1 0 0)) (0%nat, - s) = Mat (Vec 0 1 0) (Vec (sin (- s)) 0 (cos (- s))) (Vec (cos (- s)) 0 (- sin (- s)))).
  { rewrite rotate_basis_unit by exact O. unfold rodrigues. cbn [Detector.row r0 r1 r2 vx vy vz]. f_equal; f_equal; ring. }
  pose proof (rotate_basis_orthonormal _ (0%nat, - s) O) as O1. rewrite E1 in *.
  assert (E2 : rotate_basis (Mat (Vec 0 1 0) (Vec (sin (- s)) 0 (cos (- s))) (Vec (cos (- s)) 0 (- sin (- s)))) (0%nat, t) = Mat (Vec 0 1 0) (detector_y f) (Vec (cos f) 0 (- sin f))).
  { rewrite rotate_basis_unit by exact O1. unfold rodrigues, detector_y. cbn [Detector.row r0 r1 r2 vx vy vz].
    replace f with (t + - s) by (unfold f; ring). rewrite cos_plus, sin_plus. f_equal; f_equal; ring. }
  pose proof (rotate_basis_orthonormal _ (0%nat, t) O1) as O2. rewrite E2 in *.
  assert (E3 : rotate_basis (Mat (Vec 0 1 0) (detector_y f) (Vec (cos f) 0 (- sin f))) (1%nat, - w) = Mat (detector_x f w) (detector_y f) (detector_z f w)).
  { rewrite rotate_basis_unit by exact O2. unfold rodrigues, detector_x, detector_y, detector_z. cbn [Detector.row r0 r1 r2 vx vy vz].
    rewrite cos_neg, sin_neg. pose proof (cs f) as C. revert C. generalize (cos f) (sin f) (cos w) (sin w). intros cf sf cw sw C.
    assert (C' : cf * cf = 1 - sf * sf) by lra. f_equal; f_equal; ring [C']. }
  pose proof (rotate_basis_orthonormal _ (1%nat, - w) O2) as O3. rewrite E3 in *.
  rewrite rotate_basis_unit by exact O3. cbn [Detector.row r0 r1 r2]. 
  replace (- deg2rad 0) with 0 by (unfold deg2rad; ring). unfold rodrigues. rewrite cos_0, sin_0. cbn [vx vy vz]. unfold detector_x, detector_y, detector_z. cbn [vx vy vz].
  f_equal; f_equal; ring.
Qed.
Lemma source_point d p right below v : valid d -> 0 < pcz p -> d_twist d = 0 -> screen_point d p right below v ->
  let t := deg2rad (d_tilt d) in let w := deg2rad (d_azimuthal d) in
  let a := right - pcx p * width d in let b := pcy p * height d - below in let L := pcz p * height d in
  v = Vec (- (a * cos w - L * sin w))
          (a * (cos t * sin w) + b * sin t + L * (cos t * cos w))
          (- (a * (sin t * sin w)) + b * cos t - L * (sin t * cos w)).
Proof.
  intros Hv Hz Ht (x & E & ->) t w a b L. destruct (valid_pos d Hv) as [Hr Hc]. assert (P1 : 0 < d_px_size d) by apply Hv. assert (P2 : 0 < d_binning d) by apply Hv.
  assert (H : 0 < height d) by (unfold height; repeat apply Rmult_lt_0_compat; lra).
  assert (Hl : 0 < L) by (unfold L; now apply Rmult_lt_0_compat).
  apply (f_equal (fun u => row_times u (sample_to_detector d))) in E. rewrite orthonormal_row in E by apply s2d_orthonormal. subst x.
  unfold bruker_position, gnomonic_x, gnomonic_y. cbn [right_of_left_edge below_top_edge distance].
  replace (pcx p * (ncols d * d_binning d * d_px_size d)) with (pcx p * width d) by (unfold width; ring).
  replace (pcy p * (nrows d * d_binning d * d_px_size d)) with (pcy p * height d) by (unfold height; ring).
  replace (pcz p * (nrows d * d_binning d * d_px_size d)) with L by (unfold L, height; ring).
  fold a b. rewrite s2d_without_twist by exact Ht. fold t w. set (s := deg2rad (d_sample_tilt d)).
  unfold row_times, in_microscope, detector_x, detector_y, detector_z. cbn [r0 r1 r2 vx vy vz].
  unfold Rminus at 1 2 3 4 5 6 7 8. 
  assert (C : cos (t + - s) = cos t * cos s + sin t * sin s) by (rewrite cos_plus, cos_neg, sin_neg; ring).
  assert (S' : sin (t + - s) = sin t * cos s - cos t * sin s) by (rewrite sin_plus, cos_neg, sin_neg; ring).
  change (t - s) with (t + - s). rewrite C, S'. pose proof (cs s) as Q. clear C S'. revert Q. generalize (cos s) (sin s) (cos t) (sin t) (cos w) (sin w).
  intros cs ss ct st cw sw Q. f_equal.
  - field. lra.
  - apply Rmult_eq_reg_r with 1; [|lra]. 
    transitivity ((a * (ct * sw) + b * st + L * (ct * cw)) * (cs * cs + ss * ss)); [field; lra|rewrite Q; ring].
  - transitivity ((- (a * (st * sw)) + b * ct - L * (st * cw)) * (cs * cs + ss * ss)); [field; lra|rewrite Q; ring].
Qed.
Lemma screen_point_exists d p right below : exists v, screen_point d p right below v.
Proof.
  eexists. unfold screen_point. cbv zeta. eexists. split; [|reflexivity]. apply orthonormal_times, s2d_orthonormal.
Qed.
Lemma deg2rad_0 : deg2rad 0 = 0.
Proof. unfold deg2rad. ring. Qed.
Lemma mean_one p : mean_pc [p] = p.
Proof. destruct p. unfold mean_pc, meanR, sumR. cbn. f_equal; field. Qed.
Definition one_pc (d : detector) (p : pc3) : Prop := pcs (d_pc d) = [p] /\ (nav_shape (d_pc d) = [1%nat] \/ nav_shape (d_pc d) = [1%nat; 1%nat]).
Lemma one_distance d p v : one_pc d p -> exists L, first_distance d = Some L /\ broadcast L v = Some (map (Rmult (pcz p * height d)) v).
Proof.
  intros [Hp [Hn|Hn]]; unfold first_distance; rewrite Hn, Hp; cbn [map firstn]; (eexists; split; [reflexivity|]); reflexivity.
Qed.

(** ** Side view *)

(** With one PC and neither azimuthal angle nor twist, the side view has sample, PC and upper and lower edge of the screen where they are. *)
Theorem C90_side_view d p : valid d -> 0 < pcz p -> one_pc d p -> d_azimuthal d = 0 -> d_twist d = 0 ->
  let sigma := deg2rad (d_sample_tilt d) in
  exists f, plot_side_view d = Some f /\
    (forall right v, screen_point d p right 0 v -> screen_top f = seen_from_side v) /\
    (forall right v, screen_point d p right (height d) v -> screen_bottom f = seen_from_side v) /\
    (forall v, screen_point d p (pcx p * width d) (pcy p * height d) v -> side_pc f = seen_from_side v) /\
    sample_start f = seen_from_side (in_microscope sigma (Vec (- (3/10 * height d)) 0 0)) /\
    sample_end f = seen_from_side (in_microscope sigma (Vec (3/10 * height d) 0 0)) /\
    beam_start f = seen_from_side (Vec 0 0 (height d / 2)) /\ beam_end f = seen_from_side (Vec 0 0 0).
Proof.
  intros Hv Hz Ho Ha Ht sigma. destruct (one_distance d p [cos (deg2rad (d_tilt d)); sin (deg2rad (d_tilt d))] Ho) as (L & E1 & E2).
  unfold plot_side_view. rewrite E1, E2, (proj1 Ho), mean_one. cbn [map]. eexists. split; [reflexivity|].
  cbn [screen_top screen_bottom side_pc sample_start sample_end beam_start beam_end]. fold sigma.
  assert (P : forall right below v, screen_point d p right below v -> seen_from_side v =
    (((pcy p * height d - below) * sin (deg2rad (d_tilt d)) + pcz p * height d * cos (deg2rad (d_tilt d))) / 1000,
     ((pcy p * height d - below) * cos (deg2rad (d_tilt d)) - pcz p * height d * sin (deg2rad (d_tilt d))) / 1000)).
  { intros right below v H. apply source_point in H; auto. subst v. rewrite Ha, deg2rad_0, cos_0, sin_0. unfold seen_from_side. cbn [vy vz]. f_equal; field. }
  unfold trans, shifted. cbn [fst snd].
  split; [intros right v H; rewrite (P _ _ _ H); f_equal; field|]. split; [intros right v H; rewrite (P _ _ _ H); f_equal; field|].
  split; [intros v H; rewrite (P _ _ _ H); f_equal; field|]. unfold seen_from_side, in_microscope. cbn [vx vy vz].
  repeat split; f_equal; field.
Qed.

(** ** Top view *)

(** With one PC and no twist, the top view has sample, PC and the corners of the screen where they are. *)
Theorem C90_top_view d p : valid d -> 0 < pcz p -> one_pc d p -> d_twist d = 0 ->
  let sigma := deg2rad (d_sample_tilt d) in let half := 3/10 * height d in
  exists f, plot_top_view d = Some f /\
    Forall2 (fun c at_ => forall v, screen_point d p (fst at_) (snd at_) v -> c = seen_from_above v)
      (screen_corners f) [(0, 0); (width d, 0); (width d, height d); (0, height d)] /\
    (forall v, screen_point d p (pcx p * width d) (pcy p * height d) v -> top_pc f = seen_from_above v) /\
    sample_corners f = map (fun ab => seen_from_above (in_microscope sigma (Vec (fst ab) (snd ab) 0)))
      [(- half, half); (- half, - half); (half, - half); (half, half)] /\
    beam f = (0, 0).
Proof.
  intros Hv Hz Ho Ht sigma half. unfold plot_top_view. set (t := deg2rad (d_tilt d)). set (w := deg2rad (d_azimuthal d)).
  assert (Y : rotate_about_axis (Vec 0 0 1) (Vec (-1) 0 0) (- t) = Vec 0 (- sin t) (cos t)).
  { rewrite rotate_unit by (unfold dot; cbn; ring). unfold rodrigues. cbn [vx vy vz]. rewrite cos_neg, sin_neg. f_equal; ring. }
  assert (Z : rotate_about_axis (Vec 0 1 0) (Vec (-1) 0 0) (- t) = Vec 0 (cos t) (sin t)).
  { rewrite rotate_unit by (unfold dot; cbn; ring). unfold rodrigues. cbn [vx vy vz]. rewrite cos_neg, sin_neg. f_equal; ring. }
  rewrite Y, Z. assert (U : dot (Vec 0 (- sin t) (cos t)) (Vec 0 (- sin t) (cos t)) = 1) by (unfold dot; cbn [vx vy vz]; pose proof (cs t); lra).
  rewrite !rotate_unit by exact U. clear Y Z U.
  assert (X' : rodrigues (Vec 0 (- sin t) (cos t)) (- w) (Vec (-1) 0 0) = Vec (- cos w) (cos t * sin w) (sin t * sin w)).
  { unfold rodrigues. cbn [vx vy vz]. rewrite cos_neg, sin_neg. f_equal; ring. }
  assert (Z' : rodrigues (Vec 0 (- sin t) (cos t)) (- w) (Vec 0 (cos t) (sin t)) = Vec (sin w) (cos t * cos w) (sin t * cos w)).
  { unfold rodrigues. cbn [vx vy vz]. rewrite cos_neg, sin_neg. pose proof (cs t) as C. revert C. generalize (cos t) (sin t) (cos w) (sin w). intros ct st cw sw C.
    assert (C' : ct * ct = 1 - st * st) by lra. f_equal; ring [C']. }
  rewrite X', Z'. cbn [vx vy vz]. clear X' Z'.
  destruct (one_distance d p [sin w; cos t * cos w; sin t * cos w] Ho) as (L & E1 & E2). rewrite E1, E2, (proj1 Ho), mean_one. cbn [map]. eexists. split; [reflexivity|].
  cbn [screen_corners top_pc sample_corners beam]. fold sigma. cbn [fst snd].
  assert (P : forall right below v, screen_point d p right below v -> seen_from_above v =
    ((- ((right - pcx p * width d) * cos w - pcz p * height d * sin w)) / 1000,
     ((right - pcx p * width d) * (cos t * sin w) + (pcy p * height d - below) * sin t + pcz p * height d * (cos t * cos w)) / 1000)).
  { intros right below v H. apply source_point in H; auto. subst v. reflexivity. }
  split; [|split; [|split]].
  - repeat constructor; cbn [fst snd]; intros v H; rewrite (P _ _ _ H); f_equal; field.
  - intros v H. rewrite (P _ _ _ H). f_equal; field.
  - unfold seen_from_above, in_microscope, half. cbn [map fst snd vx vy vz]. f_equal; [f_equal; field|]. f_equal; [f_equal; field|]. f_equal; [f_equal; field|]. f_equal. f_equal; field.
  - f_equal; ring.
Qed.

(** ** Refuted *)
Definition level (twist azimuthal : R) (nav : list nat) (l : list pc3) : detector := Det 60 60 1 1 0 azimuthal twist 0 (PCArray nav l).
Lemma level_height t a n l : height (level t a n l) = 60.
Proof. unfold height, nrows, level. cbn. ring. Qed.

(** In maps, the distance of the first row of patterns is used: views fail unless the map has one column or as many as coordinates. *)
Theorem C90_side_view_of_map d rows columns : nav_shape (d_pc d) = [S rows; columns] -> length (pcs (d_pc d)) = (S rows * columns)%nat ->
  plot_side_view d = None <-> columns <> 1%nat /\ columns <> 2%nat.
Proof.
  intros Hn Hl. unfold plot_side_view, first_distance. rewrite Hn. set (v := [_; _]). set (l := firstn columns _).
  assert (Ll : length l = columns) by (unfold l; rewrite firstn_length, map_length, Hl; nia).
  clearbody l. destruct l as [|a [|b [|c l]]]; cbn [length] in Ll; subst columns; cbn [broadcast v length Nat.eqb combine map fst snd]; split; intros; try discriminate; try lia; reflexivity.
Qed.
Theorem C90_top_view_of_map d rows columns : nav_shape (d_pc d) = [S rows; columns] -> length (pcs (d_pc d)) = (S rows * columns)%nat ->
  plot_top_view d = None <-> columns <> 1%nat /\ columns <> 3%nat.
Proof.
  intros Hn Hl. unfold plot_top_view, first_distance. rewrite Hn. set (v := [_; _; _]). set (l := firstn columns _).
  assert (Ll : length l = columns) by (unfold l; rewrite firstn_length, map_length, Hl; nia).
  clearbody l. destruct l as [|a [|b [|c [|e l]]]]; cbn [length] in Ll; subst columns; cbn [broadcast v length Nat.eqb combine map fst snd]; split; intros; try discriminate; try lia; reflexivity.
Qed.

(** Maps with two columns: no error, but the PC is drawn where no PC can be. *)
Definition half_tilted (nav : list nat) (l : list pc3) : detector := Det 60 60 1 1 45 0 0 70 (PCArray nav l).
Theorem C90_side_view_of_two_columns_refuted : exists d f,
  nav_shape (d_pc d) = [1%nat; 2%nat] /\ valid d /\ Forall (fun p => 0 < pcz p) (pcs (d_pc d)) /\ d_azimuthal d = 0 /\ d_twist d = 0 /\
  plot_side_view d = Some f /\
  forall p v, 0 < pcz p -> screen_point d p (pcx p * width d) (pcy p * height d) v -> side_pc f <> seen_from_side v.
Proof.
  set (d := half_tilted [1%nat; 2%nat] [PC (1/2) (1/2) (1/4); PC (1/2) (1/2) (3/4)]). exists d.
  assert (Hv : valid d) by (repeat split; cbn; lia || lra).
  eexists. split; [reflexivity|]. split; [exact Hv|]. split; [repeat constructor; cbn; lra|]. split; [reflexivity|]. split; [reflexivity|].
  unfold plot_side_view, first_distance. cbn [d half_tilted d_pc nav_shape pcs map firstn broadcast length Nat.eqb combine fst snd]. split; [reflexivity|].
  intros p v Hp H E. cbn [side_pc] in E. apply source_point in H; [|exact Hv|exact Hp|reflexivity]. subst v. unfold seen_from_side, trans in E. cbn [fst snd vy vz] in E.
  assert (A : deg2rad (d_tilt d) = PI / 4) by (unfold deg2rad; cbn; field). fold d in E. rewrite A in E.
  change (d_azimuthal d) with 0 in E. rewrite deg2rad_0, cos_0, sin_0 in E. 
  assert (B : deg2rad 45 = PI / 4) by (unfold deg2rad; field).
  assert (C : 0 < cos (PI/4)) by (rewrite cos_PI4; apply Rdiv_lt_0_compat; [lra|apply sqrt_lt_R0; lra]).
  assert (Sc : sin (PI/4) = cos (PI/4)) by (rewrite sin_PI4, cos_PI4; reflexivity).
  change (half_tilted [1%nat; 2%nat] [PC (1/2) (1/2) (1/4); PC (1/2) (1/2) (3/4)]) with d in E. cbn [d_tilt d half_tilted] in E. 
  unfold specimen_scintillator_distance in E. cbn [pcz] in E. fold d in E.
  assert (H1 := f_equal fst E). assert (H2 := f_equal snd E). cbn [fst snd] in H1, H2. rewrite ?B, ?Sc in H1, H2.
  assert (Hh : height d = 60) by (unfold height, nrows, d, half_tilted; cbn; ring). 
  set (k := pcz p * height d * cos (PI/4)) in *. set (c := cos (PI/4)) in *.
  assert (K : height d * c = 60 * c) by (rewrite Hh; reflexivity).
  assert (H1' : 1/4 * (height d * c) = k) by (unfold k in *; lra). assert (H2' : 3/4 * (height d * c) = k) by (unfold k in *; lra). lra.
Qed.

(** In a line of patterns, the distance is the one of the first pattern while the rest is the average. *)
Theorem C90_views_with_several_pcs_refuted : exists d f,
  nav_shape (d_pc d) = [2%nat] /\ valid d /\ Forall (fun p => 0 < pcz p) (pcs (d_pc d)) /\ d_azimuthal d = 0 /\ d_twist d = 0 /\
  plot_side_view d = Some f /\ let p := mean_pc (pcs (d_pc d)) in
  forall v, screen_point d p (pcx p * width d) (pcy p * height d) v -> side_pc f <> seen_from_side v.
Proof.
  set (d := level 0 0 [2%nat] [PC (1/2) (1/2) (1/4); PC (1/2) (1/2) (3/4)]). exists d.
  assert (Hv : valid d) by (repeat split; cbn; lia || lra).
  eexists. split; [reflexivity|]. split; [exact Hv|]. split; [repeat constructor; cbn; lra|]. split; [reflexivity|]. split; [reflexivity|].
  split; [reflexivity|]. intros p v H E. assert (Ep : p = PC (1/2) (1/2) (1/2)) by (unfold p, mean_pc, meanR, sumR, d, level; cbn; f_equal; field).
  apply source_point in H; [|exact Hv|rewrite Ep; cbn; lra|reflexivity]. subst v. apply (f_equal fst) in E. unfold seen_from_side, trans in E. cbn [side_pc fst snd vy vz] in E.
  rewrite Ep in E. unfold specimen_scintillator_distance, d in E. rewrite level_height in E. cbn [pcz pcy pcx d_tilt d_azimuthal level] in E. rewrite deg2rad_0, cos_0, sin_0 in E. lra.
Qed.

(** The azimuthal angle is left out of the side view, and the twist of both. *)
Theorem C90_side_view_with_azimuthal_refuted : exists d p f,
  one_pc d p /\ valid d /\ 0 < pcz p /\ d_twist d = 0 /\ plot_side_view d = Some f /\
  forall v, screen_point d p (pcx p * width d) (pcy p * height d) v -> side_pc f <> seen_from_side v.
Proof.
  set (p := PC (1/2) (1/2) (1/2)). set (d := level 0 60 [1%nat] [p]). exists d, p.
  assert (Hv : valid d) by (repeat split; cbn; lia || lra).
  eexists. split; [split; [reflexivity|left; reflexivity]|]. split; [exact Hv|]. split; [cbn; lra|]. split; [reflexivity|]. split; [reflexivity|].
  intros v H E. apply source_point in H; [|exact Hv|cbn; lra|reflexivity]. subst v. apply (f_equal fst) in E. unfold seen_from_side, trans in E. cbn [side_pc fst snd vy vz] in E.
  unfold specimen_scintillator_distance, d in E. rewrite level_height in E. cbn [p pcz pcy pcx d_tilt d_azimuthal level] in E. rewrite deg2rad_0, cos_0, sin_0 in E.
  replace (deg2rad 60) with (PI / 3) in E by (unfold deg2rad; field). rewrite cos_PI3 in E. lra.
Qed.
Theorem C90_top_view_with_twist_refuted : exists d p f c,
  one_pc d p /\ valid d /\ 0 < pcz p /\ d_azimuthal d = 0 /\ plot_top_view d = Some f /\ hd_error (screen_corners f) = Some c /\
  forall v, screen_point d p 0 0 v -> c <> seen_from_above v.
Proof.
  set (p := PC (1/2) (1/2) (1/2)). set (d := level 45 0 [1%nat] [p]). set (d0 := level 0 0 [1%nat] [p]).
  assert (Hv : valid d) by (repeat split; cbn; lia || lra). assert (Hv0 : valid d0) by (repeat split; cbn; lia || lra).
  destruct (C90_top_view d0 p) as (f & Ef & F & _); [exact Hv0|cbn; lra|split; [reflexivity|left; reflexivity]|reflexivity|].
  destruct (screen_point_exists d0 p 0 0) as (v0 & V0). destruct (screen_corners f) as [|c cs] eqn:Es; [inversion F|].
  assert (Ec : c = seen_from_above v0) by (inversion F as [|? ? ? ? Q]; subst; now apply Q). clear F.
  apply source_point in V0; [|exact Hv0|cbn; lra|reflexivity]. subst v0.
  exists d, p, f, c. split; [split; [reflexivity|left; reflexivity]|]. split; [exact Hv|]. split; [cbn; lra|]. split; [reflexivity|].
  split; [exact Ef|]. split; [now rewrite Es|].
  intros v (w & E & ->) H. apply (f_equal fst) in H. 
  apply (f_equal (fun u => row_times u (sample_to_detector d))) in E. rewrite orthonormal_row in E by apply s2d_orthonormal. subst w.
  assert (M : sample_to_detector d = Mat (Vec 0 (cos (PI/4)) (- sin (PI/4))) (Vec 0 (sin (PI/4)) (cos (PI/4))) (Vec 1 0 0)).
  { unfold sample_to_detector, sample_to_detector_matrix. cbn [d level d_sample_tilt d_tilt d_azimuthal d_twist fold_left]. rewrite deg2rad_0.
    replace (deg2rad 45) with (PI/4) by (unfold deg2rad; field).
    set (m := Mat (Vec 0 1 0) (Vec 0 0 1) (Vec 1 0 0)).
    assert (O : orthonormal m) by (unfold orthonormal, dot, triple; cbn; repeat split; ring).
    assert (Z : forall i a, a = 0 -> rotate_basis m (i, a) = m).
    { intros i a ->. rewrite rotate_basis_unit by exact O. unfold rodrigues, m. rewrite cos_0, sin_0. destruct i as [|[|]]; cbn [Detector.row r0 r1 r2 vx vy vz]; f_equal; f_equal; ring. }
    rewrite !Z by ring. rewrite rotate_basis_unit by exact O. unfold rodrigues, m. rewrite cos_neg, sin_neg. cbn [Detector.row r0 r1 r2 vx vy vz]. f_equal; f_equal; ring. }
  rewrite M in H. unfold seen_from_above, in_microscope, row_times, gnomonic_x, gnomonic_y, bruker_position in H. cbn [fst snd r0 r1 r2 vx vy vz right_of_left_edge below_top_edge distance] in H.
  assert (Sc : sin (PI/4) = cos (PI/4)) by (rewrite sin_PI4, cos_PI4; reflexivity). rewrite Sc in H.
  unfold d, level, ncols, nrows, p in H. cbn [d_ny d_nx d_binning d_px_size pcx pcy pcz] in H.
  match type of H with _ = ?r => replace r with 0 in H by (field) end.
  subst c. unfold seen_from_above, d0, width in H. rewrite level_height in H. cbn [fst vx vy p pcx pcy pcz d_azimuthal d_tilt level] in H. rewrite deg2rad_0, cos_0, sin_0 in H.
  unfold ncols in H. cbn in H. lra.
Qed.

(** ** Axis limits *)

(** The screen is within the limits of the side view if it is close enough. *)
Theorem C90_screen_within_limits d p f : valid d -> one_pc d p -> 0 < pcz p -> 0 <= pcy p <= 1 ->
  pcz p * pcz p + Rmax (pcy p) (1 - pcy p) * Rmax (pcy p) (1 - pcy p) <= 121/100 -> plot_side_view d = Some f ->
  forall q, In q [screen_top f; screen_bottom f; side_pc f] -> Rabs (fst q) <= side_limit f /\ Rabs (snd q) <= side_limit f.
Proof.
  intros Hv Ho Hz Hy Hm. destruct (one_distance d p [cos (deg2rad (d_tilt d)); sin (deg2rad (d_tilt d))] Ho) as (L & E1 & E2).
  unfold plot_side_view. rewrite E1, E2, (proj1 Ho), mean_one. cbn [map]. intros H. injection H as <-. cbn [screen_top screen_bottom side_pc side_limit].
  destruct (valid_pos d Hv) as [Hr Hc]. assert (P1 : 0 < d_px_size d) by apply Hv. assert (P2 : 0 < d_binning d) by apply Hv.
  assert (Hh : 0 < height d) by (unfold height; repeat apply Rmult_lt_0_compat; lra).
  pose proof (cs (deg2rad (d_tilt d))) as C. revert C. generalize (cos (deg2rad (d_tilt d))) (sin (deg2rad (d_tilt d))). intros c s C.
  set (h := height d) in *. set (z := pcz p) in *. set (m := Rmax (pcy p) (1 - pcy p)) in *.
  assert (M : pcy p <= m /\ 1 - pcy p <= m) by (split; [apply Rmax_l|apply Rmax_r]). clearbody m.
  assert (G : forall b, - m <= b <= m -> Rabs (h * (z * c + b * s)) <= 11/10 * h /\ Rabs (h * (b * c - z * s)) <= 11/10 * h).
  { intros b Hb. assert (B2 : b * b <= m * m) by nra. 
    assert (S1 : (z * c + b * s) * (z * c + b * s) + (b * c - z * s) * (b * c - z * s) = z * z + b * b) by (replace (z * z + b * b) with ((z * z + b * b) * (c * c + s * s)) by (rewrite C; ring); ring).
    assert (Sq : forall x y, x * x + y * y <= 121/100 -> -11/10 <= x <= 11/10) by (intros x y Q; nra).
    assert (A1 : -11/10 <= z * c + b * s <= 11/10) by (apply (Sq _ (b * c - z * s)); lra).
    assert (A2 : -11/10 <= b * c - z * s <= 11/10) by (apply (Sq _ (z * c + b * s)); lra).
    split; apply Rabs_le; nra. }
  unfold trans, shifted, axis_limit_pad. fold h z. 
  assert (F : forall q b, - m <= b <= m -> q = (h * (z * c + b * s) * (1/1000), h * (b * c - z * s) * (1/1000)) -> Rabs (fst q) <= 11/10 * (h * (1/1000)) /\ Rabs (snd q) <= 11/10 * (h * (1/1000))).
  { intros q b Hb ->. destruct (G b Hb) as [G1 G2]. cbn [fst snd]. rewrite (Rabs_mult (h * (z * c + b * s))), (Rabs_mult (h * (b * c - z * s))), (Rabs_right (1/1000)) by lra. lra. }
  intros q [<-|[<-|[<-|[]]]].
  - apply (F _ (pcy p)); [lra|]. cbn [fst snd]. f_equal; ring.
  - apply (F _ (- (1 - pcy p))); [lra|]. cbn [fst snd]. f_equal; ring.
  - apply (F _ 0); [lra|]. cbn [fst snd]. f_equal; ring.
Qed.
Theorem C90_screen_within_limits_refuted : exists d p f, valid d /\ one_pc d p /\ 0 < pcz p /\ 0 <= pcy p <= 1 /\ plot_side_view d = Some f /\
  side_limit f < fst (side_pc f).
Proof.
  set (p := PC (1/2) (1/2) (5/4)). set (d := level 0 0 [1%nat] [p]). exists d, p. eexists.
  split; [repeat split; cbn; lia || lra|]. split; [split; [reflexivity|left; reflexivity]|]. split; [cbn; lra|]. split; [cbn; lra|]. split; [reflexivity|].
  cbn [side_limit side_pc]. unfold trans, axis_limit_pad, specimen_scintillator_distance, d. rewrite level_height. cbn [fst p pcz d_tilt level]. rewrite deg2rad_0, cos_0. lra.
Qed.

(** Likewise the top view, whose limits follow the larger of width and height. *)
Theorem C90_top_view_within_limits d p f : valid d -> one_pc d p -> 0 < pcz p -> 0 <= pcx p <= 1 -> 0 <= pcy p <= 1 ->
  let mx := Rmax (pcx p) (1 - pcx p) * width d in let my := Rmax (pcy p) (1 - pcy p) * height d in
  (pcz p * height d) * (pcz p * height d) + mx * mx + my * my <= (11/10 * Rmax (width d) (height d)) * (11/10 * Rmax (width d) (height d)) ->
  plot_top_view d = Some f ->
  forall q, In q (top_pc f :: screen_corners f) -> Rabs (fst q) <= top_limit f /\ Rabs (snd q) <= top_limit f.
Proof.
  intros Hv Ho Hz Hx Hy mx my Hm. unfold plot_top_view. set (t := deg2rad (d_tilt d)). set (w := deg2rad (d_azimuthal d)).
  assert (Y : rotate_about_axis (Vec 0 0 1) (Vec (-1) 0 0) (- t) = Vec 0 (- sin t) (cos t)).
  { rewrite rotate_unit by (unfold dot; cbn; ring). unfold rodrigues. cbn [vx vy vz]. rewrite cos_neg, sin_neg. f_equal; ring. }
  assert (Z : rotate_about_axis (Vec 0 1 0) (Vec (-1) 0 0) (- t) = Vec 0 (cos t) (sin t)).
  { rewrite rotate_unit by (unfold dot; cbn; ring). unfold rodrigues. cbn [vx vy vz]. rewrite cos_neg, sin_neg. f_equal; ring. }
  rewrite Y, Z. assert (U : dot (Vec 0 (- sin t) (cos t)) (Vec 0 (- sin t) (cos t)) = 1) by (unfold dot; cbn [vx vy vz]; pose proof (cs t); lra).
  rewrite !rotate_unit by exact U. clear Y Z U.
  assert (X' : rodrigues (Vec 0 (- sin t) (cos t)) (- w) (Vec (-1) 0 0) = Vec (- cos w) (cos t * sin w) (sin t * sin w)).
  { unfold rodrigues. cbn [vx vy vz]. rewrite cos_neg, sin_neg. f_equal; ring. }
  assert (Z' : rodrigues (Vec 0 (- sin t) (cos t)) (- w) (Vec 0 (cos t) (sin t)) = Vec (sin w) (cos t * cos w) (sin t * cos w)).
  { unfold rodrigues. cbn [vx vy vz]. rewrite cos_neg, sin_neg. pose proof (cs t) as C. revert C. generalize (cos t) (sin t) (cos w) (sin w). intros ct st cw sw C.
    assert (C' : ct * ct = 1 - st * st) by lra. f_equal; ring [C']. }
  rewrite X', Z'. cbn [vx vy vz]. clear X' Z'.
  destruct (one_distance d p [sin w; cos t * cos w; sin t * cos w] Ho) as (L & E1 & E2). rewrite E1, E2, (proj1 Ho), mean_one. cbn [map]. intros H. injection H as <-.
  cbn [screen_corners top_pc top_limit fst snd]. pose proof (cs t) as Ct. pose proof (cs w) as Cw. revert Ct Cw. generalize (cos t) (sin t) (cos w) (sin w). intros ct st cw sw Ct Cw.
  set (M := Rmax (width d) (height d)) in *. unfold specimen_scintillator_distance.
  destruct (valid_pos d Hv) as [Hr Hc]. assert (P1 : 0 < d_px_size d) by apply Hv. assert (P2 : 0 < d_binning d) by apply Hv.
  assert (Hh : 0 < height d) by (unfold height; repeat apply Rmult_lt_0_compat; lra).
  assert (M0 : 0 < M) by (unfold M; eapply Rlt_le_trans; [exact Hh|apply Rmax_r]).
  assert (Ww : 0 < width d) by (unfold width; repeat apply Rmult_lt_0_compat; lra).
  set (wd := width d) in *. set (h := height d) in *. clearbody wd h M.
  assert (Bx : pcx p * wd <= mx /\ (1 - pcx p) * wd <= mx) by (unfold mx; split; apply Rmult_le_compat_r; [lra|apply Rmax_l|lra|apply Rmax_r]).
  assert (By : pcy p * h <= my /\ (1 - pcy p) * h <= my) by (unfold my; split; apply Rmult_le_compat_r; [lra|apply Rmax_l|lra|apply Rmax_r]).
  assert (Px : 0 <= pcx p * wd /\ 0 <= (1 - pcx p) * wd) by (split; apply Rmult_le_pos; lra).
  assert (Py : 0 <= pcy p * h /\ 0 <= (1 - pcy p) * h) by (split; apply Rmult_le_pos; lra).
  assert (G : forall kx ky, - mx <= kx <= mx -> - my <= ky <= my ->
    Rabs (pcz p * h * sw + kx * - cw) <= 11/10 * M /\ Rabs (pcz p * h * (ct * cw) + kx * (ct * sw) + ky * - st) <= 11/10 * M).
  { intros kx ky Kx Ky. assert (K1 : kx * kx <= mx * mx) by nra. assert (K2 : ky * ky <= my * my) by nra. set (l := pcz p * h) in *. clearbody l.
    assert (Sq : forall x, x * x <= (11/10 * M) * (11/10 * M) -> Rabs x <= 11/10 * M).
    { intros x Q. apply Rabs_le. split; nra. }
    assert (R1 : (l * sw + kx * - cw) * (l * sw + kx * - cw) + (l * cw + kx * sw) * (l * cw + kx * sw) = l * l + kx * kx).
    { replace (l * l + kx * kx) with ((l * l + kx * kx) * (cw * cw + sw * sw)) by (rewrite Cw; ring). ring. }
    set (u := l * cw + kx * sw) in *. 
    assert (R2 : (ct * u + ky * - st) * (ct * u + ky * - st) + (st * u + ky * ct) * (st * u + ky * ct) = u * u + ky * ky).
    { replace (u * u + ky * ky) with ((u * u + ky * ky) * (ct * ct + st * st)) by (rewrite Ct; ring). ring. }
    pose proof (Rle_0_sqr u) as S1. unfold Rsqr in S1. pose proof (Rle_0_sqr (st * u + ky * ct)) as S2. unfold Rsqr in S2. pose proof (Rle_0_sqr (l * sw + kx * - cw)) as S3. unfold Rsqr in S3.
    pose proof (Rle_0_sqr ky) as S4. unfold Rsqr in S4.
    split; apply Sq; [lra|]. replace (l * (ct * cw) + kx * (ct * sw) + ky * - st) with (ct * u + ky * - st) by (unfold u; ring). lra. }
  unfold axis_limit_pad.
  assert (F : forall kx ky q, - mx <= kx <= mx -> - my <= ky <= my ->
    q = ((pcz p * h * sw + kx * - cw) * (1/1000), (pcz p * h * (ct * cw) + kx * (ct * sw) + ky * - st) * (1/1000)) ->
    Rabs (fst q) <= 11/10 * (M * (1/1000)) /\ Rabs (snd q) <= 11/10 * (M * (1/1000))).
  { intros kx ky q Kx Ky ->. destruct (G kx ky Kx Ky) as [G1 G2]. cbn [fst snd]. rewrite !(Rabs_mult _ (1/1000)), (Rabs_right (1/1000)) by lra. lra. }
  intros q [<-|[<-|[<-|[<-|[<-|[]]]]]].
  - apply (F 0 0); [lra|lra|]. f_equal; ring.
  - apply (F (- (pcx p * wd)) (- (pcy p * h))); [lra|lra|]. f_equal; ring.
  - apply (F ((1 - pcx p) * wd) (- (pcy p * h))); [lra|lra|]. f_equal; ring.
  - apply (F ((1 - pcx p) * wd) ((1 - pcy p) * h)); [lra|lra|]. f_equal; ring.
  - apply (F (- (pcx p * wd)) ((1 - pcy p) * h)); [lra|lra|]. f_equal; ring.
Qed.
(** The usual projection center of a square screen meets its hypotheses. *)
Example top_view_within_limits_example : let p := PC (5/10) (3/10) (5/10) in let d := level 0 0 [1%nat] [p] in
  let mx := Rmax (pcx p) (1 - pcx p) * width d in let my := Rmax (pcy p) (1 - pcy p) * height d in
  (pcz p * height d) * (pcz p * height d) + mx * mx + my * my <= (11/10 * Rmax (width d) (height d)) * (11/10 * Rmax (width d) (height d)).
Proof.
  cbv zeta. replace (width (level 0 0 [1%nat] [PC (5/10) (3/10) (5/10)])) with (height (level 0 0 [1%nat] [PC (5/10) (3/10) (5/10)])) by (unfold width, height; reflexivity).
  rewrite level_height. cbn [pcx pcy pcz]. rewrite !Rmax_right by lra. rewrite ?Rmax_left by lra. lra.
Qed.

(** Hypotheses of the theorems on views *)
Example views_example : let p := PC (42/100) (21/100) (5/10) in let d := Det 480 640 70 2 (23/2) 3 0 70 (PCArray [1%nat] [p]) in
  valid d /\ 0 < pcz p /\ one_pc d p /\ d_twist d = 0 /\ exists v, screen_point d p 0 0 v.
Proof.
  cbv zeta. split; [repeat split; cbn; lia || lra|]. split; [cbn; lra|]. split; [split; [reflexivity|left; reflexivity]|]. split; [reflexivity|apply screen_point_exists].
Qed.
Print Assumptions C90_top_view.
