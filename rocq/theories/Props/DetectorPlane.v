(** C91: the plot of the detector screen. *)
From Coq Require Import String List Arith ZArith Reals Bool Lia Lra.
From Verif Require Import Model.Detector Model.KikuchiLines Spec.DetectorGeometry Spec.ScreenPlot.
From Verif Require Import Proofs.DetectorProofs Proofs.SimulationMarkersProofs Props.KikuchiLines.
From Verif Require Model.SimulationMarkers Props.SimulationMarkers.
From Verif Require Import Model.DetectorPlane.
Import ListNotations.
Import Model.SimulationMarkers(drawn_at, detector_plot). Import Props.SimulationMarkers(drawn_point, detector_plot_points, meanR_one, mean_of_one).
Local Open Scope R_scope.

(** ** Which arguments *)

(** Plotting fails only for unknown coordinates or for a pattern with another shape than the detector. *)
Theorem C91_plot_fails_iff d fmt zoom show_pc circles shape angles :
  plot d fmt zoom show_pc circles shape angles = None <->
  (fmt <> "pixel" /\ fmt <> "gnomonic" /\ fmt <> "detector")%string \/ exists ny nx, shape = Some (ny, nx) /\ (ny <> d_ny d \/ nx <> d_nx d).
Proof.
  assert (P : forall c, plot_detector d c zoom show_pc circles shape angles = None <-> exists ny nx, shape = Some (ny, nx) /\ (ny <> d_ny d \/ nx <> d_nx d)).
  { intros c. unfold plot_detector. destruct shape as [[ny nx]|]; cbn [negb].
    - destruct (Z.eqb_spec ny (d_ny d)) as [->|N], (Z.eqb_spec nx (d_nx d)) as [->|M]; cbn [andb negb].
      + destruct (detector_plot d c) as [pc [[x0 x1] [y0 y1]]]. split; [discriminate|]. intros (a & b & E & F). injection E as <- <-. tauto.
      + split; [|reflexivity]. intros _. eauto.
      + split; [|reflexivity]. intros _. eauto.
      + split; [|reflexivity]. intros _. eauto.
    - destruct (detector_plot d c) as [pc [[x0 x1] [y0 y1]]]. split; [discriminate|]. intros (a & b & E & F). discriminate. }
  unfold plot, parse_coordinate_format.
  destruct (String.eqb_spec fmt "detector") as [->|A]; [rewrite P; intuition|].
  destruct (String.eqb_spec fmt "pixel") as [->|B]; [rewrite P; intuition|].
  destruct (String.eqb_spec fmt "gnomonic") as [->|C]; [rewrite P; intuition|].
  split; [tauto|reflexivity].
Qed.
Example C91_fails_example : plot (Det 60 80 1 1 0 0 0 70 (PCArray [1%nat] [PC (1/2) (1/2) (1/2)])) "gnomonic" 1 true true (Some (80, 60)%Z) None = None.
Proof. reflexivity. Qed.

(** ** Where things are *)

(** With one PC, in both kinds of coordinates: a point of the screen (in fractions of its width from the left and of its height from the top)
    is drawn where lines of a simulation have its coordinates, and the PC is drawn where, seen from the source, the screen is met at right
    angles. *)
Theorem C91_screen_and_pc d p fmt zoom show_pc circles shape angles s :
  valid d -> pcs (d_pc d) = [p] -> 0 < pcz p -> plot d fmt zoom show_pc circles shape angles = Some s ->
  exists c, (c = Gnomonic <-> fmt = "gnomonic"%string) /\
    pc_drawn s = (if show_pc then Some (drawn_point d p c 0 0) else None) /\
    (show_pc = true -> pc_drawn s = Some (drawn_at (area s) (pcx p) (pcy p))) /\
    forall right below, drawn_at (area s) right below =
      drawn_point d p c (gnomonic_x (source d p) (right * width d)) (gnomonic_y (source d p) (below * height d)).
Proof.
  intros Hv Hp Hz H. unfold plot in H. destruct (parse_coordinate_format fmt) as [c|] eqn:F; [|discriminate]. exists c.
  split.
  { unfold parse_coordinate_format in F. destruct (String.eqb_spec fmt "detector") as [->|A]; [injection F as <-; split; discriminate|].
    destruct (String.eqb_spec fmt "pixel") as [->|B]; [injection F as <-; split; discriminate|].
    destruct (String.eqb_spec fmt "gnomonic") as [->|C]; [injection F as <-; tauto|discriminate]. }
  pose proof (detector_plot_points d p c Hv Hp Hz) as [E1 E2]. unfold plot_detector in H. destruct (negb _); [discriminate|].
  destruct (detector_plot d c) as [pc [[x0 x1] [y0 y1]]]. injection H as <-. cbn [pc_drawn area fst snd] in *.
  split; [now rewrite E1|]. split; [|exact E2]. intros ->. f_equal. rewrite E2, E1. destruct (valid_pos d Hv) as [Hr Hc].
  assert (P1 : 0 < d_px_size d) by apply Hv. assert (P2 : 0 < d_binning d) by apply Hv.
  f_equal; [unfold gnomonic_x|unfold gnomonic_y]; unfold source, bruker_position, width, height; cbn [right_of_left_edge below_top_edge distance];
    field; repeat split; lra.
Qed.

(** A pixel of the pattern covers, in pixel coordinates, the point with its own row and column. *)
Theorem C91_pixels_of_pattern d p zoom show_pc circles shape angles s (row column : nat) :
  valid d -> pcs (d_pc d) = [p] -> 0 < pcz p -> (Z.of_nat row < d_ny d)%Z -> (Z.of_nat column < d_nx d)%Z -> (1 < d_ny d)%Z -> (1 < d_nx d)%Z ->
  plot d "pixel" zoom show_pc circles shape angles = Some s ->
  let at_ a b := drawn_at (area s) (a / ncols d) (b / nrows d) in
  between (fst (at_ (INR column) 0), fst (at_ (INR column + 1) 0)) (INR column) /\
  between (snd (at_ 0 (INR row)), snd (at_ 0 (INR row + 1))) (INR row).
Proof.
  intros Hv Hp Hz Lr Lc Ny Nx H. unfold plot, parse_coordinate_format in H. cbn [String.eqb Ascii.eqb Bool.eqb] in H.
  unfold plot_detector in H. destruct (negb _); [discriminate|]. cbv zeta in H. unfold detector_plot in H. injection H as <-. cbn [area]. cbv zeta.
  assert (A : 1 <= ncols d - 1) by (unfold ncols; rewrite <- minus_IZR; apply IZR_le; lia).
  assert (B : 1 <= nrows d - 1) by (unfold nrows; rewrite <- minus_IZR; apply IZR_le; lia).
  rewrite !Rmax_left by assumption. cbn [drawn_at fst snd].
  assert (C : INR column <= ncols d - 1) by (unfold ncols; rewrite INR_IZR_INZ, <- minus_IZR; apply IZR_le; lia).
  assert (D : INR row <= nrows d - 1) by (unfold nrows; rewrite INR_IZR_INZ, <- minus_IZR; apply IZR_le; lia).
  pose proof (pos_INR column). pose proof (pos_INR row).
  set (n := ncols d) in *. set (m := nrows d) in *. clearbody n m.
  assert (G : forall k n, 0 <= k -> k <= n - 1 -> 1 <= n - 1 -> 0 + k / n * (n - 1 - 0) <= k <= 0 + (k + 1) / n * (n - 1 - 0)).
  { clear. intros k n K L M. assert (n <> 0) by lra. replace (0 + k / n * (n - 1 - 0)) with (k - k / n) by (field; lra).
    replace (0 + (k + 1) / n * (n - 1 - 0)) with (k + (n - 1 - k) / n) by (field; lra).
    assert (0 <= k / n) by (apply Rmult_le_pos; [lra|apply Rlt_le, Rinv_0_lt_compat; lra]).
    assert (0 <= (n - 1 - k) / n) by (apply Rmult_le_pos; [lra|apply Rlt_le, Rinv_0_lt_compat; lra]). lra. }
  split; left; cbn [fst snd]; apply G; assumption.
Qed.

Example C91_screen_example : let d := Det 60 80 1 1 0 0 0 70 (PCArray [1%nat] [PC (2/5) (1/5) (1/2)]) in
  valid d /\ exists s, plot d "gnomonic" 2 true true (Some (60, 80)%Z) None = Some s /\ pc_drawn s = Some (0, 0) /\ length (circles_drawn s) = 8%nat.
Proof. split; [repeat split; cbn; lra || lia|]. eexists. repeat split. Qed.

(** Several PCs: the mark is at the average PC in pixel coordinates, but not in gnomonic ones, unless all are at the same distance. *)
Definition far_and_near : detector := Det 60 60 1 1 0 0 0 70 (PCArray [2%nat] [PC (1/4) (1/2) (1/2); PC (3/4) (1/2) 1]).
Theorem C91_average_pc_refuted : exists s t,
  plot far_and_near "pixel" 1 true false None None = Some s /\ plot far_and_near "gnomonic" 1 true false None None = Some t /\
  pc_drawn s = Some (drawn_at (area s) (1/2) (1/2)) /\ pc_drawn t <> Some (drawn_at (area t) (1/2) (1/2)).
Proof.
  eexists _, _. split; [reflexivity|]. split; [reflexivity|]. cbn [pc_drawn area].
  unfold far_and_near, detector_plot, mean_pc, meanR, sumR, x_min, x_max, y_min, y_max, aspect_ratio, ncols, nrows. cbn.
  split.
  - rewrite Rmax_left by lra. do 2 f_equal; lra.
  - intros H. injection H as H _. lra.
Qed.

(** Pixel coordinates of the plot are not those of to_pixel_coords(): there the PC is at pcx times the number of columns. *)
Theorem C91_pixel_coordinates_refuted : exists d p s, valid d /\ pcs (d_pc d) = [p] /\
  plot d "pixel" 1 true false None None = Some s /\
  pc_drawn s = Some (59/2, 59/2) /\ to_pixel d p (0, 0) = (30, 30).
Proof.
  exists (Det 60 60 1 1 0 0 0 70 (PCArray [1%nat] [PC (1/2) (1/2) (1/2)])), (PC (1/2) (1/2) (1/2)). eexists.
  split; [repeat split; cbn; lra || lia|]. split; [reflexivity|]. split; [reflexivity|]. split.
  - cbn [pc_drawn]. unfold mean_pc, meanR, sumR, ncols, nrows. cbn. rewrite Rmax_left by lra. do 2 f_equal; lra.
  - unfold to_pixel, apply_factors, gn_to_pix, x_min, x_max, y_min, y_max, aspect_ratio, ncols, nrows. cbn. f_equal; field.
Qed.

(** ** Zoom *)

(** Zooming out, the whole screen is seen as long as the PC is on it, ... *)
Theorem C91_zoom_out d p fmt zoom show_pc circles shape angles s right below :
  valid d -> pcs (d_pc d) = [p] -> 0 < pcz p -> 0 <= pcx p <= 1 -> 0 <= pcy p <= 1 -> 1 <= zoom ->
  0 <= right <= 1 -> 0 <= below <= 1 ->
  plot d fmt zoom show_pc circles shape angles = Some s ->
  between (x_limits s) (fst (drawn_at (area s) right below)) /\ between (y_limits s) (snd (drawn_at (area s) right below)).
Proof.
  intros Hv Hp Hz Px Py Z1 Hr Hb H. unfold plot in H. destruct (parse_coordinate_format fmt) as [c|]; [|discriminate].
  unfold plot_detector in H. destruct (negb _); [discriminate|]. destruct (valid_pos d Hv) as [Nr Nc].
  assert (G : forall x0 x1 t, x0 <= 0 -> 0 <= x1 -> 0 <= t <= 1 -> x0 * zoom <= x0 + t * (x1 - x0) <= x1 * zoom).
  { intros x0 x1 t A B T. assert (0 <= t * (x1 - x0)) by (apply Rmult_le_pos; lra). assert (t * (x1 - x0) <= 1 * (x1 - x0)) by (apply Rmult_le_compat_r; lra).
    assert (x1 * 1 <= x1 * zoom) by (apply Rmult_le_compat_l; lra). assert (- x0 * 1 <= - x0 * zoom) by (apply Rmult_le_compat_l; lra). lra. }
  unfold detector_plot in H. rewrite Hp, mean_of_one in H. cbn [map] in H. rewrite !meanR_one in H. destruct c; injection H as <-; cbn [x_limits y_limits area drawn_at fst snd].
  - pose proof (Rmax_r (ncols d - 1) 1). pose proof (Rmax_r (nrows d - 1) 1).
    split; [left|right]; cbn [fst snd]; apply G; lra.
  - assert (I : 0 < / pcz p) by (apply Rinv_0_lt_compat; lra).
    assert (J : 0 < aspect_ratio d) by (unfold aspect_ratio; apply Rdiv_lt_0_compat; lra).
    split; left; cbn [fst snd].
    + apply G; [| |assumption].
      * unfold x_min, Rdiv. assert (0 <= aspect_ratio d * (pcx p * / pcz p)) by (apply Rmult_le_pos; [lra|apply Rmult_le_pos; lra]). lra.
      * unfold x_max, Rdiv. apply Rmult_le_pos; [apply Rmult_le_pos; lra|lra].
    + replace (y_max d p + below * (y_min d p - y_max d p)) with (y_min d p + (1 - below) * (y_max d p - y_min d p)) by ring. apply G; [| |lra].
      * unfold y_min, Rdiv. assert (0 <= (1 - pcy p) * / pcz p) by (apply Rmult_le_pos; lra). lra.
      * unfold y_max, Rdiv. apply Rmult_le_pos; lra.
Qed.
(** ... but if it is below the screen, zooming out hides part of the screen that is seen without zoom. *)
Definition pc_below : detector := Det 60 60 1 1 0 0 0 70 (PCArray [1%nat] [PC (1/2) (6/5) (1/2)]).
Theorem C91_zoom_out_refuted : exists s t, valid pc_below /\
  plot pc_below "gnomonic" 1 true false None None = Some s /\ plot pc_below "gnomonic" 2 true false None None = Some t /\
  area s = area t /\ between (y_limits s) (snd (drawn_at (area s) (1/2) 1)) /\ ~ between (y_limits t) (snd (drawn_at (area t) (1/2) 1)).
Proof.
  eexists _, _. split; [repeat split; cbn; lra || lia|]. split; [reflexivity|]. split; [reflexivity|]. cbn [area y_limits].
  unfold detector_plot, x_min, x_max, y_min, y_max, meanR, sumR, between. cbn. split; [reflexivity|]. split; [left; lra|]. lra.
Qed.
(** In pixel coordinates the upper left corner of the screen stays in the upper left corner of the plot. *)
Theorem C91_zoom_in_pixels d zoom show_pc circles shape angles s :
  plot d "pixel" zoom show_pc circles shape angles = Some s -> fst (x_limits s) = 0 /\ snd (y_limits s) = 0.
Proof.
  unfold plot. cbn. unfold plot_detector. destruct (negb _); [discriminate|]. intros H. injection H as <-. cbn. lra.
Qed.

(** ** Gnomonic circles *)

Lemma circle_angle angle x y : 0 < angle < PI / 2 -> makes_angle angle x y <-> x ^ 2 + y ^ 2 = tan angle ^ 2 /\ 0 < tan angle.
Proof.
  intros A. assert (C : 0 < cos angle) by (apply cos_gt_0; lra). assert (S : 0 < sin angle) by (apply sin_gt_0; lra).
  assert (T : 0 < tan angle) by (apply tan_gt_0; lra). unfold makes_angle.
  assert (N : 0 < x * x + y * y + 1) by nra. assert (Q : tan angle ^ 2 = / (cos angle * cos angle) - 1).
  { unfold tan. pose proof (sin2_cos2 angle) as E. unfold Rsqr in E. replace ((sin angle / cos angle) ^ 2) with ((sin angle * sin angle) / (cos angle * cos angle)) by (field; lra).
    replace (sin angle * sin angle) with (1 - cos angle * cos angle) by lra. field. lra. }
  rewrite Q. split.
  - intros H. split; [|exact T]. assert (E : sqrt (x * x + y * y + 1) = / cos angle) by (apply Rmult_eq_reg_l with (cos angle); [rewrite H; field; lra|lra]).
    assert (F : x * x + y * y + 1 = / cos angle * / cos angle) by (rewrite <- E; symmetry; apply sqrt_sqrt; lra).
    rewrite Rinv_mult. lra.
  - intros [H _]. replace (x * x + y * y + 1) with (/ cos angle * / cos angle) by (rewrite Rinv_mult in H; lra).
    rewrite sqrt_square by (apply Rlt_le, Rinv_0_lt_compat; lra). field. lra.
Qed.
(** In gnomonic coordinates, the circles are where directions make the given angles (below 90 degrees) with the direction towards the PC. *)
Theorem C91_gnomonic_circles d zoom show_pc shape angles s : plot d "gnomonic" zoom show_pc true shape (Some angles) = Some s ->
  length (circles_drawn s) = length angles /\
  forall k a circle, nth_error angles k = Some a -> 0 < a < 90 -> nth_error (circles_drawn s) k = Some circle ->
  forall x y, on_circle circle x y <-> makes_angle (deg2rad a) x y.
Proof.
  unfold plot. cbn [parse_coordinate_format]. cbn. unfold plot_detector. destruct (negb _); [discriminate|]. unfold detector_plot. intros H. injection H as <-.
  cbn [circles_drawn]. unfold gnomonic_circles. split; [apply map_length|]. intros k a circle Ha R0 Hc x y. rewrite nth_error_map, Ha in Hc. cbn in Hc. injection Hc as <-.
  rewrite circle_angle by (unfold deg2rad; pose proof PI_RGT_0; nra). unfold on_circle. cbn [fst snd]. replace (x - 0) with x by ring. replace (y - 0) with y by ring. tauto.
Qed.
(** The default angles are 10, 20, ..., 80. *)
Theorem C91_default_circles d zoom show_pc shape s : plot d "gnomonic" zoom show_pc true shape None = Some s ->
  plot d "gnomonic" zoom show_pc true shape (Some [10; 20; 30; 40; 50; 60; 70; 80]) = Some s.
Proof.
  assert (E : default_gnomonic_angles = [10; 20; 30; 40; 50; 60; 70; 80]).
  { unfold default_gnomonic_angles. cbn [seq map INR]. repeat (apply (f_equal2 cons); [field|]). reflexivity. }
  rewrite <- E. exact (fun H => H).
Qed.
(** In pixel coordinates they are around the PC, but of the same size: less than six pixels. *)
Theorem C91_circles_in_pixels_refuted : exists d p s circle, valid d /\ pcs (d_pc d) = [p] /\
  plot d "pixel" 1 true true None (Some [45]) = Some s /\ circles_drawn s = [circle] /\
  on_circle circle (59/2 + 1) (59/2) /\
  ~ exists x y, pixel d p (x, y) = (59/2 + 1, 59/2) /\ makes_angle (deg2rad 45) x y.
Proof.
  exists (Det 60 60 1 1 0 0 0 70 (PCArray [1%nat] [PC (1/2) (1/2) (1/2)])), (PC (1/2) (1/2) (1/2)). eexists _, _.
  split; [repeat split; cbn; lra || lia|]. split; [reflexivity|]. split; [reflexivity|]. split; [reflexivity|].
  assert (T : tan (deg2rad 45) = 1) by (unfold deg2rad; replace (45 * (PI / 180)) with (PI / 4) by field; apply tan_PI4).
  assert (E : 0 < deg2rad 45 < PI / 2) by (unfold deg2rad; pose proof PI_RGT_0; nra).
  split.
  - unfold on_circle. cbn [fst snd]. rewrite T. unfold mean_pc, meanR, sumR, ncols, nrows. cbn. rewrite Rmax_left by lra. lra.
  - intros (x & y & P & A). apply circle_angle in A; [|exact E]. rewrite T in A. destruct A as [A _].
    unfold pixel, x_scale, y_scale, x_max, x_min, y_max, y_min, aspect_ratio, ncols, nrows in P. cbn in P. injection P as Px Py.
    assert (X : x = 2/59) by (field_simplify in Px; lra). assert (Y : y = 0) by (field_simplify in Py; lra). subst. lra.
Qed.

Print Assumptions C91_screen_and_pc.
Print Assumptions C91_gnomonic_circles.
