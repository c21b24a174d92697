(** The interactive plot of a detector and sample, EBSDDetectorPlotter (property C92). *)
From Coq Require Import String List Arith ZArith Reals Bool Lia Lra.
From Verif Require Import Model.Detector Model.Rotations Model.Simulation Model.KikuchiLines Model.GeometryViews.
From Verif Require Import Model.DetectorPlane Model.DetectorPlotter Spec.InteractivePlot Proofs.DetectorPlotterProofs.
From Verif Require Model.Lambert Props.Rotations.
Import ListNotations.
Local Open Scope R_scope.

(** ** Sliders *)

(** The usual ranges: degrees, and fractions of the detector. *)
Definition documented_range (q : parameter) : R * R :=
  match q with SampleTilt => (0, 90) | DetectorTilt => (-90, 90) | Azimuthal => (-10, 10) | Twist => (-10, 10) | PCx => (0, 1) | PCy => (-1/2, 3/2) | PCz => (2/10, 1) end.
Lemma as_documented q : usual_range q = documented_range q.
Proof. destruct q; reflexivity. Qed.
(** A slider starts at the value of the detector; its range has that value and the usual range, and is the usual range if that has the value. *)
Theorem C92_slider_starts_at_value q d : let s := parameter_slider q d in
  value s = current q d /\ least s <= current q d <= greatest s /\ least s <= fst (documented_range q) /\ snd (documented_range q) <= greatest s /\
  (fst (documented_range q) <= current q d <= snd (documented_range q) -> (least s, greatest s) = documented_range q).
Proof.
  rewrite <- (as_documented q). intros s. destruct (range_contains (current q d) _ _ (usual_ordered q)) as (A & B & C & D). split; [apply slider_at|]. unfold s, parameter_slider, new_slider, set_value. cbn [least greatest fst snd].
  repeat split; try assumption; try apply A. intros H. rewrite (D H). cbn [fst snd]. destruct (usual_range q). reflexivity.
Qed.
(** A slider does not leave its range and takes any value in it. *)
Theorem C92_slider_keeps_range s v : least s <= greatest s -> least s <= value (set_value s v) <= greatest s /\
  (least s <= v <= greatest s -> value (set_value s v) = v) /\ least (set_value s v) = least s /\ greatest (set_value s v) = greatest s.
Proof.
  intros L. unfold set_value. cbn [value least greatest]. split; [|split; [|auto]].
  - split; [apply Rmin_glb; [apply Rmax_r|exact L]|apply Rmin_r].
  - intros [A B]. rewrite Rmax_left by exact A. now rewrite Rmin_left.
Qed.

(** ** Overlays *)

(** A geometrical simulation or master pattern is accepted if there is a rotation and none of that kind yet; otherwise nothing is changed. *)
Theorem C92_geometrical_simulation_accepted i base reflectors b z w :
  (snd (step (SetGeometrical i base reflectors b z) w) = true <->
   exists p r, nth_error (plotters w) i = Some p /\ p_rotation p = Some r /\ forall o, In o (p_overlays p) -> is_geometrical o = false) /\
  (snd (step (SetGeometrical i base reflectors b z) w) = false -> fst (step (SetGeometrical i base reflectors b z) w) = w).
Proof.
  cbn [step]. unfold set_geometrical. destruct (nth_error (plotters w) i) as [p|] eqn:P; [|split; [split; [discriminate|intros (p & r & H & _); discriminate]|reflexivity]].
  unfold can_set. destruct (p_rotation p) as [r|] eqn:R.
  - destruct (existsb _ _) eqn:E; cbn [negb].
    + split; [|reflexivity]. split; [discriminate|]. intros (p' & r' & H & _ & N). injection H as <-. apply existsb_exists in E. destruct E as (o & I & O). rewrite (N o I) in O. discriminate.
    + match goal with |- (snd ?x = true <-> _) /\ _ => assert (X : snd x = true) by (destruct b, z; reflexivity) end.
      rewrite X. split; [|discriminate]. split; [|reflexivity]. intros _. exists p, r. split; [reflexivity|]. split; [exact R|]. intros o I. destruct (is_geometrical o) eqn:O; [|reflexivity].
      exfalso. rewrite <- Bool.not_true_iff_false in E. apply E. apply existsb_exists. exists o. rewrite O. auto.
  - split; [|reflexivity]. split; [discriminate|]. intros (p' & r' & H & N & _). congruence.
Qed.
Theorem C92_master_pattern_accepted i suitable mp w :
  (snd (step (SetMasterPattern i suitable mp) w) = true <->
   exists p r, nth_error (plotters w) i = Some p /\ p_rotation p = Some r /\ suitable = true /\ forall o, In o (p_overlays p) -> is_geometrical o = true) /\
  (snd (step (SetMasterPattern i suitable mp) w) = false -> fst (step (SetMasterPattern i suitable mp) w) = w).
Proof.
  cbn [step]. unfold set_master_pattern. destruct (nth_error (plotters w) i) as [p|] eqn:P; [|split; [split; [discriminate|intros (p & r & H & _); discriminate]|reflexivity]].
  unfold can_set. destruct (p_rotation p) as [r|] eqn:R.
  - destruct (existsb _ _) eqn:E; cbn [negb andb].
    + split; [|reflexivity]. split; [discriminate|]. intros (p' & r' & H & _ & _ & N). injection H as <-. apply existsb_exists in E. destruct E as (o & I & O). rewrite (N o I) in O. discriminate.
    + destruct suitable.
      * split; [|discriminate]. split; [|reflexivity]. intros _. exists p, r. split; [reflexivity|]. split; [exact R|]. split; [reflexivity|]. intros o I. destruct (is_geometrical o) eqn:O; [reflexivity|].
        exfalso. rewrite <- Bool.not_true_iff_false in E. apply E. apply existsb_exists. exists o. rewrite O. auto.
      * split; [|reflexivity]. split; [discriminate|]. intros (p' & r' & _ & _ & H & _). discriminate.
  - split; [|reflexivity]. split; [discriminate|]. intros (p' & r' & H & N & _). congruence.
Qed.

Definition proper (p : plotter) : Prop :=
  (length (filter is_geometrical (p_overlays p)) <= 1)%nat /\ (length (filter (fun o => negb (is_geometrical o)) (p_overlays p)) <= 1)%nat /\
  (p_rotation p = None -> p_overlays p = []).
Lemma none_of (f : overlay -> bool) l : existsb f l = false -> filter f l = [].
Proof. induction l as [|o l IH]; cbn; [reflexivity|]. destruct (f o); [discriminate|exact IH]. Qed.
Lemma filter_app_one (f : overlay -> bool) l o : filter f (l ++ [o]) = (filter f l ++ if f o then [o] else [])%list.
Proof. rewrite filter_app. reflexivity. Qed.
Lemma existsb_ext (f g : overlay -> bool) l : (forall o, f o = g o) -> existsb f l = existsb g l.
Proof. intros E. induction l as [|o l IH]; cbn; [reflexivity|]. now rewrite E, IH. Qed.
Lemma proper_add p c : proper p -> can_set p (is_geometrical (Overlay c true)) = true -> proper (Plotter (p_detector p) (p_rotation p) (p_overlays p ++ [Overlay c true])%list).
Proof.
  intros (A & B & C) H. unfold can_set in H. destruct (p_rotation p) as [r|] eqn:R; [|discriminate]. apply negb_true_iff in H. unfold proper. cbn [p_overlays p_rotation]. rewrite !filter_app_one.
  destruct (is_geometrical (Overlay c true)) eqn:G; cbn [negb].
  - rewrite (existsb_ext _ is_geometrical) in H by (intros o; destruct (is_geometrical o); reflexivity). rewrite (none_of _ _ H). rewrite app_nil_r. cbn. repeat split; auto. discriminate.
  - rewrite (existsb_ext _ (fun o => negb (is_geometrical o))) in H by (intros o; destruct (is_geometrical o); reflexivity). rewrite (none_of _ _ H). rewrite app_nil_r. cbn. repeat split; auto. discriminate.
Qed.
Lemma proper_tick k (l : list overlay) j o : nth_error l j = Some o -> map is_geometrical (replace j (Overlay (of_content o) k) l) = map is_geometrical l.
Proof. revert j. induction l as [|x l IH]; intros [|j] H; cbn in *; try discriminate; [injection H as ->; reflexivity|]. now rewrite IH. Qed.
Lemma filter_length_map (g : bool -> bool) l : length (filter (fun o => g (is_geometrical o)) l) = length (filter g (map is_geometrical l)).
Proof. induction l as [|o l IH]; cbn; [reflexivity|]. destruct (g (is_geometrical o)); cbn; congruence. Qed.
Lemma step_proper a w : (forall k p, nth_error (plotters w) k = Some p -> proper p) -> forall k p, nth_error (plotters (fst (step a w))) k = Some p -> proper p.
Proof.
  intros G. assert (K : forall w', drawn_again w w' -> forall k p, nth_error (plotters w') k = Some p -> proper p) by (intros w' (_ & E & _) k p; rewrite E; apply G).
  destruct a as [a r inplace|i base refl b z|i ok mp|i c|j c v|j|j|i j|a q v|a pcs0]; cbn [step].
  - unfold create. destruct (nth_error (detectors w) a); [|exact G]. destruct inplace; cbn [fst with_plotters with_detectors plotters]; intros k p H; apply nth_app_one in H; destruct H as [H|[_ ->]]; eauto; repeat split; cbn; lia.
  - unfold set_geometrical. destruct (nth_error (plotters w) i) as [p0|] eqn:P; [|exact G]. destruct (can_set p0 true) eqn:C; [|exact G].
    destruct b, z; cbn [dictionary fst add_overlay with_plotters with_defaults with_dictionaries plotters]; intros k p H; apply nth_replace in H; destruct H as [(<- & -> & _)|[_ H]]; eauto; apply proper_add; eauto.
  - unfold set_master_pattern. destruct (nth_error (plotters w) i) as [p0|] eqn:P; [|exact G]. destruct (can_set p0 false) eqn:C; [|exact G]. destruct ok; [|exact G].
    cbn [andb fst add_overlay with_plotters plotters]. intros k p H. apply nth_replace in H. destruct H as [(<- & -> & _)|[_ H]]; eauto. apply proper_add; eauto.
  - unfold show. destruct (nth_error (plotters w) i) as [p0|]; [|exact G]. destruct (nth_error (detectors w) (p_detector p0)); [|exact G]. destruct (redraw _ _ _ _ _ _); exact G.
  - apply K, move_again.
  - apply K, tick_pc_again.
  - apply K, tick_circles_again.
  - unfold tick_overlay. destruct (nth_error (plotters w) i) as [p0|] eqn:P; [|exact G]. destruct (nth_error (p_overlays p0) j) as [o|] eqn:O; [|exact G]. cbv zeta.
    match goal with |- context [on_changes ?l ?w1] => destruct (on_changes_again l w1) as (_ & E & _) end. rewrite E. cbn [with_plotters plotters]. intros k p H.
    apply nth_replace in H. destruct H as [(<- & -> & _)|[_ H]]; [|eauto]. destruct (G i p0 P) as (A & B & C). unfold proper. cbn [p_overlays p_rotation].
    rewrite (filter_length_map (fun x => x)), (filter_length_map negb), (proper_tick _ _ _ _ O), <- (filter_length_map (fun x => x)), <- (filter_length_map negb).
    repeat split; [exact A|exact B|]. intros N. specialize (C N). rewrite C in O. destruct j; discriminate.
  - unfold on_detector_at. destruct (nth_error (detectors w) a); exact G.
  - unfold on_detector_at. destruct (nth_error (detectors w) a); exact G.
Qed.
(** In every history, a plotter has at most one of each kind of overlay, and none without a rotation. *)
Theorem C92_one_overlay_of_each_kind h ds os i p : nth_error (plotters (run h (start ds os))) i = Some p ->
  (length (filter is_geometrical (p_overlays p)) <= 1)%nat /\ (length (filter (fun o => negb (is_geometrical o)) (p_overlays p)) <= 1)%nat /\
  (p_rotation p = None -> p_overlays p = []).
Proof.
  revert i p. induction h as [|a h IH] using rev_ind; intros i p; [destruct i; discriminate|]. rewrite run_snoc. apply step_proper. exact IH.
Qed.

(** ** Pictures *)

(** In every history where overlays are set before the plot is shown and detectors get single PCs, every figure shows the detector with the values of its
    sliders, from the side, from the top and its screen; the PC and circles if their boxes are ticked; and overlays with ticked boxes, for the
    orientation its sliders have. *)
Theorem C92_figures_show_their_controls h ds os i f : overlays_before_shows h -> one_pc_assigned h -> nth_error (figures (run h (start ds os))) i = Some f ->
  exists p d, nth_error (plotters (run h (start ds os))) (f_plotter f) = Some p /\ nth_error (detectors (run h (start ds os))) (p_detector p) = Some d /\
    shows (with_values (fun q => value (f_sliders f q)) d)
      (match f_angles f with
       | Some a => Some (rotation_from_euler (deg2rad (value (a Phi1))) (deg2rad (value (a BigPhi))) (deg2rad (value (a Phi2))))
       | None => option_map quaternion (p_rotation p)
       end) (f_coordinates f) (f_pc f) (f_circles f) (p_overlays p) (f_picture f).
Proof.
  intros A B F. destruct (run_good h ds os A B) as [G1 G2]. destruct (G2 i f F) as [(p & P & _) [[]|U]]. destruct (G1 _ p P) as (d & D & _).
  exists p, d. split; [exact P|]. split; [exact D|]. apply redraw_shows. exact (U p d P D).
Qed.
(** In these histories no control and no box fails. *)
Theorem C92_controls_do_not_fail h ds os i f c v : overlays_before_shows h -> one_pc_assigned h -> nth_error (figures (run h (start ds os))) i = Some f ->
  let w := run h (start ds os) in
  snd (step (Move i c v) w) = true /\ snd (step (TickPC i) w) = true /\ snd (step (TickCircles i) w) = true /\
  forall k, snd (step (Show (f_plotter f) k) w) = true.
Proof.
  intros A B F w. pose proof (run_good h ds os A B) as G. fold w in G, F. cbn [step]. unfold move, tick_pc, tick_circles. rewrite F. repeat split.
  - destruct (moved f c v) as [f'|] eqn:M; [|reflexivity]. destruct (moved_same f c v f' M) as [P W]. destruct (changed_good i f f' w G F P W) as (w' & -> & _). reflexivity.
  - match goal with |- context [replace i ?f' _] => destruct (changed_good i f f' w G F eq_refl eq_refl) as (w' & -> & _) end. reflexivity.
  - match goal with |- context [replace i ?f' _] => destruct (changed_good i f f' w G F eq_refl eq_refl) as (w' & -> & _) end. reflexivity.
  - intros k. destruct G as [G1 G2]. destruct (G2 i f F) as [(p & P & _) _]. destruct (G1 _ p P) as (d & D & O). unfold show. rewrite P, D.
    match goal with |- context [redraw d ?q k ?x ?y ?z] => destruct (redraw_one d q k x y z O) as [pict ->] end. reflexivity.
Qed.

Lemma to_matrix_neg q : to_matrix (qneg q) = to_matrix q.
Proof. destruct q. unfold to_matrix, qneg. cbn. f_equal; f_equal; ring. Qed.
Lemma draw_neg d q c o : draw d (qneg q) c o = draw d q c o.
Proof.
  unfold draw. destruct (ticked o); [|reflexivity]. destruct (pcs (d_pc d)) as [|p [|? ?]]; try reflexivity. destruct (of_content o) as [base refl b z|mp].
  - replace (geometrical_simulation base refl d p (qneg q) c) with (geometrical_simulation base refl d p q c); [reflexivity|].
    unfold geometrical_simulation, hkl_d, uvw_d, u_os. now rewrite to_matrix_neg.
  - assert (E : forall dc, project_single mp Intensity.Float32 true 0 1 (qneg q) dc = project_single mp Intensity.Float32 true 0 1 q dc).
    { intros dc. unfold project_single.
      rewrite (map_ext (fun v => Lambert.pixel_from_master_pattern (upper mp) (lower mp) (npx mp) (rotate_vector (qneg q) v))
        (fun v => Lambert.pixel_from_master_pattern (upper mp) (lower mp) (npx mp) (rotate_vector q v))); [reflexivity|]. intros v. cbn beta. now rewrite Props.Rotations.neg_rotates. }
    destruct (match direction_cosines d None with OneSet dc => all_some dc | PerPC _ => None end); cbn [option_map]; [rewrite E|]; reflexivity.
Qed.
Lemma redraw_neg d q c pc circles l : redraw d (Some (qneg q)) c pc circles l = redraw d (Some q) c pc circles l.
Proof. unfold redraw. erewrite (map_ext (draw d (qneg q) c)); [reflexivity|]. intros o. apply draw_neg. Qed.
(** At first, the detector and orientation given are shown. *)
Theorem C92_given_orientation_shown_first i c w w' p r : nth_error (plotters w) i = Some p -> p_rotation p = Some r ->
  (0 <= euler r Phi1 <= 360 /\ 0 <= euler r BigPhi <= 180 /\ 0 <= euler r Phi2 <= 360) ->
  (let q := rotation_from_euler (deg2rad (euler r Phi1)) (deg2rad (euler r BigPhi)) (deg2rad (euler r Phi2)) in q = quaternion r \/ q = qneg (quaternion r)) ->
  step (Show i c) w = (w', true) ->
  exists f d, nth_error (figures w') (length (figures w)) = Some f /\ nth_error (detectors w) (p_detector p) = Some d /\ detectors w' = detectors w /\
    shows d (Some (quaternion r)) c true false (p_overlays p) (f_picture f).
Proof.
  intros P R (A & B & C) Q. cbn [step]. unfold show. rewrite P. destruct (nth_error (detectors w) (p_detector p)) as [d|] eqn:D; [|discriminate]. cbv zeta. rewrite R.
  match goal with |- context [redraw d ?q c true false ?l] => destruct (redraw d q c true false l) as [pict|] eqn:S end; [|discriminate]. intros H. injection H as <-.
  eexists _, d. split; [cbn [with_figures figures with_dictionaries]; rewrite nth_error_app2, Nat.sub_diag by lia; reflexivity|]. split; [reflexivity|]. split; [reflexivity|].
  cbn [f_picture]. destruct (p_overlays p) as [|o l] eqn:O.
  - cbn [rotation_of] in S. rewrite R in S. cbn in S. apply redraw_shows. exact S.
  - cbn [rotation_of] in S.
    assert (V : forall a, value (angle_slider a r) = euler r a).
    { intros a. unfold angle_slider, new_slider, set_value. cbn [value least greatest fst snd]. destruct a; rewrite Rmax_left by lra; rewrite Rmin_left by lra; reflexivity. }
    rewrite !V in S. cbv zeta in Q. destruct Q as [Q|Q]; rewrite Q in S; [|rewrite redraw_neg in S]; apply redraw_shows; exact S.
Qed.

(** ** What happens to detectors *)

(** A detector keeps its shape, pixel size and binning. *)
Lemma step_frame a w k d : nth_error (detectors w) k = Some d -> exists d', nth_error (detectors (fst (step a w))) k = Some d' /\ same_frame d d'.
Proof.
  intros D. assert (K : forall w', drawn_again w w' -> exists d', nth_error (detectors w') k = Some d' /\ same_frame d d').
  { intros w' (_ & _ & _ & _ & H & _). destruct (H k) as [E|(p & d0 & d' & _ & _ & E & E' & F)]; [exists d; split; [congruence|apply frame_refl]|]. exists d'. split; [exact E'|]. congruence. }
  assert (Z : exists d', nth_error (detectors w) k = Some d' /\ same_frame d d') by (exists d; split; [exact D|apply frame_refl]).
  assert (Rp : forall a0 d0 d1, nth_error (detectors w) a0 = Some d0 -> same_frame d0 d1 -> exists d', nth_error (replace a0 d1 (detectors w)) k = Some d' /\ same_frame d d').
  { intros a0 d0 d1 H F. destruct (Nat.eq_dec a0 k) as [->|N]; [rewrite (nth_replace_same _ _ d0 _ H); eexists; split; [reflexivity|]; congruence|]. rewrite nth_replace_other by exact N. exact Z. }
  destruct a as [a r inplace|i base refl b z|i ok mp|i c|j c v|j|j|i j|a q v|a pcs0]; cbn [step].
  - unfold create. destruct (nth_error (detectors w) a) as [d0|] eqn:D0; [|exact Z]. destruct inplace; cbn [fst with_plotters with_detectors detectors]; [eapply Rp; [exact D0|repeat split]|].
    exists d. split; [now apply nth_app_old|apply frame_refl].
  - destruct (set_geometrical_world i base refl b z w) as (l & ps & ->). exact Z.
  - destruct (set_master_world i ok mp w) as (ps & ->). exact Z.
  - unfold show. destruct (nth_error (plotters w) i) as [p0|]; [|exact Z]. destruct (nth_error (detectors w) (p_detector p0)); [|exact Z]. destruct (redraw _ _ _ _ _ _); exact Z.
  - apply K, move_again.
  - apply K, tick_pc_again.
  - apply K, tick_circles_again.
  - unfold tick_overlay. destruct (nth_error (plotters w) i) as [p0|] eqn:P; [|exact Z]. destruct (nth_error (p_overlays p0) j) as [o|] eqn:O; [|exact Z]. cbv zeta.
    match goal with |- context [on_changes ?l ?w1] => destruct (on_changes_again l w1) as (_ & _ & _ & _ & H & _) end. cbn [with_plotters detectors] in H.
    destruct (H k) as [E|(p1 & d0 & d' & _ & _ & E & E' & F)]; [exists d; split; [rewrite E; exact D|apply frame_refl]|]. exists d'. split; [exact E'|]. congruence.
  - unfold on_detector_at. destruct (nth_error (detectors w) a) as [d0|] eqn:D0; [|exact Z]. cbn. eapply Rp; [exact D0|apply frame_assign].
  - unfold on_detector_at. destruct (nth_error (detectors w) a) as [d0|] eqn:D0; [|exact Z]. cbn. eapply Rp; [exact D0|repeat split].
Qed.
Theorem C92_screen_kept h ds os k d : nth_error ds k = Some d ->
  exists d', nth_error (detectors (run h (start ds os))) k = Some d' /\ d_ny d' = d_ny d /\ d_nx d' = d_nx d /\ d_px_size d' = d_px_size d /\ d_binning d' = d_binning d.
Proof.
  intros D. change (exists d', nth_error (detectors (run h (start ds os))) k = Some d' /\ same_frame d d'). induction h as [|a h (d1 & D1 & F1)] using rev_ind; [exists d; split; [exact D|apply frame_refl]|].
  rewrite run_snoc. destruct (step_frame a _ k d1 D1) as (d2 & D2 & F2). exists d2. split; [exact D2|]. exact (frame_trans _ _ _ F1 F2).
Qed.

(** A detector plotted without allowing changes is never changed. *)
Lemma step_alone a w k : (k < length (detectors w))%nat -> (forall p, In p (plotters w) -> p_detector p <> k) ->
  match a with Create i _ inplace => i = k -> inplace = false | Assign i _ _ => i <> k | AssignPC i _ => i <> k | _ => True end ->
  nth_error (detectors (fst (step a w))) k = nth_error (detectors w) k /\ (k < length (detectors (fst (step a w))))%nat /\
  (forall p, In p (plotters (fst (step a w))) -> p_detector p <> k).
Proof.
  intros L N A. assert (K : forall w' w'', drawn_again w'' w' -> detectors w'' = detectors w -> (forall p, In p (plotters w'') -> p_detector p <> k) ->
     nth_error (detectors w') k = nth_error (detectors w) k /\ (k < length (detectors w'))%nat /\ (forall p, In p (plotters w') -> p_detector p <> k)).
  { intros w' w'' (_ & E & H & _ & I & _) E' N'. rewrite E, H, E'. split; [|auto]. rewrite <- E'. destruct (I k) as [J|(p & d & d' & P & Q & _)]; [exact J|]. exfalso. exact (N' p P Q). }
  assert (Z : nth_error (detectors w) k = nth_error (detectors w) k /\ (k < length (detectors w))%nat /\ (forall p, In p (plotters w) -> p_detector p <> k)) by auto.
  assert (R : forall i p p' , nth_error (plotters w) i = Some p -> p_detector p' = p_detector p -> forall x, In x (replace i p' (plotters w)) -> p_detector x <> k).
  { intros i p p' P E x I. apply In_nth_error in I. destruct I as [j J]. apply nth_replace in J. destruct J as [(<- & -> & _)|[_ J]]; [rewrite E; apply N; eapply nth_error_In; exact P|apply N; eapply nth_error_In; exact J]. }
  destruct a as [a r inplace|i base refl b z|i ok mp|i c|j c v|j|j|i j|a q v|a pcs0]; cbn [step].
  - unfold create. destruct (nth_error (detectors w) a) as [d0|] eqn:D0; [|exact Z]. destruct inplace; cbn [fst with_plotters with_detectors detectors plotters].
    + assert (a <> k) as M by (intros E; specialize (A E); discriminate). rewrite nth_replace_other by exact M. rewrite length_replace. split; [reflexivity|]. split; [exact L|].
      intros p I. apply in_app_or in I. destruct I as [I|[<-|[]]]; [apply N; exact I|exact M].
    + rewrite nth_error_app1 by exact L. rewrite app_length. split; [reflexivity|]. split; [cbn; lia|]. intros p I. apply in_app_or in I. destruct I as [I|[<-|[]]]; [apply N; exact I|cbn; lia].
  - unfold set_geometrical. destruct (nth_error (plotters w) i) as [p0|] eqn:P; [|exact Z]. destruct (can_set p0 true); [|exact Z].
    destruct b, z; cbn [dictionary fst add_overlay with_plotters with_defaults with_dictionaries plotters detectors]; (split; [reflexivity|]); (split; [exact L|]); eapply R; try exact P; reflexivity.
  - unfold set_master_pattern. destruct (nth_error (plotters w) i) as [p0|] eqn:P; [|exact Z]. destruct (can_set p0 false && ok); [|exact Z].
    cbn [fst add_overlay with_plotters plotters detectors]. split; [reflexivity|]. split; [exact L|]. eapply R; [exact P|reflexivity].
  - unfold show. destruct (nth_error (plotters w) i) as [p0|]; [|exact Z]. destruct (nth_error (detectors w) (p_detector p0)); [|exact Z]. destruct (redraw _ _ _ _ _ _); exact Z.
  - exact (K _ w (move_again j c v w) eq_refl N).
  - exact (K _ w (tick_pc_again j w) eq_refl N).
  - exact (K _ w (tick_circles_again j w) eq_refl N).
  - unfold tick_overlay. destruct (nth_error (plotters w) i) as [p0|] eqn:P; [|exact Z]. destruct (nth_error (p_overlays p0) j) as [o|] eqn:O; [|exact Z]. cbv zeta.
    eapply K; [apply on_changes_again|reflexivity|]. cbn [with_plotters plotters]. eapply R; [exact P|reflexivity].
  - unfold on_detector_at. destruct (nth_error (detectors w) a) as [d0|]; [|exact Z]. cbn. rewrite nth_replace_other by exact A. rewrite length_replace. auto.
  - unfold on_detector_at. destruct (nth_error (detectors w) a) as [d0|]; [|exact Z]. cbn. rewrite nth_replace_other by exact A. rewrite length_replace. auto.
Qed.
Theorem C92_detector_left_alone h ds os k d : nth_error ds k = Some d -> leaves_alone k h -> nth_error (detectors (run h (start ds os))) k = Some d.
Proof.
  intros D A. enough (nth_error (detectors (run h (start ds os))) k = Some d /\ (k < length (detectors (run h (start ds os))))%nat /\
    (forall p, In p (plotters (run h (start ds os))) -> p_detector p <> k)) by tauto.
  induction h as [|a h IH] using rev_ind.
  - cbn. split; [exact D|]. split; [apply nth_error_Some; congruence|]. intros p [].
  - rewrite run_snoc. destruct IH as (I1 & I2 & I3); [intros x I; apply A; apply in_or_app; auto|].
    destruct (step_alone a _ k I2 I3) as (J1 & J2 & J3); [apply (A a); apply in_or_app; right; left; reflexivity|]. rewrite J1. auto.
Qed.

(** Plotted in place, its PC is replaced by the average PC at once (as documented), and nothing else. *)
Theorem C92_inplace_averages_pc h ds os k d r w : w = run h (start ds os) -> nth_error (detectors w) k = Some d ->
  nth_error (detectors (fst (step (Create k r true) w))) k = Some (with_pc d (PCArray [1%nat] [mean_pc (pcs (d_pc d))])) /\
  (forall b, b <> k -> nth_error (detectors (fst (step (Create k r true) w))) b = nth_error (detectors w) b) /\ figures (fst (step (Create k r true) w)) = figures w /\
  nth_error (plotters (fst (step (Create k r true) w))) (length (plotters w)) = Some (Plotter k r []).
Proof.
  intros _ D. cbn [step]. unfold create. rewrite D. cbn [fst with_plotters with_detectors detectors plotters figures]. split; [exact (nth_replace_same _ _ d _ D)|].
  split; [intros b N; apply nth_replace_other; congruence|]. split; [reflexivity|]. rewrite nth_error_app2, Nat.sub_diag by lia. reflexivity.
Qed.

(** ** Moving sliders *)

Lemma current_with_values q v d : current q (with_values v d) = v q.
Proof. destruct q; cbn -[mean_pc]; rewrite ?mean_one; reflexivity. Qed.
Lemma move_detector i c v w f p d : nth_error (figures w) i = Some f -> nth_error (plotters w) (f_plotter f) = Some p -> nth_error (detectors w) (p_detector p) = Some d ->
  has_one_pc d -> (forall q, current q d = value (f_sliders f q)) ->
  exists f' d', nth_error (figures (fst (move i c v w))) i = Some f' /\ f_plotter f' = f_plotter f /\ plotters (fst (move i c v w)) = plotters w /\
    nth_error (detectors (fst (move i c v w))) (p_detector p) = Some d' /\ has_one_pc d' /\ same_frame d d' /\
    (forall b, b <> p_detector p -> nth_error (detectors (fst (move i c v w))) b = nth_error (detectors w) b) /\
    (forall q, current q d' = value (f_sliders f' q) /\ least (f_sliders f' q) = least (f_sliders f q) /\ greatest (f_sliders f' q) = greatest (f_sliders f q) /\
       value (f_sliders f' q) = match c with ParameterSlider q' => if parameter_eqb q' q then Rmin (Rmax v (least (f_sliders f q))) (greatest (f_sliders f q)) else value (f_sliders f q)
                                | AngleSlider _ => value (f_sliders f q) end).
Proof.
  intros F P D O C. unfold move. rewrite F.
  assert (PE : forall a b, parameter_eqb a b = parameter_eqb b a) by (intros [] []; reflexivity).
  assert (PQ : forall a b, parameter_eqb a b = true -> a = b) by (intros [] []; cbn; congruence).
  destruct (moved f c v) as [f'|] eqn:M.
  - destruct (moved_same f c v f' M) as [E1 E2].
    assert (S : forall q, least (f_sliders f' q) = least (f_sliders f q) /\ greatest (f_sliders f' q) = greatest (f_sliders f q) /\
       value (f_sliders f' q) = match c with ParameterSlider q' => if parameter_eqb q' q then Rmin (Rmax v (least (f_sliders f q))) (greatest (f_sliders f q)) else value (f_sliders f q)
                                | AngleSlider _ => value (f_sliders f q) end).
    { intros q. unfold moved in M. destruct c as [q'|a].
      - destruct (Req_EM_T _ _); [discriminate|]. injection M as <-. cbn [f_sliders]. rewrite (PE q q'). destruct (parameter_eqb q' q) eqn:E; [apply PQ in E; subst q'; auto|auto].
      - destruct (f_angles f); [|discriminate]. destruct (Req_EM_T _ _); [discriminate|]. injection M as <-. auto. }
    unfold on_change. cbn [with_figures figures plotters detectors]. rewrite (nth_replace_same _ _ f _ F). rewrite E1, P, D. cbv zeta. rewrite update_detector_eq.
    destruct (redraw_one (with_values (fun q => value (f_sliders f' q)) d) (rotation_of p (f_angles f')) (f_coordinates f') (f_pc f') (f_circles f') (p_overlays p) (one_with_values _ _)) as [pict R].
    rewrite R. cbn [fst with_figures with_detectors figures plotters detectors]. eexists _, _. split; [eapply nth_replace_same, nth_replace_same; exact F|]. cbn [f_plotter f_sliders]. split; [reflexivity|]. split; [reflexivity|].
    split; [exact (nth_replace_same _ _ d _ D)|]. split; [apply one_with_values|]. split; [apply frame_with_values|]. split; [intros b B; apply nth_replace_other; congruence|].
    intros q. split; [apply current_with_values|apply S].
  - cbn [fst]. exists f, d. repeat split; auto. unfold moved in M. destruct c as [q'|a]; [|reflexivity]. destruct (Req_EM_T _ _) as [E|]; [|discriminate].
    destruct (parameter_eqb q' q) eqn:Q; [|reflexivity]. apply PQ in Q. subst q'. cbn in E. now symmetry.
Qed.
(** After showing a plot and moving its sliders in whatever way, each parameter of the detector of the plotter has the value its slider was last given
    (within its range), or the value it had; nothing else of it and no other detector has changed. Showing it changes no detector. *)
Theorem C92_sliders_set_their_parameters h ds os k c p d moves w w' : overlays_before_shows h -> one_pc_assigned h -> w = run h (start ds os) ->
  nth_error (plotters w) k = Some p -> nth_error (detectors w) (p_detector p) = Some d ->
  w' = run (Show k c :: map (fun m => Move (length (figures w)) (fst m) (snd m)) moves) w ->
  (exists d', nth_error (detectors w') (p_detector p) = Some d' /\ has_one_pc d' /\
    (d_ny d' = d_ny d /\ d_nx d' = d_nx d /\ d_px_size d' = d_px_size d /\ d_binning d' = d_binning d) /\
    forall q, current q d' = after_moves q (least (parameter_slider q d)) (greatest (parameter_slider q d)) moves (current q d)) /\
  forall b, b <> p_detector p -> nth_error (detectors w') b = nth_error (detectors w) b.
Proof.
  intros A B W P D ->. pose proof (run_good h ds os A B) as [G1 _]. rewrite <- W in G1. destruct (G1 k p P) as (d1 & D1 & O). assert (d1 = d) by congruence. subst d1. clear A B W G1 D1.
  enough (X : exists f d', nth_error (figures (run (Show k c :: map (fun m => Move (length (figures w)) (fst m) (snd m)) moves) w)) (length (figures w)) = Some f /\ f_plotter f = k /\
    plotters (run (Show k c :: map (fun m => Move (length (figures w)) (fst m) (snd m)) moves) w) = plotters w /\
    nth_error (detectors (run (Show k c :: map (fun m => Move (length (figures w)) (fst m) (snd m)) moves) w)) (p_detector p) = Some d' /\ has_one_pc d' /\ same_frame d d' /\
    (forall b, b <> p_detector p -> nth_error (detectors (run (Show k c :: map (fun m => Move (length (figures w)) (fst m) (snd m)) moves) w)) b = nth_error (detectors w) b) /\
    forall q, current q d' = value (f_sliders f q) /\ least (f_sliders f q) = least (parameter_slider q d) /\ greatest (f_sliders f q) = greatest (parameter_slider q d) /\
      value (f_sliders f q) = after_moves q (least (parameter_slider q d)) (greatest (parameter_slider q d)) moves (current q d)).
  { destruct X as (f & d' & _ & _ & _ & D' & O' & F' & B' & V). split; [|exact B']. exists d'. split; [exact D'|]. split; [exact O'|]. split; [exact F'|]. intros q. destruct (V q) as (V1 & _ & _ & V2). congruence. }
  induction moves as [|m moves IH] using rev_ind.
  - unfold run. cbn [map fold_left step]. unfold show. rewrite P, D. cbv zeta.
    match goal with |- context [redraw d ?q c ?x ?y ?z] => destruct (redraw_one d q c x y z O) as [pict R]; rewrite R end. cbn [fst with_figures with_dictionaries figures plotters detectors].
    eexists _, d. split; [rewrite nth_error_app2, Nat.sub_diag by lia; reflexivity|]. cbn [f_plotter f_sliders]. repeat split; auto. + symmetry. apply slider_at. + apply slider_at.
  - rewrite map_app. cbn [map]. rewrite app_comm_cons, run_snoc. cbn [step]. destruct IH as (f & d1 & I1 & I2 & I3 & I4 & I5 & I6 & I7 & I8).
    set (w1 := run _ w) in *. clearbody w1.
    destruct (move_detector (length (figures w)) (fst m) (snd m) w1 f p d1 I1) as (f' & d' & J1 & J2 & J3 & J4 & J5 & J6 & J7 & J8); [rewrite I2, I3; exact P|exact I4|exact I5|intros q; apply I8|].
    exists f', d'. split; [exact J1|]. split; [congruence|]. split; [congruence|]. split; [exact J4|]. split; [exact J5|]. split; [exact (frame_trans _ _ _ I6 J6)|].
    split; [intros b N; rewrite J7 by exact N; apply I7; exact N|]. intros q. destruct (J8 q) as (K1 & K2 & K3 & K4). destruct (I8 q) as (L1 & L2 & L3 & L4).
    split; [exact K1|]. split; [congruence|]. split; [congruence|]. rewrite K4. unfold after_moves. rewrite fold_left_app. cbn [fold_left]. rewrite L2, L3, L4. reflexivity.
Qed.

(** ** Options *)

Lemma get_set_item k k' v o : get k (set_item k' v o) = if String.eqb k k' then Some v else get k o.
Proof.
  induction o as [|[x y] o IH]; cbn [set_item get]; [destruct (String.eqb k k'); reflexivity|]. destruct (String.eqb_spec k' x) as [->|N]; cbn [get].
  - destruct (String.eqb k x); reflexivity.
  - rewrite IH. destruct (String.eqb_spec k x) as [->|M]; [|reflexivity]. destruct (String.eqb_spec x k') as [->|]; [contradiction|reflexivity].
Qed.
Lemma get_app k o x v : get k (o ++ [(x, v)]) = match get k o with Some y => Some y | None => if String.eqb k x then Some v else None end.
Proof. induction o as [|[a b] o IH]; cbn [get app]; [reflexivity|]. rewrite IH. destruct (String.eqb k a); reflexivity. Qed.
Lemma get_setdefault k o x v : get k (setdefault o (x, v)) = match get k o with Some y => Some y | None => if String.eqb k x then Some v else None end.
Proof.
  unfold setdefault. cbn [fst]. destruct (get x o) as [y|] eqn:E.
  - destruct (get k o) as [z|] eqn:K; [reflexivity|]. destruct (String.eqb_spec k x) as [->|]; [congruence|reflexivity].
  - apply get_app.
Qed.
(** The names of options that may be set *)
Definition option_names : list string := ["color"; "linewidth"; "zorder"; "fc"; "ec"; "s"]%string.
Definition only_added (o o' : options) : Prop :=
  (forall k v, k <> "s"%string -> get k o = Some v -> get k o' = Some v) /\ (forall k, get k o' <> None -> get k o <> None \/ In k option_names).
Lemma added_refl o : only_added o o.
Proof. split; auto. Qed.
Lemma added_trans o o' o'' : only_added o o' -> only_added o' o'' -> only_added o o''.
Proof. intros [A B] [C D]. split; [intros k v N H; apply C; auto|]. intros k H. destruct (D k H) as [E|E]; [|auto]. destruct (B k E); auto. Qed.
Lemma added_default o x v : In x option_names -> only_added o (setdefault o (x, v)).
Proof.
  intros I. split.
  - intros k y _ H. rewrite get_setdefault, H. reflexivity.
  - intros k. rewrite get_setdefault. destruct (get k o); [left; discriminate|]. destruct (String.eqb_spec k x) as [->|]; [auto|congruence].
Qed.
Lemma added_item o v : only_added o (set_item "s" v o).
Proof.
  split.
  - intros k y N H. rewrite get_set_item. destruct (String.eqb_spec k "s"); [contradiction|exact H].
  - intros k. rewrite get_set_item. destruct (String.eqb_spec k "s") as [->|]; [right; cbn; tauto|auto].
Qed.
Definition dictionaries_added (l l' : list options) : Prop := (length l <= length l')%nat /\ forall a o, nth_error l a = Some o -> exists o', nth_error l' a = Some o' /\ only_added o o'.
Lemma dicts_refl l : dictionaries_added l l.
Proof. split; [lia|]. intros a o H. exists o. split; [exact H|apply added_refl]. Qed.
Lemma dicts_trans l l' l'' : dictionaries_added l l' -> dictionaries_added l' l'' -> dictionaries_added l l''.
Proof. intros [A B] [C D]. split; [lia|]. intros a o H. destruct (B a o H) as (o' & H' & P). destruct (D a o' H') as (o'' & H'' & Q). exists o''. split; [exact H''|exact (added_trans _ _ _ P Q)]. Qed.
Lemma dicts_replace l a o : only_added (nth a l []) o -> dictionaries_added l (replace a o l).
Proof.
  intros H. split; [rewrite length_replace; lia|]. intros b x N. destruct (Nat.eq_dec a b) as [->|M].
  - exists o. rewrite (nth_replace_same _ _ x _ N). split; [reflexivity|]. rewrite (nth_error_nth _ _ [] N) in H. exact H.
  - exists x. rewrite nth_replace_other by exact M. split; [exact N|apply added_refl].
Qed.
Lemma dicts_dictionary a w : dictionaries_added (dictionaries w) (dictionaries (snd (dictionary a w))).
Proof.
  destruct a; [apply dicts_refl|]. cbn. split; [rewrite app_length; lia|]. intros b x N. exists x. split; [now apply nth_app_old|apply added_refl].
Qed.
Lemma dicts_bands a w : dictionaries_added (dictionaries w) (dictionaries (with_defaults a bands_defaults w)).
Proof. apply dicts_replace. unfold bands_defaults. cbn [fold_left]. do 3 (eapply added_trans; [|apply added_default; cbn; tauto]). apply added_refl. Qed.
Lemma dicts_zones a w : dictionaries_added (dictionaries w) (dictionaries (with_defaults a zone_axes_defaults w)).
Proof. apply dicts_replace. unfold zone_axes_defaults. cbn [fold_left]. do 3 (eapply added_trans; [|apply added_default; cbn; tauto]). apply added_refl. Qed.
Lemma step_dicts a w : dictionaries_added (dictionaries w) (dictionaries (fst (step a w))).
Proof.
  assert (K : forall w', drawn_again w w' -> dictionaries_added (dictionaries w) (dictionaries w')) by (intros w' (-> & _); apply dicts_refl).
  destruct a as [a r inplace|i base refl b z|i ok mp|i c|j c v|j|j|i j|a q v|a pcs0]; cbn [step].
  - unfold create. destruct (nth_error (detectors w) a); [destruct inplace|]; apply dicts_refl.
  - unfold set_geometrical. destruct (nth_error (plotters w) i) as [p0|]; [|apply dicts_refl]. destruct (can_set p0 true); [|apply dicts_refl].
    pose proof (dicts_dictionary b w) as D1. destruct (dictionary b w) as [b0 w0]. cbn [snd] in D1. pose proof (dicts_bands b0 w0) as D2. set (w1 := with_defaults b0 bands_defaults w0) in *. clearbody w1.
    pose proof (dicts_dictionary z w1) as D3. destruct (dictionary z w1) as [z0 w2]. cbn [snd] in D3. pose proof (dicts_zones z0 w2) as D4. cbn [fst add_overlay with_plotters dictionaries].
    exact (dicts_trans _ _ _ D1 (dicts_trans _ _ _ D2 (dicts_trans _ _ _ D3 D4))).
  - destruct (set_master_world i ok mp w) as (ps & ->). apply dicts_refl.
  - unfold show. destruct (nth_error (plotters w) i) as [p0|]; [|apply dicts_refl]. destruct (nth_error (detectors w) (p_detector p0)) as [d|]; [|apply dicts_refl]. cbv zeta.
    assert (S : forall l os, dictionaries_added os (fold_left (setup d) l os)).
    { induction l as [|o l IH]; intros os; [apply dicts_refl|]. cbn [fold_left]. apply dicts_trans with (setup d os o); [|apply IH]. unfold setup. destruct (of_content o); [|apply dicts_refl].
      apply dicts_replace. apply added_item. }
    destruct (redraw _ _ _ _ _ _); cbn [fst with_figures with_dictionaries dictionaries]; apply S.
  - apply K, move_again.
  - apply K, tick_pc_again.
  - apply K, tick_circles_again.
  - unfold tick_overlay. destruct (nth_error (plotters w) i) as [p0|] eqn:P; [|apply dicts_refl]. destruct (nth_error (p_overlays p0) j) as [o|] eqn:O; [|apply dicts_refl]. cbv zeta.
    match goal with |- context [on_changes ?l ?w1] => destruct (on_changes_again l w1) as (-> & _) end. apply dicts_refl.
  - unfold on_detector_at. destruct (nth_error (detectors w) a); apply dicts_refl.
  - unfold on_detector_at. destruct (nth_error (detectors w) a); apply dicts_refl.
Qed.
(** In every history, options of the caller other than the size of markers keep their values. Options are only added for known names. *)
Theorem C92_options_kept h ds os a o : nth_error os a = Some o -> exists o', nth_error (dictionaries (run h (start ds os))) a = Some o' /\
  (forall k v, k <> "s"%string -> get k o = Some v -> get k o' = Some v) /\ (forall k, get k o' <> None -> get k o <> None \/ In k option_names).
Proof.
  intros H. induction h as [|x h (o1 & H1 & A1)] using rev_ind; [exists o; split; [exact H|apply added_refl]|]. rewrite run_snoc.
  destruct (step_dicts x (run h (start ds os))) as [_ B]. destruct (B a o1 H1) as (o2 & H2 & A2). exists o2. split; [exact H2|exact (added_trans _ _ _ A1 A2)].
Qed.

(** ** What does not hold *)

Lemma on_change_eq i w f p d pict : nth_error (figures w) i = Some f -> nth_error (plotters w) (f_plotter f) = Some p -> nth_error (detectors w) (p_detector p) = Some d ->
  redraw (with_values (fun q => value (f_sliders f q)) d) (rotation_of p (f_angles f)) (f_coordinates f) (f_pc f) (f_circles f) (p_overlays p) = Some pict ->
  on_change i w = (World (replace (p_detector p) (with_values (fun q => value (f_sliders f q)) d) (detectors w)) (dictionaries w) (plotters w)
    (replace i (Figure (f_plotter f) (f_coordinates f) (f_sliders f) (f_angles f) (f_pc f) (f_circles f) (f_watched f) pict (used_options (dictionaries w) (p_overlays p))) (figures w)), true).
Proof. intros F P D R. unfold on_change. rewrite F, P, D. cbv zeta. rewrite update_detector_eq, R. reflexivity. Qed.
Lemma show_first d c r : has_one_pc d -> exists pict, redraw d (option_map quaternion r) c true false [] = Some pict /\
  run [Create 0 r true; Show 0 c] (start [d] []) =
  World [d] [] [Plotter 0 r []] [Figure 0 c (fun q => parameter_slider q d) None true false 0 pict []].
Proof.
  intros O. destruct (redraw_one d (option_map quaternion r) c true false [] O) as [pict R]. exists pict. split; [exact R|]. destruct O as [p E].
  assert (W : with_pc d (one_pc (mean_pc (pcs (d_pc d)))) = d) by (rewrite E; cbn [pcs]; rewrite mean_one; destruct d; cbn in *; subst; reflexivity).
  unfold run. cbn [fold_left step]. unfold create, start. cbn [nth_error detectors]. rewrite W. unfold show. cbn. rewrite R. reflexivity.
Qed.
Definition level : detector := Det 60 60 70 1 0 0 0 70 (PCArray [1%nat] [PC (1/2) (1/2) (1/2)]).

(** The documentation of "inplace" says that, with psygnal, side and top views follow values assigned to the detector. They do not: *)
Theorem C92_assignments_shown_refuted : exists ds h f p d, one_pc_assigned h /\ overlays_before_shows h /\ In (Create 0 None true) h /\
  nth_error (figures (run h (start ds []))) 0 = Some f /\ nth_error (plotters (run h (start ds []))) (f_plotter f) = Some p /\
  nth_error (detectors (run h (start ds []))) (p_detector p) = Some d /\ d_tilt d = 90 /\ value (f_sliders f DetectorTilt) = 0 /\ plot_side_view d <> Some (side (f_picture f)).
Proof.
  destruct (show_first level Gnomonic None) as (pict & R & E); [eexists; reflexivity|]. exists [level], ([Create 0 None true; Show 0 Gnomonic] ++ [Assign 0 DetectorTilt 90])%list.
  rewrite run_snoc, E. eexists _, _, _. split; [intros a l [H|[H|[H|[]]]]; discriminate|].
  split. { intros before i c after a H I. destruct before as [|x before]; [discriminate|]. injection H as <- H. destruct before as [|y before]; [injection H as <- <- <-; destruct I as [<-|[]]; exact (fun x => x)|].
    injection H as _ H. destruct before as [|t before]; [discriminate|]. injection H as _ H. destruct before; discriminate. }
  split; [left; reflexivity|]. cbn [step on_detector_at level detectors nth_error fst with_detectors replace figures plotters f_plotter p_detector]. split; [reflexivity|]. split; [reflexivity|]. split; [reflexivity|].
  split; [reflexivity|]. split; [cbn [f_sliders]; rewrite slider_at; reflexivity|]. cbn [f_picture]. apply redraw_shows in R. destruct R as (S & _). rewrite <- S. intros H.
  apply (f_equal (option_map (fun s => fst (side_pc s)))) in H. unfold plot_side_view, first_distance in H. cbn -[deg2rad cos sin height specimen_scintillator_distance] in H. injection H as H. clear -H.
  assert (deg2rad 90 = PI / 2) as T by (unfold deg2rad; field). assert (deg2rad 0 = 0) as Z by (unfold deg2rad; field). rewrite T, Z, cos_PI2, cos_0 in H.
  revert H. unfold specimen_scintillator_distance, height, nrows. cbn [pcz d_ny d_px_size d_binning level]. lra.
Qed.
(** An assignment sets its parameter, for all projection centers, and nothing else of the detector or of other detectors. *)
Theorem C92_assignment_sets_one_parameter h ds os a q v d : let w := run h (start ds os) in let w' := run (h ++ [Assign a q v]) (start ds os) in
  nth_error (detectors w) a = Some d ->
  (exists d', nth_error (detectors w') a = Some d' /\ readings q d' = map (fun _ => v) (readings q d) /\ (forall q', q' <> q -> readings q' d' = readings q' d) /\
     nav_shape (d_pc d') = nav_shape (d_pc d) /\ (d_ny d', d_nx d', d_px_size d', d_binning d') = (d_ny d, d_nx d, d_px_size d, d_binning d)) /\
  (forall b, b <> a -> nth_error (detectors w') b = nth_error (detectors w) b) /\ figures w' = figures w /\ plotters w' = plotters w.
Proof.
  intros w w' D. unfold w'. rewrite run_snoc. fold w. cbn [step]. unfold on_detector_at. rewrite D. cbn [fst with_detectors detectors figures plotters].
  split; [|split; [intros b B; apply nth_replace_other; congruence|split; reflexivity]].
  exists (assign q v d). split; [eapply nth_replace_same; exact D|].
  split; [destruct q; cbn [assign readings with_pc map_pc d_pc pcs map d_sample_tilt d_tilt d_azimuthal d_twist]; rewrite ?map_map; reflexivity|].
  split; [|destruct q; split; reflexivity].
  intros q' N. destruct q, q'; try congruence; cbn [assign readings with_pc map_pc d_pc pcs map d_sample_tilt d_tilt d_azimuthal d_twist]; rewrite ?map_map; reflexivity.
Qed.
(** An assignment, of whatever value, is undone when a slider is moved or a box ticked. *)
Theorem C92_assignments_kept_refuted d c v : has_one_pc d ->
  nth_error (detectors (run [Create 0 None true; Show 0 c; Assign 0 DetectorTilt v] (start [d] []))) 0 = Some (assign DetectorTilt v d) /\
  nth_error (detectors (run [Create 0 None true; Show 0 c; Assign 0 DetectorTilt v; TickPC 0] (start [d] []))) 0 = Some d.
Proof.
  intros O. destruct (show_first d c None O) as (pict & R & E).
  change [Create 0 None true; Show 0 c; Assign 0 DetectorTilt v; TickPC 0] with (([Create 0 None true; Show 0 c] ++ [Assign 0 DetectorTilt v]) ++ [TickPC 0])%list.
  change [Create 0 None true; Show 0 c; Assign 0 DetectorTilt v] with ([Create 0 None true; Show 0 c] ++ [Assign 0 DetectorTilt v])%list.
  rewrite !run_snoc, E. split; [reflexivity|]. cbn [step on_detector_at detectors nth_error fst with_detectors replace]. unfold tick_pc, on_change. cbn -[redraw update_detector assign]. rewrite update_detector_eq.
  assert (W : with_values (fun q => value (parameter_slider q d)) (assign DetectorTilt v d) = d).
  { rewrite (with_values_frame _ d) by apply frame_assign. transitivity (with_values (fun q => current q d) d); [|apply with_current; exact O]. unfold with_values. rewrite !slider_at. reflexivity. }
  rewrite W. match goal with |- context [redraw ?a ?b ?x ?y ?z ?t] => destruct (redraw a b x y z t) end; reflexivity.
Qed.
(** With two figures of a plotter, ticking a box in the second undoes what was set in the first, which still shows it. *)
Theorem C92_two_figures_agree_refuted d c v : has_one_pc d -> -90 <= d_tilt d <= 90 -> -90 <= v <= 90 -> v <> d_tilt d ->
  exists f, nth_error (figures (run [Create 0 None true; Show 0 c; Show 0 c; Move 0 (ParameterSlider DetectorTilt) v; TickPC 1] (start [d] []))) 0 = Some f /\
    value (f_sliders f DetectorTilt) = v /\ shows (assign DetectorTilt v d) None c true false [] (f_picture f) /\
    nth_error (detectors (run [Create 0 None true; Show 0 c; Show 0 c; Move 0 (ParameterSlider DetectorTilt) v; TickPC 1] (start [d] []))) 0 = Some d.
Proof.
  intros O T V N. destruct (show_first d c None O) as (pict & R & E).
  change [Create 0 None true; Show 0 c; Show 0 c; Move 0 (ParameterSlider DetectorTilt) v; TickPC 1] with ((([Create 0 None true; Show 0 c] ++ [Show 0 c]) ++ [Move 0 (ParameterSlider DetectorTilt) v]) ++ [TickPC 1])%list.
  rewrite !run_snoc, E. cbn [step]. unfold show at 1 2. cbn [plotters nth_error p_detector detectors p_overlays p_rotation fold_left with_dictionaries dictionaries rotation_of]. rewrite R.
  cbn [fst with_figures figures with_dictionaries detectors plotters dictionaries app length].
  destruct (C92_slider_starts_at_value DetectorTilt d) as (S1 & _ & _ & _ & S2). specialize (S2 T). pose proof (f_equal snd S2) as S3. apply (f_equal fst) in S2. cbn [fst snd documented_range] in S2, S3.
  assert (SV : value (set_value (parameter_slider DetectorTilt d) v) = v) by (apply C92_slider_keeps_range; rewrite S2, S3; lra).
  unfold move. cbn [nth_error figures with_figures with_dictionaries app]. unfold moved. cbn [f_sliders]. rewrite SV. rewrite slider_at. destruct (Req_EM_T v _) as [e|_]; [contradiction|].
  assert (W : with_values (fun q => value (if parameter_eqb q DetectorTilt then set_value (parameter_slider DetectorTilt d) v else parameter_slider q d)) d = assign DetectorTilt v d).
  { transitivity (assign DetectorTilt v (with_values (fun q => current q d) d)); [|now rewrite with_current]. unfold with_values. cbn [parameter_eqb assign d_ny d_nx d_px_size d_binning d_azimuthal d_twist d_sample_tilt d_pc]. rewrite SV, !slider_at. reflexivity. }
  destruct (redraw_one (assign DetectorTilt v d) (rotation_of (Plotter 0 None []) None) c true false [] (one_assign _ _ _ O)) as [pict' R'].
  match goal with |- context [on_change 0 ?w] => set (w1 := w) end.
  assert (E1 : on_change 0 w1 = (World [assign DetectorTilt v d] [] [Plotter 0 None []]
    [Figure 0 c (fun q => if parameter_eqb q DetectorTilt then set_value (parameter_slider DetectorTilt d) v else parameter_slider q d) None true false 0 pict' [];
     Figure 0 c (fun q => parameter_slider q d) None true false 0 pict []], true)).
  { unfold w1. erewrite on_change_eq; [|reflexivity|reflexivity|reflexivity|cbn [f_sliders f_angles f_coordinates f_pc f_circles p_overlays]; rewrite W; exact R'].
    cbn [f_sliders]. rewrite W. reflexivity. }
  rewrite E1. cbn [fst]. unfold tick_pc. cbn [nth_error figures]. clear w1 E1.
  match goal with |- context [on_change 1 ?w] => set (w1 := w) end.
  assert (W' : with_values (fun q => value (parameter_slider q d)) (assign DetectorTilt v d) = d).
  { rewrite (with_values_frame _ d) by apply frame_assign. transitivity (with_values (fun q => current q d) d); [|apply with_current; exact O]. unfold with_values. rewrite !slider_at. reflexivity. }
  destruct (redraw_one d (rotation_of (Plotter 0 None []) None) c false false [] O) as [pict2 R2].
  assert (E1 : on_change 1 w1 = (World [d] [] [Plotter 0 None []]
    [Figure 0 c (fun q => if parameter_eqb q DetectorTilt then set_value (parameter_slider DetectorTilt d) v else parameter_slider q d) None true false 0 pict' [];
     Figure 0 c (fun q => parameter_slider q d) None false false 0 pict2 []], true)).
  { unfold w1. erewrite on_change_eq; [|reflexivity|reflexivity|reflexivity|cbn [f_sliders f_angles f_coordinates f_pc f_circles p_overlays]; rewrite W'; exact R2].
    cbn [f_sliders]. rewrite W'. reflexivity. }
  rewrite E1. cbn [fst figures nth_error detectors]. eexists. split; [reflexivity|]. cbn [f_sliders f_picture parameter_eqb]. split; [exact SV|]. split; [|reflexivity]. exact (redraw_shows _ _ _ _ _ _ _ R').
Qed.
(** An overlay set after a plot was shown appears only when something in it is changed, and does not disappear when its box is unticked. *)
Theorem C92_late_overlay_refuted d c r mp : has_one_pc d ->
  (exists f p o, let w := run [Create 0 (Some r) true; Show 0 c; SetMasterPattern 0 true mp] (start [d] []) in
     nth_error (figures w) 0 = Some f /\ nth_error (plotters w) 0 = Some p /\ p_overlays p = [o] /\ ticked o = true /\ on_screen (f_picture f) = []) /\
  (exists f p o pixels extent up, let w := run [Create 0 (Some r) true; Show 0 c; SetMasterPattern 0 true mp; TickPC 0; TickOverlay 0 0] (start [d] []) in
     nth_error (figures w) 0 = Some f /\ nth_error (plotters w) 0 = Some p /\ p_overlays p = [o] /\ ticked o = false /\ on_screen (f_picture f) = [Image pixels extent up]).
Proof.
  intros O. destruct (show_first d c (Some r) O) as (pict & R & E).
  change [Create 0 (Some r) true; Show 0 c; SetMasterPattern 0 true mp; TickPC 0; TickOverlay 0 0] with ((([Create 0 (Some r) true; Show 0 c] ++ [SetMasterPattern 0 true mp]) ++ [TickPC 0]) ++ [TickOverlay 0 0])%list.
  change [Create 0 (Some r) true; Show 0 c; SetMasterPattern 0 true mp] with ([Create 0 (Some r) true; Show 0 c] ++ [SetMasterPattern 0 true mp])%list.
  rewrite !run_snoc, E. cbn [step set_master_pattern plotters nth_error can_set p_rotation p_overlays existsb negb andb add_overlay fst with_plotters replace p_detector app]. split.
  - eexists _, _, _. cbv zeta. split; [reflexivity|]. split; [reflexivity|]. split; [reflexivity|]. split; [reflexivity|]. cbn [f_picture].
    apply redraw_shows in R. destruct R as (_ & _ & _ & R). cbn [option_map] in R. destruct R as (parts & R1 & R2). inversion R2; subst. exact R1.
  - unfold tick_pc. cbn [nth_error figures add_overlay with_plotters]. match goal with |- context [on_change 0 ?w] => set (w1 := w) end.
    destruct (redraw_one (with_values (fun q => value (parameter_slider q d)) d) (Some (quaternion r)) c false false [Overlay (MasterPattern mp) true] (one_with_values _ _)) as [pict' R'].
    assert (E1 : on_change 0 w1 = (World [with_values (fun q => value (parameter_slider q d)) d] [] [Plotter 0 (Some r) [Overlay (MasterPattern mp) true]]
      [Figure 0 c (fun q => parameter_slider q d) None false false 0 pict' []], true)).
    { unfold w1. erewrite on_change_eq; [|reflexivity|reflexivity|reflexivity|exact R']. reflexivity. }
    rewrite E1. cbn [fst]. unfold tick_overlay. cbn [plotters nth_error p_overlays]. cbv zeta. unfold watching. cbn [figures with_plotters length seq filter nth_error f_plotter f_watched Nat.eqb Nat.ltb Nat.leb andb on_changes fst].
    apply redraw_shows in R'. destruct R' as (_ & _ & _ & parts & R1 & R2). inversion R2 as [|? ? ? ? R3 R4]; subst. inversion R4; subst.
    cbn [ticked of_content drawn_when_ticked] in R3. destruct R3 as (pixels & extent & up & -> & _). eexists _, _, _, pixels, extent, up. split; [reflexivity|]. split; [reflexivity|]. split; [reflexivity|]. split; [reflexivity|]. cbn [f_picture]. exact R1.
Qed.
(** The size of markers of zone axes given by the caller is not used, and is changed in the dictionary of the caller; options are added to it. *)
Theorem C92_marker_size_refuted d r c base reflectors x : has_one_pc d ->
  exists f b z o, let w := run [Create 0 (Some r) false; SetGeometrical 0 base reflectors None (Some 0%nat); Show 0 c] (start [d] [[("s"%string, Numeric x)]]) in
    nth_error (figures w) 0 = Some f /\ f_options f = [(b, z)] /\ nth_error (dictionaries w) 0 = Some o /\
    get "s" z = Some (Numeric (Rmax (PI * (1/100 * nrows d) ^ 2) 6)) /\ get "s" o = get "s" z /\ get "fc" o = Some (Text "w").
Proof.
  intros [p E].
  assert (W : with_pc d (one_pc (mean_pc (pcs (d_pc d)))) = d) by (rewrite E; cbn [pcs]; rewrite mean_one; destruct d; cbn in *; subst; reflexivity).
  unfold run. cbn [fold_left step]. unfold create, start. cbn [nth_error detectors]. rewrite W. cbn [fst with_plotters with_detectors app length detectors plotters].
  match goal with |- context [set_geometrical 0 base reflectors None (Some 0%nat) ?w] => set (w1 := fst (set_geometrical 0 base reflectors None (Some 0%nat) w)) end.
  assert (E1 : w1 = World [d; d] [fold_left setdefault zone_axes_defaults [("s"%string, Numeric x)]; fold_left setdefault bands_defaults []]
    [Plotter 1 (Some r) [Overlay (Geometrical base reflectors 1 0) true]] []) by reflexivity. rewrite E1. clear w1 E1. unfold show.
  cbn [plotters nth_error p_detector detectors p_overlays p_rotation dictionaries rotation_of].
  cbv zeta. match goal with |- context [redraw ?a ?b ?x ?y ?z ?t] => destruct (redraw_one a b x y z t) as [pict R]; [exists p; exact E|rewrite R] end. do 4 eexists. split; [reflexivity|]. split; [reflexivity|]. split; [reflexivity|]. repeat split.
Qed.

(** ** Examples *)
Definition tilted : rotation := Rotation (rotation_from_euler (deg2rad 30) (deg2rad 60) (deg2rad 90)) (fun a => match a with Phi1 => 30 | BigPhi => 60 | Phi2 => 90 end).
Definition usual_history (mp : master) : list action :=
  [Create 0 (Some tilted) false; SetMasterPattern 0 true mp; Show 0 Gnomonic; Move 0 (ParameterSlider DetectorTilt) 5; TickCircles 0; Move 0 (AngleSlider Phi1) 31; AssignPC 0 (PCArray [1%nat] [PC 0 0 1])].
Example usual_history_covered mp : overlays_before_shows (usual_history mp) /\ one_pc_assigned (usual_history mp) /\
  exists f, nth_error (figures (run (usual_history mp) (start [level] []))) 0 = Some f.
Proof.
  split; [|split].
  - intros before i c after a H I. unfold usual_history in H. destruct before as [|x0 before]; [discriminate|]. injection H as _ H. destruct before as [|x1 before]; [discriminate|]. injection H as _ H.
    destruct before as [|x2 before]; [injection H as <- <- <-; cbn in I; intuition; subst a; exact H|]. injection H as _ H.
    do 4 (destruct before as [|? before]; [discriminate|]; injection H as _ H). destruct before; discriminate.
  - intros a l H. cbn in H. repeat (destruct H as [H|H]; [try discriminate|]); [|contradiction]. injection H as _ <-. eexists. reflexivity.
  - unfold usual_history. match goal with |- context [?a :: ?b :: ?c :: ?l] => change (a :: b :: c :: l) with ([a; b; c] ++ l)%list end. rewrite run_app.
    assert (F : exists f, figures (run [Create 0 (Some tilted) false; SetMasterPattern 0 true mp; Show 0 Gnomonic] (start [level] [])) = [f]).
    { change [Create 0 (Some tilted) false; SetMasterPattern 0 true mp; Show 0 Gnomonic] with ([Create 0 (Some tilted) false; SetMasterPattern 0 true mp] ++ [Show 0 Gnomonic])%list. rewrite run_snoc.
      assert (E : run [Create 0 (Some tilted) false; SetMasterPattern 0 true mp] (start [level] []) =
        World [level; with_pc level (one_pc (mean_pc (pcs (d_pc level))))] [] [Plotter 1 (Some tilted) [Overlay (MasterPattern mp) true]] []) by reflexivity.
      rewrite E. cbn [step]. unfold show. cbn [plotters nth_error p_detector detectors p_overlays p_rotation dictionaries rotation_of]. cbv zeta.
      match goal with |- context [redraw ?d ?q ?c ?x ?y ?z] => destruct (redraw_one d q c x y z) as [pict R]; [eexists; reflexivity|rewrite R] end. eexists. reflexivity. }
    destruct F as [f F]. set (w := run [_; _; _] _) in *. clearbody w. unfold run. cbn [fold_left step].
    destruct (move_again 0 (ParameterSlider DetectorTilt) 5 w) as (_ & _ & _ & L1 & _). set (w1 := fst (move 0 _ _ w)) in *. clearbody w1.
    destruct (tick_circles_again 0 w1) as (_ & _ & _ & L2 & _). set (w2 := fst (tick_circles _ w1)) in *. clearbody w2.
    destruct (move_again 0 (AngleSlider Phi1) 31 w2) as (_ & _ & _ & L3 & _). set (w3 := fst (move 0 _ _ w2)) in *. clearbody w3.
    assert (L : length (figures w3) = 1%nat) by (rewrite L3, L2, L1, F; reflexivity).
    unfold on_detector_at. destruct (nth_error (detectors w3) 0); cbn [fst with_detectors figures]; destruct (figures w3) as [|f3 ?]; try discriminate; exists f3; reflexivity.
Qed.
Example moves_example : after_moves DetectorTilt (-90) 90 [(ParameterSlider Twist, 2); (ParameterSlider DetectorTilt, 5); (ParameterSlider DetectorTilt, 100); (AngleSlider Phi1, 3)] 0 = 90.
Proof. unfold after_moves. cbn. rewrite (Rmax_left 100) by lra. rewrite Rmin_right by lra. reflexivity. Qed.
Example moves_apply : exists w', w' = run (Show 0 Gnomonic :: map (fun m => Move 0 (fst m) (snd m)) [(ParameterSlider Twist, 2)]) (run [Create 0 None true] (start [level] [])) /\
  exists d', nth_error (detectors w') 0 = Some d' /\ current Twist d' = 2 /\ current Azimuthal d' = 0.
Proof.
  eexists. split; [reflexivity|]. destruct (C92_sliders_set_their_parameters [Create 0 None true] [level] [] 0 Gnomonic (Plotter 0 None []) (with_pc level (one_pc (mean_pc (pcs (d_pc level)))))
    [(ParameterSlider Twist, 2)] _ _ ltac:(intros [|x [|y b]] ? ? ? ? H; discriminate) ltac:(intros a l [H|[]]; discriminate) eq_refl eq_refl eq_refl eq_refl) as [(d' & D & _ & _ & V) _].
  exists d'. split; [exact D|]. rewrite !V. unfold after_moves. cbn [fold_left fst snd parameter_eqb].
  destruct (C92_slider_starts_at_value Twist (with_pc level (one_pc (mean_pc (pcs (d_pc level)))))) as (_ & _ & _ & _ & H). cbn [current with_pc level d_twist documented_range fst snd] in H.
  assert (K : -10 <= 0 <= 10) by lra. specialize (H K). pose proof (f_equal snd H) as H3. apply (f_equal fst) in H. cbn [fst snd documented_range] in H, H3. rewrite H, H3. split; [rewrite Rmax_left by lra; rewrite Rmin_left by lra; reflexivity|reflexivity].
Qed.
Example orientation_example : nth_error (plotters (run [Create 0 (Some tilted) false] (start [level] []))) 0 = Some (Plotter 1 (Some tilted) []) /\
  (let q := rotation_from_euler (deg2rad (euler tilted Phi1)) (deg2rad (euler tilted BigPhi)) (deg2rad (euler tilted Phi2)) in q = quaternion tilted) /\
  snd (step (Show 0 Gnomonic) (run [Create 0 (Some tilted) false] (start [level] []))) = true.
Proof.
  split; [reflexivity|]. split; [reflexivity|].
  assert (E : run [Create 0 (Some tilted) false] (start [level] []) = World [level; with_pc level (one_pc (mean_pc (pcs (d_pc level))))] [] [Plotter 1 (Some tilted) []] []) by reflexivity.
  rewrite E. cbn [step]. unfold show. cbn [plotters nth_error p_detector detectors p_overlays p_rotation dictionaries rotation_of]. cbv zeta.
  match goal with |- context [redraw ?d ?q ?c ?x ?y ?z] => destruct (redraw_one d q c x y z) as [pict R]; [eexists; reflexivity|rewrite R] end. reflexivity.
Qed.
Example alone_example mp : leaves_alone 0 [Create 0 (Some tilted) false; SetMasterPattern 0 true mp; Show 0 Gnomonic; Move 0 (ParameterSlider DetectorTilt) 5].
Proof. intros x H. cbn in H. repeat (destruct H as [<-|H]; [cbn; auto|]). contradiction. Qed.

Print Assumptions C92_figures_show_their_controls.
Print Assumptions C92_sliders_set_their_parameters.
Print Assumptions C92_given_orientation_shown_first.
