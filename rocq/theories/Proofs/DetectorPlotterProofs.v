(** Lemmas for C92: histories of the interactive plot. *)
From Coq Require Import String List Arith ZArith Reals Bool Lia Lra.
From Verif Require Import Model.Detector Model.Rotations Model.Simulation Model.KikuchiLines Model.GeometryViews.
From Verif Require Import Model.DetectorPlane Model.DetectorPlotter Spec.InteractivePlot.
From Verif Require Model.SimulationMarkers.
Import ListNotations.
Local Open Scope R_scope.

(** ** Lists *)
Lemma length_replace {A} i (a : A) l : length (replace i a l) = length l.
Proof. revert i. induction l as [|b l IH]; intros [|i]; cbn; auto. Qed.
Lemma nth_replace_same {A} i (a b : A) l : nth_error l i = Some b -> nth_error (replace i a l) i = Some a.
Proof. revert i. induction l as [|c l IH]; intros [|i]; cbn; try discriminate; auto. Qed.
Lemma nth_replace_other {A} i j (a : A) l : i <> j -> nth_error (replace i a l) j = nth_error l j.
Proof. revert i j. induction l as [|c l IH]; intros [|i] [|j]; cbn; auto; try congruence. Qed.
Lemma nth_replace {A} i j (a b : A) l : nth_error (replace i a l) j = Some b ->
  (i = j /\ b = a /\ exists c, nth_error l j = Some c) \/ (i <> j /\ nth_error l j = Some b).
Proof.
  destruct (Nat.eq_dec i j) as [->|N]; [|rewrite nth_replace_other by exact N; auto].
  intros H. left. destruct (nth_error l j) as [c|] eqn:E.
  - rewrite (nth_replace_same j a c l E) in H. injection H as <-. eauto.
  - exfalso. apply nth_error_None in E. assert (nth_error (replace j a l) j <> None) as L by congruence. apply nth_error_Some in L. rewrite length_replace in L. lia.
Qed.
Lemma nth_app_one {A} (l : list A) a j b : nth_error (l ++ [a]) j = Some b -> nth_error l j = Some b \/ (j = length l /\ b = a).
Proof.
  destruct (lt_dec j (length l)) as [L|L]; [rewrite nth_error_app1 by exact L; auto|]. rewrite nth_error_app2 by lia.
  destruct (j - length l)%nat as [|k] eqn:E; cbn.
  - intros H. injection H as <-. right. split; [lia|reflexivity].
  - destruct k; discriminate.
Qed.
Lemma nth_app_old {A} (l : list A) a j b : nth_error l j = Some b -> nth_error (l ++ [a]) j = Some b.
Proof. intros H. rewrite nth_error_app1; [exact H|]. apply nth_error_Some. congruence. Qed.

(** ** Detectors *)
Lemma update_detector_eq s d : update_detector s d = with_values (fun q => value (s q)) d.
Proof. reflexivity. Qed.
Definition same_frame (d d' : detector) : Prop := d_ny d' = d_ny d /\ d_nx d' = d_nx d /\ d_px_size d' = d_px_size d /\ d_binning d' = d_binning d.
Lemma with_values_frame v d d' : same_frame d d' -> with_values v d' = with_values v d.
Proof. intros (A & B & C & D). unfold with_values. now rewrite A, B, C, D. Qed.
Lemma frame_with_values v d : same_frame d (with_values v d).
Proof. repeat split. Qed.
Lemma frame_assign q v d : same_frame d (assign q v d).
Proof. destruct q; repeat split. Qed.
Lemma frame_refl d : same_frame d d.
Proof. repeat split. Qed.
Lemma one_with_values v d : has_one_pc (with_values v d).
Proof. eexists. reflexivity. Qed.
Lemma one_assign q v d : has_one_pc d -> has_one_pc (assign q v d).
Proof. intros [p E]. destruct q; unfold has_one_pc; cbn [assign with_pc d_pc]; rewrite ?E; cbn; eexists; reflexivity. Qed.
Lemma mean_one p : mean_pc [p] = p.
Proof. destruct p. unfold mean_pc, meanR, sumR. cbn. f_equal; field. Qed.
Lemma with_current d : has_one_pc d -> with_values (fun q => current q d) d = d.
Proof. intros [p E]. unfold with_values, current. rewrite E. cbn [pcs]. rewrite mean_one. destruct d, p. cbn in *. now rewrite E. Qed.

(** ** Sliders *)
Lemma range_contains v a b : a <= b -> fst (detector_value_range v a b) <= v <= snd (detector_value_range v a b) /\
  fst (detector_value_range v a b) <= a /\ b <= snd (detector_value_range v a b) /\ (a <= v <= b -> detector_value_range v a b = (a, b)).
Proof.
  intros L. unfold detector_value_range. cbn [fst snd]. assert (M : 1/10 <= Rmax ((b - a) * (1/10)) (1/10)) by apply Rmax_r.
  destruct (Rlt_dec v a), (Rlt_dec b v); repeat split; try lra; reflexivity.
Qed.
Lemma usual_ordered q : fst (usual_range q) <= snd (usual_range q).
Proof. destruct q; cbn; lra. Qed.
Lemma slider_at q d : value (parameter_slider q d) = current q d.
Proof.
  unfold parameter_slider, new_slider, set_value. cbn [value least greatest fst snd].
  destruct (range_contains (current q d) _ _ (usual_ordered q)) as [H _]. rewrite Rmax_left by lra. rewrite Rmin_left by lra. reflexivity.
Qed.

(** ** Drawing *)
Lemma redraw_one d q c pc circles overlays : has_one_pc d -> exists pict, redraw d q c pc circles overlays = Some pict.
Proof.
  intros [p E]. unfold redraw.
  assert (S : exists s, plot_side_view d = Some s) by (unfold plot_side_view, first_distance; rewrite E; cbn; eauto). destruct S as [s ->].
  assert (T : exists t, plot_top_view d = Some t) by (unfold plot_top_view, first_distance; rewrite E; cbn; eauto). destruct T as [t ->].
  assert (P : exists x, update_detector_plane d c 1 (Some circles) pc = Some x).
  { unfold update_detector_plane, plot_detector. cbn [negb]. destruct (SimulationMarkers.detector_plot d c) as [? [[? ?] [? ?]]]. eauto. }
  destruct P as [x ->]. destruct q as [q|]; [|eauto].
  assert (A : exists l, all_some (map (draw d q c) overlays) = Some l).
  { induction overlays as [|o r [l IH]]; [cbn; eauto|]. cbn [map all_some].
    assert (D : exists y, draw d q c o = Some y).
    { unfold draw. rewrite E. cbn [pcs]. destruct (ticked o); [|eauto]. destruct (of_content o); [destruct (geometrical_simulation _ _ _ _ _ _); eauto|destruct c; eauto]. }
    destruct D as [y ->]. rewrite IH. cbn. eauto. }
  destruct A as [l ->]. cbn. eauto.
Qed.
Lemma bands_of_nil l : bands_of (match l with [] => [] | _ => [Bands l] end) = l.
Proof. destruct l; [reflexivity|]. cbn. now rewrite app_nil_r. Qed.
Lemma zones_of_nil l : zone_axes_of (match l with [] => [] | _ => [ZoneAxes l] end) = l.
Proof. destruct l; [reflexivity|]. cbn. now rewrite app_nil_r. Qed.
Lemma redraw_shows d q c pc circles overlays pict : redraw d q c pc circles overlays = Some pict -> shows d q c pc circles overlays pict.
Proof.
  unfold redraw. destruct (plot_side_view d) as [s|] eqn:S; [|discriminate]. destruct (plot_top_view d) as [t|] eqn:T; [|discriminate].
  destruct (update_detector_plane _ _ _ _ _) as [x|] eqn:P; [|discriminate]. intros H.
  assert (Q : plot d (match c with InPixels => "pixel" | Gnomonic => "gnomonic" end)%string 1 pc circles None None = Some x) by (destruct c; exact P).
  destruct q as [q|]; [|injection H as <-; repeat split; assumption].
  destruct (all_some _) as [l|] eqn:A; [|discriminate]. injection H as <-. split; [exact S|]. split; [exact T|]. split; [exact Q|]. exists l. split; [reflexivity|].
  cbn [screen]. clear Q S T. revert l A. induction overlays as [|o r IH]; intros l A; cbn [map all_some] in A.
  - injection A as <-. constructor.
  - destruct (draw d q c o) as [y|] eqn:D; [|discriminate]. destruct (all_some (map _ r)) as [l'|]; [|discriminate]. cbn in A. injection A as <-.
    constructor; [|apply IH; reflexivity]. unfold draw in D. destruct (ticked o); [|congruence].
    destruct (pcs (d_pc d)) as [|p [|? ?]] eqn:E; try discriminate. destruct (of_content o) as [base refl b z|mp]; cbn [drawn_when_ticked].
    + intros p' E'. assert (p' = p) by congruence. subst p'. destruct (geometrical_simulation base refl d p q c) as [bands za]. injection D as <-.
      unfold bands_of, zone_axes_of. rewrite !flat_map_app, existsb_app.
      fold (bands_of (match bands with [] => [] | _ => [Bands bands] end)) (zone_axes_of (match za with [] => [] | _ => [ZoneAxes za] end)).
      rewrite bands_of_nil, zones_of_nil. cbn [fst snd]. split; [|split].
      * destruct za; cbn; now rewrite app_nil_r.
      * destruct bands; reflexivity.
      * destruct bands, za; reflexivity.
    + destruct c; injection D as <-; eexists _, _, _; (split; [reflexivity|]); (split; [intros dc ->; reflexivity|]).
      * intros Ny Nx a b. unfold update_detector_plane, plot_detector in P. cbn [negb] in P. unfold SimulationMarkers.detector_plot in P. injection P as <-. cbn [area image_point SimulationMarkers.drawn_at].
        assert (A1 : 1 <= ncols d - 1) by (unfold ncols; rewrite <- minus_IZR; apply IZR_le; lia).
        assert (A2 : 1 <= nrows d - 1) by (unfold nrows; rewrite <- minus_IZR; apply IZR_le; lia).
        rewrite !Rmax_left by assumption. f_equal; ring.
      * intros Ny Nx a b. unfold update_detector_plane, plot_detector in P. cbn [negb] in P. unfold SimulationMarkers.detector_plot in P. injection P as <-. reflexivity.
Qed.

(** ** Figures show what their controls say *)

Definition up_to_date (w : world) (f : figure) : Prop := forall p d,
  nth_error (plotters w) (f_plotter f) = Some p -> nth_error (detectors w) (p_detector p) = Some d ->
  redraw (with_values (fun q => value (f_sliders f q)) d) (rotation_of p (f_angles f)) (f_coordinates f) (f_pc f) (f_circles f) (p_overlays p) = Some (f_picture f).
Definition good_except (stale : list nat) (w : world) : Prop :=
  (forall k p, nth_error (plotters w) k = Some p -> exists d, nth_error (detectors w) (p_detector p) = Some d /\ has_one_pc d) /\
  (forall i f, nth_error (figures w) i = Some f ->
    (exists p, nth_error (plotters w) (f_plotter f) = Some p /\ f_watched f = length (p_overlays p)) /\ (In i stale \/ up_to_date w f)).

Lemma up_to_date_detectors w w' f : plotters w' = plotters w ->
  (forall a d', nth_error (detectors w') a = Some d' -> exists d, nth_error (detectors w) a = Some d /\ same_frame d d') ->
  up_to_date w f -> up_to_date w' f.
Proof.
  intros P D U p d' Hp Hd. rewrite P in Hp. destruct (D _ _ Hd) as (d & Hd' & F). rewrite (with_values_frame _ d d' F). exact (U p d Hp Hd').
Qed.
Lemma frame_replace w a d d0 : nth_error (detectors w) a = Some d0 -> same_frame d0 d ->
  forall b d', nth_error (replace a d (detectors w)) b = Some d' -> exists d1, nth_error (detectors w) b = Some d1 /\ same_frame d1 d'.
Proof.
  intros H F b d' H'. apply nth_replace in H'. destruct H' as [(-> & -> & _)|[N H']]; [eauto|]. exists d'. split; [exact H'|apply frame_refl].
Qed.

Lemma on_change_good i stale w : good_except (i :: stale) w -> (i < length (figures w))%nat ->
  exists w', on_change i w = (w', true) /\ good_except stale w' /\ length (figures w') = length (figures w) /\ plotters w' = plotters w.
Proof.
  intros [G1 G2] L. unfold on_change. destruct (nth_error (figures w) i) as [f|] eqn:F; [|apply nth_error_None in F; lia].
  destruct (G2 i f F) as [(p & P & W) _]. rewrite P. destruct (G1 _ p P) as (d & D & O). rewrite D. rewrite update_detector_eq.
  destruct (redraw_one (with_values (fun q => value (f_sliders f q)) d) (rotation_of p (f_angles f)) (f_coordinates f) (f_pc f) (f_circles f) (p_overlays p)
    (one_with_values _ _)) as [pict R]. rewrite R. eexists. split; [reflexivity|]. cbn [figures with_figures with_detectors plotters].
  split; [|split; [apply length_replace|reflexivity]]. split.
  - intros k p' P'. cbn [with_figures with_detectors plotters detectors] in *. destruct (G1 k p' P') as (d' & D' & O').
    destruct (Nat.eq_dec (p_detector p) (p_detector p')) as [E|N].
    + rewrite <- E. rewrite (nth_replace_same _ _ d _ D). eexists. split; [reflexivity|apply one_with_values].
    + rewrite nth_replace_other by exact N. eauto.
  - intros j g Hg. cbn [with_figures with_detectors plotters detectors figures] in *.
    assert (K : forall f0, up_to_date w f0 -> up_to_date (World (replace (p_detector p) (with_values (fun q => value (f_sliders f q)) d) (detectors w)) (dictionaries w) (plotters w)
              (replace i (Figure (f_plotter f) (f_coordinates f) (f_sliders f) (f_angles f) (f_pc f) (f_circles f) (f_watched f) pict (used_options (dictionaries w) (p_overlays p))) (figures w))) f0).
    { intros f0. apply up_to_date_detectors; [reflexivity|]. cbn [detectors]. apply frame_replace with d; [exact D|apply frame_with_values]. }
    apply nth_replace in Hg. destruct Hg as [(<- & -> & _)|[N Hg]].
    + cbn [f_plotter f_watched]. split; [eauto|]. right. intros p' d' P' D'. cbn [f_plotter f_sliders f_angles f_coordinates f_pc f_circles f_picture plotters detectors with_figures with_detectors] in *.
      assert (p' = p) by congruence. subst p'. rewrite (nth_replace_same _ _ d _ D) in D'. injection D' as <-. rewrite (with_values_frame _ d) by apply frame_with_values. exact R.
    + destruct (G2 j g Hg) as [V [[E|I]|U]]; [congruence| |]; (split; [exact V|]); [left; exact I|right; apply K; exact U].
Qed.
Lemma on_changes_good l stale w : good_except (l ++ stale) w -> (forall i, In i l -> (i < length (figures w))%nat) ->
  exists w', on_changes l w = (w', true) /\ good_except stale w' /\ plotters w' = plotters w.
Proof.
  revert w. induction l as [|i l IH]; intros w G L; [cbn; eauto|]. cbn [on_changes].
  destruct (on_change_good i (l ++ stale) w G (L i (or_introl eq_refl))) as (w1 & -> & G1 & L1 & P1).
  destruct (IH w1 G1) as (w2 & E2 & G2 & P2); [intros j J; rewrite L1; apply L; right; exact J|].
  exists w2. split; [exact E2|]. split; [exact G2|congruence].
Qed.

(** A figure whose controls change, before it is drawn again *)
Lemma good_stale i f f' w : good_except [] w -> nth_error (figures w) i = Some f -> f_plotter f' = f_plotter f -> f_watched f' = f_watched f ->
  good_except [i] (with_figures w (replace i f' (figures w))).
Proof.
  intros [G1 G2] F P W. split; [exact G1|]. intros j g H. cbn [figures with_figures plotters] in *. apply nth_replace in H. destruct H as [(<- & -> & _)|[N H]].
  - destruct (G2 i f F) as [(p & A & B) _]. rewrite P, W. split; [eauto|left; left; reflexivity].
  - destruct (G2 j g H) as [V [[]|U]]. split; [exact V|]. right. revert U. apply up_to_date_detectors; [reflexivity|]. cbn. intros a d D. exists d. split; [exact D|apply frame_refl].
Qed.
Lemma changed_good i f f' w : good_except [] w -> nth_error (figures w) i = Some f -> f_plotter f' = f_plotter f -> f_watched f' = f_watched f ->
  exists w', on_change i (with_figures w (replace i f' (figures w))) = (w', true) /\ good_except [] w'.
Proof.
  intros G F P W. destruct (on_change_good i [] _ (good_stale i f f' w G F P W)) as (w' & E & G' & _).
  - cbn. rewrite length_replace. apply nth_error_Some. congruence.
  - eauto.
Qed.
Lemma moved_same f c v f' : moved f c v = Some f' -> f_plotter f' = f_plotter f /\ f_watched f' = f_watched f.
Proof.
  unfold moved. destruct c as [q|a].
  - destruct (Req_EM_T _ _); [discriminate|]. intros H. injection H as <-. auto.
  - destruct (f_angles f); [|discriminate]. destruct (Req_EM_T _ _); [discriminate|]. intros H. injection H as <-. auto.
Qed.

(** Dictionaries do not matter to this. *)
Lemma good_dictionaries l w stale : good_except stale w -> good_except stale (with_dictionaries w l).
Proof. exact (fun G => G). Qed.

Lemma good_add w k p c : good_except [] w -> nth_error (plotters w) k = Some p -> (forall i f, nth_error (figures w) i = Some f -> f_plotter f <> k) ->
  good_except [] (add_overlay k p c w).
Proof.
  intros [G1 G2] P N. split.
  - intros j p' H. cbn [add_overlay with_plotters plotters detectors] in *. apply nth_replace in H. destruct H as [(<- & -> & _)|[_ H]]; [cbn [p_detector]|]; eauto.
  - intros i f F. cbn [add_overlay with_plotters plotters detectors figures] in *. specialize (N i f F). destruct (G2 i f F) as [(p' & P' & W) [[]|U]]. split.
    + exists p'. rewrite nth_replace_other by congruence. auto.
    + right. intros p1 d1 H1 H2. cbn [add_overlay with_plotters plotters detectors] in *. rewrite nth_replace_other in H1 by congruence. exact (U p1 d1 H1 H2).
Qed.

Definition admissible (w : world) (a : action) : Prop :=
  (forall i f, nth_error (figures w) i = Some f -> ~ sets_overlay (f_plotter f) a) /\
  (forall k pcs, a = AssignPC k pcs -> exists p, pcs = PCArray [1%nat] [p]).
Lemma good_detector w a d d' : good_except [] w -> nth_error (detectors w) a = Some d -> same_frame d d' -> (has_one_pc d -> has_one_pc d') ->
  good_except [] (with_detectors w (replace a d' (detectors w))).
Proof.
  intros [G1 G2] D F O. split.
  - intros k p P. cbn [with_detectors plotters detectors] in *. destruct (G1 k p P) as (d1 & D1 & O1). destruct (Nat.eq_dec a (p_detector p)) as [->|N].
    + rewrite (nth_replace_same _ _ d _ D). eexists. split; [reflexivity|]. apply O. congruence.
    + rewrite nth_replace_other by exact N. eauto.
  - intros i f H. cbn [with_detectors plotters detectors figures] in *. destruct (G2 i f H) as [V [[]|U]]. split; [exact V|]. right. revert U.
    apply up_to_date_detectors; [reflexivity|]. cbn. apply frame_replace with d; assumption.
Qed.
Lemma step_good a w : good_except [] w -> admissible w a -> good_except [] (fst (step a w)).
Proof.
  intros G [N1 N2]. destruct a as [a r inplace|k base refl b z|k ok mp|k c|i c v|i|i|k j|a q v|a pcs0]; cbn [step].
  - unfold create. destruct (nth_error (detectors w) a) as [d|] eqn:D; [|exact G].
    assert (F : same_frame d (with_pc d (one_pc (mean_pc (pcs (d_pc d)))))) by (repeat split).
    assert (O : has_one_pc (with_pc d (one_pc (mean_pc (pcs (d_pc d)))))) by (eexists; reflexivity).
    assert (H : forall w1 p d1, good_except [] w1 -> nth_error (detectors w1) (p_detector p) = Some d1 -> has_one_pc d1 -> good_except [] (with_plotters w1 (plotters w1 ++ [p])%list)).
    { intros w1 p d1 [A B] C E. split.
      - intros k p' H. cbn [with_plotters plotters detectors] in *. apply nth_app_one in H. destruct H as [H|[_ ->]]; eauto.
      - intros i f H. cbn [with_plotters plotters detectors figures] in *. destruct (B i f H) as [(p' & P' & W) [[]|U]]. split; [exists p'; split; [now apply nth_app_old|exact W]|].
        right. intros p2 d2 H2 H3. cbn [with_plotters plotters detectors] in *. rewrite (nth_app_old _ _ _ _ P') in H2. injection H2 as <-. exact (U p' d2 P' H3). }
    destruct inplace; cbn [fst].
    + apply (H (with_detectors w (replace a (with_pc d (one_pc (mean_pc (pcs (d_pc d))))) (detectors w))) _ (with_pc d (one_pc (mean_pc (pcs (d_pc d)))))); [|cbn [with_detectors detectors p_detector]; exact (nth_replace_same _ _ d _ D)|exact O].
      apply good_detector with d; auto.
    + apply (H (with_detectors w (detectors w ++ [with_pc d (one_pc (mean_pc (pcs (d_pc d))))])%list) _ (with_pc d (one_pc (mean_pc (pcs (d_pc d)))))); [|cbn [with_detectors detectors p_detector]; rewrite nth_error_app2, Nat.sub_diag by lia; reflexivity|exact O].
      destruct G as [G1 G2]. split.
      * intros k p P. cbn [with_detectors plotters detectors] in *. destruct (G1 k p P) as (d1 & D1 & O1). exists d1. split; [now apply nth_app_old|exact O1].
      * intros i f Hf. cbn [with_detectors plotters detectors figures] in *. destruct (G2 i f Hf) as [(p & P & W) [[]|U]]. split; [eauto|]. right. intros p1 d1 H1 H2. cbn [with_detectors plotters detectors] in *.
        assert (p1 = p) by congruence. subst p1. destruct (G1 _ p P) as (d2 & D2 & _). rewrite (nth_app_old _ _ _ _ D2) in H2. injection H2 as <-. exact (U p d2 P D2).
  - unfold set_geometrical. destruct (nth_error (plotters w) k) as [p|] eqn:P; [|exact G]. destruct (can_set p true); [|exact G].
    assert (E : forall l, good_except [] (with_dictionaries w l)) by (intros; exact G).
    assert (X : forall l c, good_except [] (add_overlay k p c (with_dictionaries w l))).
    { intros l c. apply good_add; [apply E|exact P|]. intros i f F Q. apply (N1 i f F). cbn. now symmetry. }
    destruct b as [b|], z as [z|]; cbn [dictionary]; cbn [fst]; apply X.
  - unfold set_master_pattern. destruct (nth_error (plotters w) k) as [p|] eqn:P; [|exact G]. destruct (can_set p false && ok); [|exact G]. cbn [fst].
    apply good_add; [exact G|exact P|]. intros i f F Q. apply (N1 i f F). cbn. now symmetry.
  - unfold show. destruct (nth_error (plotters w) k) as [p|] eqn:P; [|exact G]. destruct (nth_error (detectors w) (p_detector p)) as [d|] eqn:D; [|exact G].
    match goal with |- context [redraw d ?q c ?x ?y ?z] => destruct (redraw d q c x y z) as [pict|] eqn:R end; [|exact G]. cbn [fst].
    destruct G as [G1 G2]. split; [exact G1|]. intros i f F. cbn [with_figures with_dictionaries plotters figures] in *. apply nth_app_one in F. destruct F as [F|[_ ->]].
    + destruct (G2 i f F) as [V [[]|U]]. split; [exact V|]. right. exact U.
    + cbn [f_plotter f_watched]. split; [eauto|]. right. intros p' d' P' D'. cbn [f_plotter f_sliders f_angles f_coordinates f_pc f_circles f_picture with_figures with_dictionaries plotters detectors] in *.
      assert (p' = p) by congruence. subst p'. assert (d' = d) by congruence. subst d'. destruct (G1 _ p P) as (d1 & D1 & O1). assert (d1 = d) by congruence. subst d1.
      replace (with_values _ d) with d; [exact R|]. rewrite <- (with_current d O1) at 1. unfold with_values. f_equal; [| | | |do 3 f_equal]; symmetry; apply slider_at.
  - unfold move. destruct (nth_error (figures w) i) as [f|] eqn:F; [|exact G]. destruct (moved f c v) as [f'|] eqn:M; [|exact G].
    destruct (moved_same f c v f' M) as [A B]. destruct (changed_good i f f' w G F A B) as (w' & -> & G'). exact G'.
  - unfold tick_pc. destruct (nth_error (figures w) i) as [f|] eqn:F; [|exact G].
    match goal with |- context [replace i ?f' _] => destruct (changed_good i f f' w G F eq_refl eq_refl) as (w' & E & G'); rewrite E; exact G' end.
  - unfold tick_circles. destruct (nth_error (figures w) i) as [f|] eqn:F; [|exact G].
    match goal with |- context [replace i ?f' _] => destruct (changed_good i f f' w G F eq_refl eq_refl) as (w' & E & G'); rewrite E; exact G' end.
  - unfold tick_overlay. destruct (nth_error (plotters w) k) as [p|] eqn:P; [|exact G]. destruct (nth_error (p_overlays p) j) as [o|] eqn:O; [|exact G]. cbv zeta.
    set (p' := Plotter _ _ _). set (w1 := with_plotters w _).
    assert (G' : good_except (watching k j w1 ++ []) w1).
    { rewrite app_nil_r. destruct G as [G1 G2]. split.
      - intros k' p1 H. cbn [w1 with_plotters plotters detectors] in *. apply nth_replace in H. destruct H as [(<- & -> & _)|[_ H]]; [cbn [p' p_detector]|]; eauto.
      - intros i f F. cbn [w1 with_plotters plotters detectors figures] in *. destruct (G2 i f F) as [(p1 & P1 & W) [[]|U]].
        destruct (Nat.eq_dec k (f_plotter f)) as [E|E].
        + assert (p1 = p) by congruence. subst p1. split.
          * exists p'. rewrite <- E. rewrite (nth_replace_same _ _ p _ P). split; [reflexivity|]. cbn [p' p_overlays]. rewrite length_replace. exact W.
          * left. unfold watching. apply filter_In. cbn [w1 with_plotters figures]. split.
            -- apply in_seq. assert (i < length (figures w))%nat by (apply nth_error_Some; congruence). lia.
            -- rewrite F. rewrite <- E, Nat.eqb_refl. cbn. apply Nat.ltb_lt. rewrite W. apply nth_error_Some. congruence.
        + split; [exists p1; rewrite nth_replace_other by exact E; auto|]. right. intros p2 d2 H1 H2. cbn [w1 with_plotters plotters detectors] in *. rewrite nth_replace_other in H1 by exact E. exact (U p2 d2 H1 H2). }
    destruct (on_changes_good _ _ _ G') as (w2 & -> & G2 & _); [|exact G2]. intros i I. unfold watching in I. apply filter_In in I. destruct I as [I _]. apply in_seq in I. lia.
  - unfold on_detector_at. destruct (nth_error (detectors w) a) as [d|] eqn:D; [|exact G]. apply good_detector with d; [exact G|exact D|apply frame_assign|apply one_assign].
  - unfold on_detector_at. destruct (nth_error (detectors w) a) as [d|] eqn:D; [|exact G]. destruct (N2 a pcs0 eq_refl) as [p ->]. apply good_detector with d; [exact G|exact D|repeat split|]. intros _. eexists. reflexivity.
Qed.

(** ** Histories *)
Lemma run_snoc h a w : run (h ++ [a]) w = fst (step a (run h w)).
Proof. unfold run. now rewrite fold_left_app. Qed.
Lemma run_app h h' w : run (h ++ h') w = run h' (run h w).
Proof. unfold run. now rewrite fold_left_app. Qed.

(** What drawing again changes *)
Definition drawn_again (w w' : world) : Prop :=
  dictionaries w' = dictionaries w /\ plotters w' = plotters w /\ length (detectors w') = length (detectors w) /\ length (figures w') = length (figures w) /\
  (forall a, nth_error (detectors w') a = nth_error (detectors w) a \/
    exists p d d', In p (plotters w) /\ p_detector p = a /\ nth_error (detectors w) a = Some d /\ nth_error (detectors w') a = Some d' /\ same_frame d d') /\
  (forall i f, nth_error (figures w') i = Some f -> exists f0, nth_error (figures w) i = Some f0 /\ f_plotter f0 = f_plotter f).
Lemma drawn_again_refl w : drawn_again w w.
Proof. repeat split; eauto. Qed.
Lemma frame_trans d d' d'' : same_frame d d' -> same_frame d' d'' -> same_frame d d''.
Proof. unfold same_frame. intros (A & B & C & D) (E & F & G & H). repeat split; congruence. Qed.
Lemma drawn_again_trans w w' w'' : drawn_again w w' -> drawn_again w' w'' -> drawn_again w w''.
Proof.
  intros (A & B & C & L & D & E) (A' & B' & C' & L' & D' & E'). repeat split; try congruence.
  - intros a. destruct (D' a) as [H|(p & d & d' & I & P & N & N' & F)].
    + destruct (D a) as [G|(p & d & d' & I & P & N & N' & F)]; [left; congruence|]. right. exists p, d, d'. rewrite H. auto.
    + rewrite B in I. right. destruct (D a) as [G|(p1 & d1 & d1' & I1 & P1 & N1 & N1' & F1)].
      * exists p, d, d'. rewrite <- G. auto.
      * exists p1, d1, d'. assert (d1' = d) by congruence. subst d1'. repeat split; auto; apply (frame_trans _ _ _ F1 F).
  - intros i f H. destruct (E' i f H) as (f1 & H1 & Q1). destruct (E i f1 H1) as (f0 & H0 & Q0). exists f0. split; [exact H0|congruence].
Qed.
Lemma on_change_again i w : drawn_again w (fst (on_change i w)).
Proof.
  unfold on_change. destruct (nth_error (figures w) i) as [f|] eqn:F; [|apply drawn_again_refl]. destruct (nth_error (plotters w) (f_plotter f)) as [p|] eqn:P; [|apply drawn_again_refl].
  destruct (nth_error (detectors w) (p_detector p)) as [d|] eqn:D; [|apply drawn_again_refl]. cbv zeta. rewrite update_detector_eq.
  assert (K : forall a, nth_error (replace (p_detector p) (with_values (fun q => value (f_sliders f q)) d) (detectors w)) a = nth_error (detectors w) a \/
    exists p0 d0 d', In p0 (plotters w) /\ p_detector p0 = a /\ nth_error (detectors w) a = Some d0 /\
      nth_error (replace (p_detector p) (with_values (fun q => value (f_sliders f q)) d) (detectors w)) a = Some d' /\ same_frame d0 d').
  { intros a. destruct (Nat.eq_dec (p_detector p) a) as [<-|N]; [|left; now apply nth_replace_other]. right. exists p, d. eexists. split; [eapply nth_error_In; exact P|].
    split; [reflexivity|]. split; [exact D|]. split; [exact (nth_replace_same _ _ d _ D)|apply frame_with_values]. }
  destruct (redraw _ _ _ _ _ _) as [pict|]; cbn [fst].
  - repeat split; cbn [with_detectors with_figures detectors plotters dictionaries figures]; try apply length_replace; try reflexivity; [exact K|].
    intros j g H. apply nth_replace in H. destruct H as [(<- & -> & _)|[_ H]]; [exists f; split; [exact F|reflexivity]|eauto].
  - repeat split; cbn [with_detectors with_figures detectors plotters dictionaries figures]; try apply length_replace; try reflexivity; [exact K|]. eauto.
Qed.
Lemma on_changes_again l w : drawn_again w (fst (on_changes l w)).
Proof.
  revert w. induction l as [|i l IH]; intros w; [apply drawn_again_refl|]. cbn [on_changes]. pose proof (on_change_again i w) as H. destruct (on_change i w) as [w' [|]]; [|exact H].
  apply (drawn_again_trans _ _ _ H). apply IH.
Qed.
Lemma refigure_again i f f' w : nth_error (figures w) i = Some f -> f_plotter f' = f_plotter f -> drawn_again w (with_figures w (replace i f' (figures w))).
Proof.
  intros F P. repeat split; cbn [with_figures figures]; try apply length_replace; eauto. intros j g H. apply nth_replace in H. destruct H as [(<- & -> & _)|[_ H]]; [exists f; auto|eauto].
Qed.
Lemma change_again i f f' w : nth_error (figures w) i = Some f -> f_plotter f' = f_plotter f -> drawn_again w (fst (on_change i (with_figures w (replace i f' (figures w))))).
Proof. intros F P. apply (drawn_again_trans _ _ _ (refigure_again i f f' w F P)). apply on_change_again. Qed.
Lemma move_again i c v w : drawn_again w (fst (move i c v w)).
Proof.
  unfold move. destruct (nth_error (figures w) i) as [f|] eqn:F; [|apply drawn_again_refl]. destruct (moved f c v) as [f'|] eqn:M; [|apply drawn_again_refl].
  apply change_again with f; [exact F|]. apply (moved_same f c v f' M).
Qed.
Lemma tick_pc_again i w : drawn_again w (fst (tick_pc i w)).
Proof. unfold tick_pc. destruct (nth_error (figures w) i) as [f|] eqn:F; [|apply drawn_again_refl]. apply change_again with f; [exact F|reflexivity]. Qed.
Lemma tick_circles_again i w : drawn_again w (fst (tick_circles i w)).
Proof. unfold tick_circles. destruct (nth_error (figures w) i) as [f|] eqn:F; [|apply drawn_again_refl]. apply change_again with f; [exact F|reflexivity]. Qed.

Lemma set_geometrical_world i base refl b z w : exists l ps, fst (set_geometrical i base refl b z w) = World (detectors w) l ps (figures w).
Proof.
  unfold set_geometrical. destruct (nth_error (plotters w) i) as [p|]; [|destruct w; cbn; eauto]. destruct (can_set p true); [|destruct w; cbn; eauto].
  destruct b, z; cbn [dictionary fst]; unfold add_overlay, with_defaults, with_dictionaries, with_plotters; cbn; eauto.
Qed.
Lemma set_master_world i ok mp w : exists ps, fst (set_master_pattern i ok mp w) = with_plotters w ps.
Proof. unfold set_master_pattern. destruct (nth_error (plotters w) i) as [p|]; [|exists (plotters w); destruct w; reflexivity]. destruct (_ && _); [|exists (plotters w); destruct w; reflexivity]. eexists. reflexivity. Qed.

Lemma step_figures a w i f : nth_error (figures (fst (step a w))) i = Some f ->
  (exists f0, nth_error (figures w) i = Some f0 /\ f_plotter f0 = f_plotter f) \/ exists c, a = Show (f_plotter f) c.
Proof.
  assert (K : forall w', drawn_again w w' -> nth_error (figures w') i = Some f -> exists f0, nth_error (figures w) i = Some f0 /\ f_plotter f0 = f_plotter f) by (intros w' (_ & _ & _ & _ & _ & H); apply H).
  destruct a as [a r inplace|k base refl b z|k ok mp|k c|j c v|j|j|k j|a q v|a pcs0]; cbn [step]; intros H.
  - left. unfold create in H. destruct (nth_error (detectors w) a); [destruct inplace|]; cbn in H; eauto.
  - left. destruct (set_geometrical_world k base refl b z w) as (l & ps & E). rewrite E in H. cbn in H. eauto.
  - left. destruct (set_master_world k ok mp w) as (ps & E). rewrite E in H. cbn in H. eauto.
  - unfold show in H. destruct (nth_error (plotters w) k) as [p|]; [|left; cbn in H; eauto]. destruct (nth_error (detectors w) (p_detector p)) as [d|]; [|left; cbn in H; eauto].
    destruct (redraw _ _ _ _ _ _) as [pict|]; [|left; cbn in H; eauto]. cbn [fst with_figures with_dictionaries figures] in H. apply nth_app_one in H. destruct H as [H|[_ ->]]; [left; eauto|right; cbn; eauto].
  - left. exact (K _ (move_again j c v w) H).
  - left. exact (K _ (tick_pc_again j w) H).
  - left. exact (K _ (tick_circles_again j w) H).
  - left. unfold tick_overlay in H. destruct (nth_error (plotters w) k) as [p|]; [|cbn in H; eauto]. destruct (nth_error (p_overlays p) j) as [o|]; [|cbn in H; eauto].
    cbv zeta in H. match type of H with context [on_changes ?l ?w1] => destruct (on_changes_again l w1) as (_ & _ & _ & _ & _ & E) end. exact (E i f H).
  - left. unfold on_detector_at in H. destruct (nth_error (detectors w) a); cbn in H; eauto.
  - left. unfold on_detector_at in H. destruct (nth_error (detectors w) a); cbn in H; eauto.
Qed.
Lemma figures_shown h ds os i f : nth_error (figures (run h (start ds os))) i = Some f -> exists c, In (Show (f_plotter f) c) h.
Proof.
  revert i f. induction h as [|a h IH] using rev_ind; intros i f H; [destruct i; discriminate|]. rewrite run_snoc in H. apply step_figures in H.
  destruct H as [(f0 & H & E)|[c ->]]; [|exists c; apply in_or_app; right; left; reflexivity]. destruct (IH i f0 H) as [c I]. rewrite E in I. exists c. apply in_or_app. auto.
Qed.
Lemma run_good h ds os : overlays_before_shows h -> one_pc_assigned h -> good_except [] (run h (start ds os)).
Proof.
  induction h as [|a h IH] using rev_ind; intros A B.
  - split; cbn; intros i p H; destruct i; discriminate.
  - rewrite run_snoc. apply step_good.
    + apply IH; [|intros k l I; apply (B k l); apply in_or_app; auto]. intros before i c after x E I. apply (A before i c (after ++ [a])%list); [|apply in_or_app; auto].
      rewrite E. rewrite <- app_assoc. reflexivity.
    + split.
      * intros i f F. destruct (figures_shown h ds os i f F) as [c I]. apply in_split in I. destruct I as (before & after & ->).
        apply (A before (f_plotter f) c (after ++ [a])%list); [rewrite <- app_assoc; reflexivity|]. apply in_or_app. right. left. reflexivity.
      * intros k l ->. apply (B k l). apply in_or_app. right. left. reflexivity.
Qed.
