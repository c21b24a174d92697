(** Moving-screen calibration: property C43. *)
From Coq Require Import List Reals Lra Lia.
From Verif Require Import Model.Detector Model.MovingScreen Spec.DetectorGeometry Proofs.MovingScreenProofs.
Import ListNotations.
Local Open Scope R_scope.

(** Perspective image of a feature seen from the source point in direction (u, v) (to the right and
    upwards, per unit of distance) on a detector at the given position, in pixels from its upper left
    corner; [pitch] is the size of a (binned) pixel. *)
Definition seen_at (pitch : R) (source : position) (direction : R * R) : R * R :=
  ((right_of_left_edge source + distance source * fst direction) / pitch,
   (below_top_edge source - distance source * snd direction) / pitch).
(** The camera moved away by dz. *)
Definition retracted (dz : R) (p : position) : position := Pos (right_of_left_edge p) (below_top_edge p) (distance p + dz).
(** Two directions are not in line with the point of the pattern that does not move. *)
Definition independent (a b : R * R) : Prop := fst a * snd b - fst b * snd a <> 0.

Section Calibration.
Variables (ny nx : nat) (delta b dz : R) (truth : position) (directions : list (R * R)).
Hypothesis Hny : (0 < ny)%nat. Hypothesis Hnx : (0 < nx)%nat.
Hypothesis Hdelta : 0 < delta. Hypothesis Hb : 0 < b. Hypothesis Hdz : dz <> 0.
Hypothesis Hin : 0 < distance truth. Hypothesis Hout : 0 < distance truth + dz.

(** The calibration object made from exact points. *)
Definition exact (convention : presentation) (px_size : option R) : calibration :=
  Calibration ny nx (map (fun d => (seen_at (delta * b) truth d, seen_at (delta * b) (retracted dz truth) d)) directions)
    dz px_size b convention.

Let inside : Prop := 0 < right_of_left_edge truth < INR nx * (delta * b) /\ 0 < below_top_edge truth < INR ny * (delta * b).

Lemma estimate_exact conv px d e :
  estimate (exact conv px) (seen_at (delta * b) truth d, seen_at (delta * b) (retracted dz truth) d)
    (seen_at (delta * b) truth e, seen_at (delta * b) (retracted dz truth) e) <> [] ->
  estimate (exact conv px) (seen_at (delta * b) truth d, seen_at (delta * b) (retracted dz truth) d)
    (seen_at (delta * b) truth e, seen_at (delta * b) (retracted dz truth) e)
  = [PC (right_of_left_edge truth / (delta * b) / INR nx)
       (match conv with TSL => 1 - below_top_edge truth / (delta * b) / INR ny | BRUKER => below_top_edge truth / (delta * b) / INR ny end)
       (match px with Some s => distance truth / (INR ny * s * b) | None => distance truth end)].
Proof using Hny Hnx Hdelta Hb Hdz Hin Hout.
  assert (Hs : 0 < delta * b) by (apply Rmult_lt_0_compat; auto).
  unfold estimate, seen_at, retracted. cbn [right_of_left_edge below_top_edge distance].
  rewrite (intersection_views (right_of_left_edge truth) (below_top_edge truth) (distance truth) dz (delta * b)) by lra.
  destruct (Req_EM_T _ 0) as [|Hc]; [congruence|].
  destruct (within _ _); [|congruence]. intros _. cbn [m_delta_z exact fst snd m_nrows m_ncols m_px_size m_binning m_convention].
  rewrite (ratio_views (right_of_left_edge truth) (below_top_edge truth) (distance truth) dz (delta * b)) by auto.
  reflexivity.
Qed.

(** Every estimate is the true PC: in Bruker's convention, ... *)
Theorem C43_every_estimate_exact p : In p (pc_all (exact BRUKER (Some delta))) ->
  bruker_position (INR ny) (INR nx) b delta (pcx p) (pcy p) (pcz p) = truth.
Proof using Hny Hnx Hdelta Hb Hdz Hin Hout.
  unfold pc_all. rewrite in_flat_map. intros ([f g] & Hfg & Hp). cbn [fst snd] in Hp.
  apply in_pairs in Hfg. destruct Hfg as [Hf Hg]. cbn [m_points exact] in Hf, Hg. apply in_map_iff in Hf, Hg.
  destruct Hf as (d & <- & _). destruct Hg as (e & <- & _).
  rewrite estimate_exact in Hp by (intros E; rewrite E in Hp; destruct Hp). destruct Hp as [<-|[]]. cbn [pcx pcy pcz].
  assert (INR ny <> 0) by (apply not_0_INR; lia). assert (INR nx <> 0) by (apply not_0_INR; lia).
  unfold bruker_position. destruct truth as [X Y D]. cbn [right_of_left_edge below_top_edge distance]. f_equal; field; repeat split; auto; lra.
Qed.
(** ... and in the default TSL convention, where PCy is from bottom to top (and PCz, as documented, a
    fraction of the detector height). *)
Theorem C43_every_estimate_exact_from_bottom p : In p (pc_all (exact TSL (Some delta))) ->
  bruker_position (INR ny) (INR nx) b delta (pcx p) (1 - pcy p) (pcz p) = truth.
Proof using Hny Hnx Hdelta Hb Hdz Hin Hout.
  unfold pc_all. rewrite in_flat_map. intros ([f g] & Hfg & Hp). cbn [fst snd] in Hp.
  apply in_pairs in Hfg. destruct Hfg as [Hf Hg]. cbn [m_points exact] in Hf, Hg. apply in_map_iff in Hf, Hg.
  destruct Hf as (d & <- & _). destruct Hg as (e & <- & _).
  rewrite estimate_exact in Hp by (intros E; rewrite E in Hp; destruct Hp). destruct Hp as [<-|[]]. cbn [pcx pcy pcz].
  assert (INR ny <> 0) by (apply not_0_INR; lia). assert (INR nx <> 0) by (apply not_0_INR; lia).
  unfold bruker_position. destruct truth as [X Y D]. cbn [right_of_left_edge below_top_edge distance]. f_equal; field; repeat split; auto; lra.
Qed.
(** This is EBSDDetector's TSL convention for detectors that are not higher than wide; ... *)
Theorem C43_every_estimate_exact_tsl_partial p : (ny <= nx)%nat -> In p (pc_all (exact TSL (Some delta))) ->
  tsl_position (INR ny) (INR nx) b delta (pcx p) (pcy p) (pcz p) = truth.
Proof using Hny Hnx Hdelta Hb Hdz Hin Hout.
  intros Hle. unfold pc_all. rewrite in_flat_map. intros ([f g] & Hfg & Hp). cbn [fst snd] in Hp.
  apply in_pairs in Hfg. destruct Hfg as [Hf Hg]. cbn [m_points exact] in Hf, Hg. apply in_map_iff in Hf, Hg.
  destruct Hf as (d & <- & _). destruct Hg as (e & <- & _).
  rewrite estimate_exact in Hp by (intros E; rewrite E in Hp; destruct Hp). destruct Hp as [<-|[]]. cbn [pcx pcy pcz].
  assert (INR ny <> 0) by (apply not_0_INR; lia). assert (INR nx <> 0) by (apply not_0_INR; lia).
  unfold tsl_position. rewrite Rmin_left.
  - destruct truth as [X Y D]. cbn [right_of_left_edge below_top_edge distance]. f_equal; field; repeat split; auto; lra.
  - rewrite !Rmult_assoc. apply Rmult_le_compat_r; [|now apply le_INR]. left. apply Rmult_lt_0_compat; auto.
Qed.
(** ... for detectors higher than wide, PCz is not what EBSDDetector takes it to be in the TSL convention. *)
Theorem C43_tsl_distance_refuted p : (nx < ny)%nat -> In p (pc_all (exact TSL (Some delta))) ->
  distance (tsl_position (INR ny) (INR nx) b delta (pcx p) (pcy p) (pcz p)) < distance truth.
Proof using Hny Hnx Hdelta Hb Hdz Hin Hout.
  intros Hlt. unfold pc_all. rewrite in_flat_map. intros ([f g] & Hfg & Hp). cbn [fst snd] in Hp.
  apply in_pairs in Hfg. destruct Hfg as [Hf Hg]. cbn [m_points exact] in Hf, Hg. apply in_map_iff in Hf, Hg.
  destruct Hf as (d & <- & _). destruct Hg as (e & <- & _).
  rewrite estimate_exact in Hp by (intros E; rewrite E in Hp; destruct Hp). destruct Hp as [<-|[]]. cbn [pcx pcy pcz].
  assert (N : 0 < INR ny) by (apply lt_0_INR; lia). assert (M : 0 < INR nx) by (apply lt_0_INR; lia).
  apply lt_INR in Hlt. unfold tsl_position. cbn [distance].
  assert (S : 0 < b * delta) by (apply Rmult_lt_0_compat; auto).
  rewrite Rmin_right by (rewrite !Rmult_assoc; apply Rmult_le_compat_r; lra).
  replace (distance truth / (INR ny * delta * b) * (INR nx * b * delta)) with (distance truth * (INR nx / INR ny)) by (field; repeat split; lra).
  rewrite <- (Rmult_1_r (distance truth)) at 2. apply Rmult_lt_compat_l; [exact Hin|].
  apply Rmult_lt_reg_r with (INR ny); [exact N|]. replace (INR nx / INR ny * INR ny) with (INR nx) by (field; lra). lra.
Qed.

(** Without a pixel size PCz is the distance itself, in the unit of the displacement. *)
Theorem C43_distance_without_pixel_size conv p : In p (pc_all (exact conv None)) -> pcz p = distance truth.
Proof using Hny Hnx Hdelta Hb Hdz Hin Hout.
  unfold pc_all. rewrite in_flat_map. intros ([f g] & Hfg & Hp). cbn [fst snd] in Hp.
  apply in_pairs in Hfg. destruct Hfg as [Hf Hg]. cbn [m_points exact] in Hf, Hg. apply in_map_iff in Hf, Hg.
  destruct Hf as (d & <- & _). destruct Hg as (e & <- & _).
  rewrite estimate_exact in Hp by (intros E; rewrite E in Hp; destruct Hp). destruct Hp as [<-|[]]. reflexivity.
Qed.

(** There are estimates exactly if the PC is in front of the detector and two features are not in line with it. *)
Theorem C43_when_there_are_estimates conv px :
  pc_all (exact conv px) <> []
  <-> inside /\ exists i j d e, (i < j)%nat /\ nth_error directions i = Some d /\ nth_error directions j = Some e /\ independent d e.
Proof using Hny Hnx Hdelta Hb Hdz Hin Hout.
  assert (Hs : 0 < delta * b) by (apply Rmult_lt_0_compat; auto).
  assert (W : within (exact conv px) (right_of_left_edge truth / (delta * b), below_top_edge truth / (delta * b)) = true <-> inside).
  { unfold within, inside. cbn [fst snd exact m_ncols m_nrows].
    assert (A : forall v, 0 < v / (delta * b) <-> 0 < v).
    { intros v. split; intros H.
      - replace v with (v / (delta * b) * (delta * b)) by (field; lra). apply Rmult_lt_0_compat; auto.
      - now apply Rdiv_lt_0_compat. }
    assert (B : forall v n, v / (delta * b) < n <-> v < n * (delta * b)).
    { intros v n. split; intros H.
      - replace v with (v / (delta * b) * (delta * b)) by (field; lra). now apply Rmult_lt_compat_r.
      - apply Rmult_lt_reg_r with (delta * b); [auto|]. replace (v / (delta * b) * (delta * b)) with v by (field; lra). auto. }
    rewrite <- (A (right_of_left_edge truth)), <- (A (below_top_edge truth)), <- (B (right_of_left_edge truth)), <- (B (below_top_edge truth)).
    repeat match goal with |- context [Rlt_dec ?u ?v] => destruct (Rlt_dec u v) end;
      split; intros; try discriminate; try tauto; reflexivity. }
  split.
  - intros H. destruct (pc_all (exact conv px)) as [|p l] eqn:E; [congruence|].
    assert (Hp : In p (pc_all (exact conv px))) by (rewrite E; simpl; auto). clear E H l.
    unfold pc_all in Hp. rewrite in_flat_map in Hp. destruct Hp as ([f g] & Hfg & Hp). cbn [fst snd] in Hp.
    apply in_pairs_nth in Hfg. destruct Hfg as (i & j & Hij & Hf & Hg). cbn [m_points exact] in Hf, Hg.
    rewrite nth_error_map in Hf, Hg.
    destruct (nth_error directions i) as [d|] eqn:Ed; [|discriminate]. destruct (nth_error directions j) as [e|] eqn:Ee; [|discriminate].
    cbn [option_map] in Hf, Hg. injection Hf as <-. injection Hg as <-.
    unfold estimate, seen_at, retracted in Hp. cbn [right_of_left_edge below_top_edge distance] in Hp.
    rewrite (intersection_views (right_of_left_edge truth) (below_top_edge truth) (distance truth) dz (delta * b)) in Hp by lra.
    destruct (Req_EM_T _ 0) as [|Hc]; [destruct Hp|]. destruct (within _ _) eqn:Ew; [|destruct Hp].
    split; [now apply W|]. exists i, j, d, e. unfold independent. auto.
  - intros (Hi & i & j & d & e & Hij & Hd & He & Hc) E.
    set (see := fun d => (seen_at (delta * b) truth d, seen_at (delta * b) (retracted dz truth) d)).
    assert (Hin' : In (see d, see e) (pairs (m_points (exact conv px)))).
    { apply (pairs_nth _ i j); auto; cbn [m_points exact]; rewrite nth_error_map; [rewrite Hd|rewrite He]; reflexivity. }
    assert (N : estimate (exact conv px) (see d) (see e) <> []).
    { unfold see, estimate, seen_at, retracted. cbn [right_of_left_edge below_top_edge distance].
      rewrite (intersection_views (right_of_left_edge truth) (below_top_edge truth) (distance truth) dz (delta * b)) by lra.
      destruct (Req_EM_T _ 0) as [H0|_]; [exfalso; now apply Hc|]. rewrite (proj2 W Hi). discriminate. }
    destruct (estimate (exact conv px) (see d) (see e)) as [|p l] eqn:Ee; [congruence|].
    assert (In p (pc_all (exact conv px))).
    { unfold pc_all. apply in_flat_map. exists (see d, see e). split; [exact Hin'|]. cbn [fst snd]. rewrite Ee. simpl. auto. }
    rewrite E in H. destruct H.
Qed.

(** Then the average is the true PC. *)
Theorem C43_average_exact : pc_all (exact BRUKER (Some delta)) <> [] ->
  exists p, pc (exact BRUKER (Some delta)) = Some p
    /\ bruker_position (INR ny) (INR nx) b delta (pcx p) (pcy p) (pcz p) = truth.
Proof using Hny Hnx Hdelta Hb Hdz Hin Hout.
  intros H. unfold pc. destruct (pc_all (exact BRUKER (Some delta))) as [|q l] eqn:E; [congruence|].
  exists (mean_pc (q :: l)). split; [reflexivity|].
  assert (All : forall p, In p (q :: l) -> bruker_position (INR ny) (INR nx) b delta (pcx p) (pcy p) (pcz p) = truth).
  { intros p Hp. apply C43_every_estimate_exact. rewrite E. exact Hp. }
  assert (INR ny <> 0) by (apply not_0_INR; lia). assert (INR nx <> 0) by (apply not_0_INR; lia).
  rewrite (mean_const _ q); [apply All; simpl; auto| |discriminate].
  intros p Hp. pose proof (All p Hp) as E1. pose proof (All q (or_introl eq_refl)) as E2. rewrite <- E2 in E1.
  unfold bruker_position in E1. injection E1 as X1 X2 X3.
  assert (W : INR nx * b * delta <> 0) by (repeat apply Rmult_integral_contrapositive_currified; lra).
  assert (W' : INR ny * b * delta <> 0) by (repeat apply Rmult_integral_contrapositive_currified; lra).
  apply Rmult_eq_reg_r in X1; [|exact W]. apply Rmult_eq_reg_r in X2; [|exact W']. apply Rmult_eq_reg_r in X3; [|exact W'].
  destruct p as [p1 p2 p3], q as [q1 q2 q3]. cbn [pcx pcy pcz] in *. congruence.
Qed.
End Calibration.

(** A 60 x 80 detector with two features that are not in line with the PC. *)
Example estimates_exist :
  pc_all (exact 60 80 70 8 5000 (Pos 20000 10000 17000) [(0, 1); (1, 1/2); (1/4, -1/3)] TSL (Some 70)) <> [].
Proof.
  assert (E1 : INR 60 = 60) by (rewrite INR_IZR_INZ; reflexivity).
  assert (E2 : INR 80 = 80) by (rewrite INR_IZR_INZ; reflexivity).
  apply C43_when_there_are_estimates; cbn [distance right_of_left_edge below_top_edge]; try lra; try lia.
  split; [rewrite E1, E2; lra|]. exists 0%nat, 1%nat, (0, 1), (1, 1/2).
  split; [lia|]. split; [reflexivity|]. split; [reflexivity|]. unfold independent. cbn [fst snd]. lra.
Qed.

Print Assumptions C43_every_estimate_exact.
Print Assumptions C43_average_exact.
