(** C89: what is drawn for a geometrical simulation. *)
From Coq Require Import Ascii String List Arith ZArith Reals Bool Lia Lra.
From Verif Require Import Model.Detector Model.Rotations Model.Simulation Model.KikuchiLines.
From Verif Require Import Spec.Euler Spec.DetectorGeometry Spec.KikuchiBands Spec.PatternLabels.
From Verif Require Import Proofs.DetectorProofs Proofs.KikuchiLinesProofs Proofs.SimulationMarkersProofs Props.KikuchiLines Props.ZoneAxes
  Model.SimulationMarkers.
Import ListNotations.
Local Open Scope R_scope.
Local Open Scope list_scope.

(** In the pattern with orientation q, the zone axis (in one of its two directions) meets the detector plane at (x, y). *)
Definition axis_at (base : mat) (d : detector) (q : quat) (u : index) (x y : R) : Prop :=
  direction_seen_at base d q (IZR (i1 u)) (IZR (i2 u)) (IZR (i3 u)) x y \/
  direction_seen_at base d q (IZR (- i1 u)) (IZR (- i2 u)) (IZR (- i3 u)) x y.

(** ** Proofs *)
Lemma uvw_d_opposite base d q u : let v := uvw_d base d q u in uvw_d base d q (opposite u) = Vec (- vx v) (- vy v) (- vz v).
Proof.
  cbv zeta. replace (opposite u) with (Index (-1 * i1 u) (-1 * i2 u) (-1 * i3 u)) by (unfold opposite; f_equal; lia).
  rewrite uvw_scale. cbv zeta. f_equal; ring.
Qed.
Lemma zone_axis_at base d q r u x y : unit_quaternion q -> zone_axis r (uvw_d base d q u) = Some (x, y) -> axis_at base d q u x y.
Proof.
  intros Hq H. apply zone_axis_some in H. destruct H as (Z & X & Y & _). unfold axis_at.
  destruct (Rlt_dec 0 (vz (uvw_d base d q u))) as [P|P].
  - left. apply direction_seen_iff; auto.
  - right. pose proof (direction_seen_iff base d q (opposite u) x y Hq) as I. cbn [opposite i1 i2 i3] in I.
    apply I. clear I. change (Index (- i1 u) (- i2 u) (- i3 u)) with (opposite u). rewrite uvw_d_opposite. cbn [vx vy vz].
    split; [lra|]. rewrite X, Y. split; field; exact Z.
Qed.
Lemma map_filter_kept {A B} (g : A -> option B) l : kept (map g l) = map g (filter (fun u => match g u with Some _ => true | None => false end) l).
Proof. unfold kept. induction l as [|a l IH]; cbn; [reflexivity|]. destruct (g a) eqn:E; cbn; rewrite ?E, IH; reflexivity. Qed.
Lemma boolean_index_map {A B C} (h : A -> C) (g : A -> option B) l :
  boolean_index (map h l) (map g l) = Some (map h (filter (fun u => match g u with Some _ => true | None => false end) l)).
Proof. induction l as [|a l IH]; cbn; [reflexivity|]. rewrite IH. destruct (g a); reflexivity. Qed.
Lemma exclude_kept {A} (l : list (option A)) : exclude_nan (kept l) = exclude_nan l.
Proof. unfold kept, exclude_nan. induction l as [|[a|] l IH]; cbn; [reflexivity| |]; now rewrite ?IH. Qed.
Lemma row_at {A} (l : list (list A)) i r : nth_error l i = Some r -> row l i = r.
Proof. intros H. unfold row. now apply nth_error_nth. Qed.
Lemma rotation_at nav pos i (rots : list quat) : pattern_at nav pos i -> length rots = number nav -> exists q, nth_error rots i = Some q.
Proof.
  intros P L. apply pattern_at_range in P. destruct (nth_error rots i) as [q|] eqn:E; [eauto|]. apply nth_error_None in E. unfold number in L. lia.
Qed.
Lemma one_position nav pos i : pattern_at nav pos i -> is_one nav = true -> i = 0%nat.
Proof.
  intros [n x Hx|rows columns x y Hx Hy]; cbn [is_one]; intros H.
  - destruct n as [|[|n]]; try discriminate. lia.
  - destruct rows as [|[|rows]]; discriminate.
Qed.
Lemma mean_of_one p : mean_pc [p] = p.
Proof. destruct p. unfold mean_pc, meanR, sumR. cbn. f_equal; field. Qed.

(** ** Markers *)

(** At each position of the map, the lines drawn on the pattern there are those of this pattern, and the zone axes too. *)
Theorem C89_lines_at_each_position reduce base refl d nav rots s pos i :
  on_detector reduce base refl d nav rots = Some s -> usable d -> length rots = number nav -> pattern_at nav pos i ->
  exists l, shown (lines_as_markers s nav) pos = Some l /\ lines_coordinates s i InPixels = Some (exclude_nan l).
Proof.
  intros Hs Hd Hl P. destruct (rotation_at _ _ _ _ P Hl) as (q & Hi). destruct (radius_exists d Hd) as (r & Hr).
  destruct (lines_at _ _ _ _ _ _ _ Hs Hd Hl r i q Hr Hi) as (p & _ & _ & _ & E). unfold lines_coordinates. rewrite E. cbn [option_map].
  unfold lines_as_markers. destruct (is_one nav) eqn:O.
  - rewrite (one_position _ _ _ P O) in E. eexists. split; [reflexivity|]. now rewrite (row_at _ _ _ E).
  - eexists. split; [exact (shown_objects _ _ _ _ P)|]. now rewrite (row_at _ _ _ E), exclude_kept.
Qed.
Theorem C89_zone_axes_at_each_position reduce base refl d nav rots s pos i :
  on_detector reduce base refl d nav rots = Some s -> usable d -> length rots = number nav -> pattern_at nav pos i ->
  exists l, shown (zone_axes_as_markers s nav) pos = Some l /\ zone_axes_coordinates s i InPixels = Some (exclude_nan l).
Proof.
  intros Hs Hd Hl P. destruct (rotation_at _ _ _ _ P Hl) as (q & Hi). destruct (radius_exists d Hd) as (r & Hr).
  destruct (zones_at _ _ _ _ _ _ _ Hs Hd Hl r i q Hr Hi) as (p & _ & _ & _ & _ & E). unfold zone_axes_coordinates. rewrite E. cbn [option_map].
  unfold zone_axes_as_markers. destruct (is_one nav) eqn:O.
  - rewrite (one_position _ _ _ P O) in E. eexists. split; [reflexivity|]. now rewrite (row_at _ _ _ E).
  - eexists. split; [exact (shown_objects _ _ _ _ P)|]. now rewrite (row_at _ _ _ E), exclude_kept.
Qed.

(** In maps of several patterns, nothing else is in the markers. *)
Theorem C89_only_visible_lines_in_maps reduce base refl d nav rots s pos i :
  on_detector reduce base refl d nav rots = Some s -> usable d -> length rots = number nav -> pattern_at nav pos i -> nav <> [1%nat] ->
  shown (lines_as_markers s nav) pos = option_map (map Some) (lines_coordinates s i InPixels) /\
  shown (zone_axes_as_markers s nav) pos = option_map (map Some) (zone_axes_coordinates s i InPixels).
Proof.
  intros Hs Hd Hl P N. destruct (rotation_at _ _ _ _ P Hl) as (q & Hi). destruct (radius_exists d Hd) as (r & Hr).
  destruct (lines_at _ _ _ _ _ _ _ Hs Hd Hl r i q Hr Hi) as (p & _ & _ & _ & E).
  destruct (zones_at _ _ _ _ _ _ _ Hs Hd Hl r i q Hr Hi) as (p' & _ & _ & _ & _ & E').
  unfold lines_coordinates, zone_axes_coordinates, lines_as_markers, zone_axes_as_markers. rewrite E, E'. cbn [option_map].
  assert (O : is_one nav = false) by (destruct nav as [|[|[|]] [|]]; try reflexivity; now contradiction N). rewrite O.
  split; (rewrite (shown_objects _ _ _ _ P); f_equal; rewrite kept_map; do 2 f_equal; now apply row_at).
Qed.

(** Labels are at the zone axes of the pattern at this position, and say which. *)
Theorem C89_labels_at_zone_axes reduce base refl d nav rots s pos i q p :
  on_detector reduce base refl d nav rots = Some s -> usable d -> length rots = number nav -> Forall unit_quaternion rots -> zones s <> [] ->
  pattern_at nav pos i -> nth_error rots i = Some q -> pc_of d i p ->
  exists m offsets texts, zone_axes_labels_as_markers s nav = Some m /\ shown (fst m) pos = Some offsets /\ shown (snd m) pos = Some texts /\
    length texts = length offsets /\ zone_axes_coordinates s i InPixels = Some (exclude_nan offsets) /\
    forall k c t, nth_error offsets k = Some (Some c) -> nth_error texts k = Some t ->
      exists u x y, In u (zones s) /\ t = label_of u /\ axis_at base d q u x y /\ c = pixel d p (x, y).
Proof.
  intros Hs Hd Hl Hq Hz P Hi Hp. destruct (radius_exists d Hd) as (r & Hr).
  destruct (zones_at _ _ _ _ _ _ _ Hs Hd Hl r i q Hr Hi) as (p' & Hp' & _ & _ & _ & E).
  assert (p' = p) by (unfold pc_of in *; congruence). subst p'.
  assert (Uq : unit_quaternion q) by (rewrite Forall_forall in Hq; apply Hq; now apply nth_error_In in Hi).
  set (g := fun u => zone_axis_pixels d p (zone_axis r (uvw_d base d q u))) in *.
  assert (G : forall u c, g u = Some c -> exists x y, axis_at base d q u x y /\ c = pixel d p (x, y)).
  { intros u c H. unfold g, zone_axis_pixels in H. destruct (zone_axis r (uvw_d base d q u)) as [[x y]|] eqn:Ez; [|discriminate].
    destruct (within_bounds d p (x, y)); [|discriminate]. injection H as <-. exists x, y. split; [|reflexivity]. now apply zone_axis_at with r. }
  assert (R : forall l k c t, nth_error (map g l) k = Some (Some c) -> nth_error (map label_of l) k = Some t -> 
    (forall u, In u l -> In u (zones s)) -> exists u x y, In u (zones s) /\ t = label_of u /\ axis_at base d q u x y /\ c = pixel d p (x, y)).
  { intros l k c t A B I. rewrite nth_error_map in A, B. destruct (nth_error l k) as [u|] eqn:Eu; [|discriminate]. cbn in A, B.
    injection A as A. injection B as <-. destruct (G u c A) as (x & y & H1 & H2). exists u, x, y. split; [apply I; now apply nth_error_In in Eu|auto]. }
  unfold zone_axes_labels_as_markers, zone_axes_coordinates. rewrite E. cbn [option_map]. rewrite labels_eq by exact Hz.
  destruct (is_one nav) eqn:O.
  - rewrite (one_position _ _ _ P O) in E. eexists _, _, _. split; [reflexivity|]. cbn [fst snd shown]. split; [reflexivity|]. split; [reflexivity|].
    rewrite (row_at _ _ _ E). split; [now rewrite !map_length|]. split; [reflexivity|]. intros k c t A B. apply (R _ k c t A B); auto.
  - destruct (all_some_map (fun j => boolean_index (map label_of (zones s)) (row (zones_pixel s) (place nav (rev j)))) (ndindex (rev nav))) as (texts & Et & Nt).
    { intros j Hj. (* all patterns have as many zone axes *)
      assert (Q : (place nav (rev j) < length rots)%nat).
      { rewrite Hl. clear - P Hj. destruct P as [n x Hx|rows columns x y Hx Hy]; cbn [rev app] in *.
        - rewrite ndindex_line in Hj. apply in_map_iff in Hj. destruct Hj as (k & <- & Hk). apply in_seq in Hk. cbn. lia.
        - change (ndindex [columns; rows]) with (flat_map (fun k => map (cons k) (ndindex [rows])) (seq 0 columns)) in Hj.
          apply in_flat_map in Hj. destruct Hj as (k & Hk & Hj). apply in_map_iff in Hj. destruct Hj as (m & <- & Hm). rewrite ndindex_line in Hm.
          apply in_map_iff in Hm. destruct Hm as (m' & <- & Hm'). apply in_seq in Hk, Hm'. cbn. nia. }
      destruct (nth_error rots (place nav (rev j))) as [q'|] eqn:Eq; [|apply nth_error_None in Eq; lia].
      destruct (zones_at _ _ _ _ _ _ _ Hs Hd Hl r _ q' Hr Eq) as (p'' & _ & _ & _ & _ & E'). rewrite (row_at _ _ _ E'), boolean_index_map. discriminate. }
    destruct (ndindex_at nav pos i P) as (N1 & N2). specialize (Nt _ _ N1). rewrite N2, (row_at _ _ _ E), boolean_index_map in Nt.
    rewrite Et. cbn [option_map]. eexists _, _, _. split; [reflexivity|]. cbn [fst snd]. split.
    { unfold zone_axes_as_markers. rewrite O. exact (shown_objects _ _ _ _ P). }
    split; [exact Nt|]. rewrite (row_at _ _ _ E). split; [now rewrite map_filter_kept, !map_length|]. split; [now rewrite exclude_kept|].
    intros k c t A B. rewrite map_filter_kept in A. apply (R _ k c t A B). intros u Hu. now apply filter_In in Hu.
Qed.

(** The PC of each pattern is marked where the lines have the origin of its gnomonic coordinates. *)
Theorem C89_pc_at_each_position reduce base refl d nav rots s pos i p :
  on_detector reduce base refl d nav rots = Some s -> usable d -> pattern_at nav pos i -> pc_of d i p ->
  shown (pc_as_markers d nav) pos = Some (pixel d p (0, 0)).
Proof.
  intros Hs Hd P Hp. assert (Hz : In p (pcs (d_pc d))) by (unfold pc_of in Hp; now apply nth_error_In in Hp).
  destruct Hd as (Hv & F & L & Hne). rewrite Forall_forall in F. rewrite <- (C65_pc_marker d p Hv (F p Hz)).
  unfold pc_as_markers. destruct (list_eq_dec Nat.eq_dec (nav_shape (d_pc d)) nav) as [E|E]; cbn [andb].
  - destruct (is_one nav) eqn:O; cbn [negb].
    + assert (N1 : nav = [1%nat]) by (destruct nav as [|[|[|]] [|]]; try discriminate; reflexivity). 
      rewrite E, N1 in L. cbn in L. unfold pc_of in Hp. destruct (pcs (d_pc d)) as [|p0 [|]] eqn:Ep; try discriminate. cbn in Hp. injection Hp as ->.
      now rewrite mean_of_one.
    + rewrite (shown_objects _ _ _ _ P). do 2 f_equal. apply nth_error_nth. unfold pc_of in Hp.
      destruct (Nat.eqb_spec (length (pcs (d_pc d))) 1) as [L1|]; [|exact Hp]. apply pattern_at_range in P.
      change (fold_right Nat.mul 1%nat nav) with (number nav) in P. rewrite <- E, <- L in P. now replace i with 0%nat by lia.
  - destruct (on_detector_inv _ _ _ _ _ _ _ Hs) as [E'|E']; [|contradiction]. rewrite E' in L. cbn in L.
    unfold pc_of in Hp. destruct (pcs (d_pc d)) as [|p0 [|]] eqn:Ep; try discriminate. cbn in Hp. injection Hp as ->. now rewrite mean_of_one.
Qed.

(** Labels of zone axes with indices of one digit are different. *)
Theorem C89_labels_tell_zone_axes_apart u v :
  (forall z, In z [i1 u; i2 u; i3 u; i1 v; i2 v; i3 v] -> (-9 <= z <= 9)%Z) -> label_of u = label_of v -> u = v.
Proof.
  intros H E. destruct u as [a b c], v as [a' b' c']. cbn [i1 i2 i3] in *. unfold label_of in E. cbn [i1 i2 i3] in E.
  apply first_digit in E; [|apply H; cbn; tauto..]. destruct E as [-> E].
  apply first_digit in E; [|apply H; cbn; tauto..]. destruct E as [-> E].
  rewrite <- (append_nil_r (decimal c)), <- (append_nil_r (decimal c')) in E. apply first_digit in E; [|apply H; cbn; tauto..]. now destruct E as [-> _].
Qed.
Theorem C89_labels_of_large_indices_refuted : exists u v, u <> v /\ label_of u = label_of v.
Proof. exists (Index 1 11 1), (Index 11 1 1). split; [discriminate|reflexivity]. Qed.

(** ** Collections and plots *)

Definition drawn_point (d : detector) (p : pc3) (c : coordinates) (x y : R) : point :=
  match c with Gnomonic => (x, y) | InPixels => pixel d p (x, y) end.

Lemma labels_list_spec {A} (g : A -> option point) (h : A -> string) off l :
  flat_map (fun ct : option point * string => match fst ct with Some (x, y) => [((x, y + off)%R, snd ct)] | None => [] end) (combine (map g l) (map h l)) =
  flat_map (fun u => match g u with Some (x, y) => [((x, y + off)%R, h u)] | None => [] end) l.
Proof. induction l as [|a l IH]; cbn; [reflexivity|]. now rewrite IH. Qed.

Lemma labels_pair (g : index -> option point) (P : index -> point -> Prop) off all l :
  (forall u z, g u = Some z -> P u z) -> (forall u, In u l -> In u all) ->
  Forall2 (fun z t => fst t = (fst z, snd z + off) /\ exists u, In u all /\ snd t = label_of u /\ P u z) (exclude_nan (map g l))
    (flat_map (fun u => match g u with Some (x, y) => [((x, y + off)%R, label_of u)] | None => [] end) l).
Proof.
  intros H. induction l as [|u l IH]; intros I; [constructor|]. specialize (IH (fun u H => I u (or_intror H))). unfold exclude_nan in *. cbn [map flat_map].
  destruct (g u) as [[x y]|] eqn:E; [|exact IH]. cbn [app]. constructor; [|exact IH]. cbn [fst snd]. split; [reflexivity|]. exists u.
  split; [apply I; now left|]. auto.
Qed.

(** Lines, zone axes and labels drawn for pattern i. A label is above its zone axis by 3% of the height of the detector (pixels count
    downwards, gnomonic coordinates upwards). *)
Theorem C89_collections reduce base refl d nav rots s i q p c :
  on_detector reduce base refl d nav rots = Some s -> usable d -> length rots = number nav -> Forall unit_quaternion rots -> zones s <> [] ->
  nth_error rots i = Some q -> pc_of d i p ->
  exists ls zs ts, as_collections s d i c true true true = Some [LineCollection ls; Circles zs; Texts ts] /\
    lines_coordinates s i c = Some ls /\ zone_axes_coordinates s i c = Some zs /\
    Forall2 (fun z t => fst t = (fst z, snd z + match c with InPixels => - (3/100 * nrows d) | Gnomonic => 3/100 * (1 / pcz p) end) /\
      exists u, In u (zones s) /\ snd t = label_of u /\ exists x y, axis_at base d q u x y /\ z = drawn_point d p c x y) zs ts.
Proof.
  intros Hs Hd Hl Hq Hz Hi Hp. destruct (radius_exists d Hd) as (r & Hr).
  destruct (lines_at _ _ _ _ _ _ _ Hs Hd Hl r i q Hr Hi) as (p0 & _ & _ & E1 & E2).
  destruct (zones_at _ _ _ _ _ _ _ Hs Hd Hl r i q Hr Hi) as (p' & Hp' & _ & _ & E3 & E4).
  assert (p' = p) by (unfold pc_of in *; congruence). subst p'. clear Hp'.
  assert (Uq : unit_quaternion q) by (rewrite Forall_forall in Hq; apply Hq; now apply nth_error_In in Hi).
  assert (Off : label_offset d i c = match c with InPixels => - (3/100 * nrows d) | Gnomonic => 3/100 * (1 / pcz p) end).
  { destruct c; cbn [label_offset]; [reflexivity|]. destruct Hd as (Hv & F & L & Hne). rewrite Forall_forall in F.
    assert (N : nth (if is_one (nav_shape (d_pc d)) then 0%nat else i) (pcs (d_pc d)) (PC 0 0 0) = p).
    { unfold pc_of in Hp. destruct (is_one (nav_shape (d_pc d))) eqn:O.
      - assert (E : nav_shape (d_pc d) = [1%nat]) by (destruct (nav_shape (d_pc d)) as [|[|[|]] [|]]; try discriminate; reflexivity).
        rewrite E in L. cbn in L. rewrite L in Hp. now apply nth_error_nth.
      - destruct (on_detector_inv _ _ _ _ _ _ _ Hs) as [E'|E']; [rewrite E' in O; discriminate|].
        destruct (Nat.eqb_spec (length (pcs (d_pc d))) 1) as [L1|]; [|now apply nth_error_nth].
        assert (i < length rots)%nat by (apply nth_error_Some; congruence). rewrite Hl, <- E', <- L in H. replace i with 0%nat by lia. now apply nth_error_nth. }
    rewrite N. assert (Pz : 0 < pcz p) by (apply F; now apply nth_error_In in Hp).
    destruct (KikuchiLinesProofs.spans d p Hv Pz) as [_ ->]. unfold Rdiv. ring. }
  unfold as_collections, lines_coordinates, zone_axes_coordinates, labels_as_list. rewrite labels_eq by exact Hz. rewrite Off. clear Off.
  destruct c; rewrite ?E1, ?E2, ?E3, ?E4; cbn [option_map app]; (eexists _, _, _; split; [reflexivity|]; split; [reflexivity|]; split; [reflexivity|]);
    rewrite labels_list_spec; (apply labels_pair; [|auto]).
  - intros u z H. unfold zone_axis_pixels in H. destruct (zone_axis r (uvw_d base d q u)) as [[x y]|] eqn:Ez; [|discriminate].
    destruct (within_bounds d p (x, y)); [|discriminate]. injection H as <-. exists x, y. split; [now apply zone_axis_at with r|reflexivity].
  - intros u [x y] H. exists x, y. split; [now apply zone_axis_at with r|reflexivity].
Qed.

(** plot() draws this, and the detector, unless labels are asked for and there is no zone axis in the pattern. *)
Theorem C89_plot_fails_iff reduce base refl d nav rots s i q c lines zone_axes text pc :
  on_detector reduce base refl d nav rots = Some s -> usable d -> length rots = number nav -> zones s <> [] -> nth_error rots i = Some q ->
  plot s d i c lines zone_axes text pc = None <-> text = true /\ zone_axes_coordinates s i c = Some [].
Proof.
  intros Hs Hd Hl Hz Hi. destruct (radius_exists d Hd) as (r & Hr).
  destruct (lines_at _ _ _ _ _ _ _ Hs Hd Hl r i q Hr Hi) as (p0 & _ & _ & E1 & E2).
  destruct (zones_at _ _ _ _ _ _ _ Hs Hd Hl r i q Hr Hi) as (p & _ & _ & _ & E3 & E4).
  unfold plot, as_collections, lines_coordinates, zone_axes_coordinates, labels_as_list. rewrite labels_eq by exact Hz.
  assert (G : forall (g : index -> option point) off l,
    match flat_map (fun u => match g u with Some (x, y) => [((x, y + off)%R, label_of u)] | None => [] end) l with [] => true | _ => false end = true <->
    exclude_nan (map g l) = []).
  { intros g off l. induction l as [|u l IH]; [tauto|]. cbn [flat_map map exclude_nan]. unfold exclude_nan in *. cbn [flat_map].
    destruct (g u) as [[x y]|]; cbn [app]; [split; discriminate|exact IH]. }
  destruct c; rewrite ?E1, ?E2, ?E3, ?E4; cbn [option_map].
  - specialize (G (fun u => zone_axis_pixels d p (zone_axis r (uvw_d base d q u))) (label_offset d i InPixels) (zones s)). rewrite <- labels_list_spec in G.
    destruct lines, zone_axes, text; cbn [app existsb is_empty_list orb]; 
      try (split; [discriminate|intros [? _]; discriminate]);
      destruct (flat_map _ _); cbn [existsb is_empty_list orb]; (split; [intros H; split; [reflexivity|]; f_equal; apply G; reflexivity || discriminate H|]);
      intros [_ H]; try reflexivity; injection H as H; apply G in H; discriminate.
  - specialize (G (fun u => zone_axis r (uvw_d base d q u)) (label_offset d i Gnomonic) (zones s)). rewrite <- labels_list_spec in G.
    destruct lines, zone_axes, text; cbn [app existsb is_empty_list orb]; 
      try (split; [discriminate|intros [? _]; discriminate]);
      destruct (flat_map _ _); cbn [existsb is_empty_list orb]; (split; [intros H; split; [reflexivity|]; f_equal; apply G; reflexivity || discriminate H|]);
      intros [_ H]; try reflexivity; injection H as H; apply G in H; discriminate.
Qed.

(** ** Plots *)
Lemma plot_figure s d i c lines zone_axes text pc f : plot s d i c lines zone_axes text pc = Some f ->
  f_pc f = (if pc then Some (fst (detector_plot d c)) else None) /\ f_extent f = snd (detector_plot d c) /\
  as_collections s d i c lines zone_axes text = Some (f_drawn f).
Proof.
  unfold plot. destruct (as_collections _ _ _ _ _ _ _) as [l|]; [|discriminate]. destruct (existsb _ _); [discriminate|]. intros H. injection H as <-. auto.
Qed.
Lemma meanR_one x : meanR [x] = x.
Proof. unfold meanR, sumR. cbn. field. Qed.

Lemma detector_plot_points d p c : valid d -> pcs (d_pc d) = [p] -> 0 < pcz p ->
  fst (detector_plot d c) = drawn_point d p c 0 0 /\
  forall right below, drawn_at (snd (detector_plot d c)) right below =
    drawn_point d p c (gnomonic_x (source d p) (right * width d)) (gnomonic_y (source d p) (below * height d)).
Proof.
  intros Hv Hp Hz.
  destruct (valid_pos d Hv) as [Hr Hc]. assert (P1 : 0 < d_px_size d) by apply Hv. assert (P2 : 0 < d_binning d) by apply Hv.
  assert (Wx : (d_nx d =? 1)%Z = true /\ ncols d = 1 \/ (d_nx d =? 1)%Z = false /\ 1 < ncols d).
  { unfold ncols in *. destruct (Z.eqb_spec (d_nx d) 1) as [->|N]; [auto|]. right. split; [reflexivity|]. apply le_IZR in Hc. apply (IZR_lt 1). lia. }
  assert (Wy : (d_ny d =? 1)%Z = true /\ nrows d = 1 \/ (d_ny d =? 1)%Z = false /\ 1 < nrows d).
  { unfold nrows in *. destruct (Z.eqb_spec (d_ny d) 1) as [->|N]; [auto|]. right. split; [reflexivity|]. apply le_IZR in Hr. apply (IZR_lt 1). lia. }
  unfold detector_plot. rewrite Hp, mean_of_one. cbn [map]. rewrite !meanR_one.
  assert (Lx : Rmax (ncols d - 1) 1 * x_scale d p = ncols d / nrows d / pcz p).
  { unfold x_scale, x_max, x_min, aspect_ratio. destruct Wx as [[-> E]|[-> E]].
    - rewrite E, Rmax_right by lra. field. lra.
    - destruct (Rle_dec 1 (ncols d - 1)) as [G|G].
      + rewrite Rmax_left by lra. field. lra.
      + exfalso. apply G. unfold ncols in *. apply lt_IZR in E. rewrite <- minus_IZR. apply IZR_le. lia. }
  assert (Ly : Rmax (nrows d - 1) 1 * y_scale d p = / pcz p).
  { unfold y_scale, y_max, y_min. destruct Wy as [[-> E]|[-> E]].
    - rewrite E, Rmax_right by lra. field. lra.
    - destruct (Rle_dec 1 (nrows d - 1)) as [G|G].
      + rewrite Rmax_left by lra. field. lra.
      + exfalso. apply G. unfold nrows in *. apply lt_IZR in E. rewrite <- minus_IZR. apply IZR_le. lia. }
  destruct (x_scale_pos d p Hv Hz) as [Sx Sy].
  assert (Wx' : Rmax (ncols d - 1) 1 = ncols d / nrows d / pcz p / x_scale d p) by (rewrite <- Lx; field; lra).
  assert (Wy' : Rmax (nrows d - 1) 1 = / pcz p / y_scale d p) by (rewrite <- Ly; field; lra).
  destruct c; cbn [fst snd]; rewrite ?Wx', ?Wy'; clear Wx Wy Lx Ly Wx' Wy'; (split; [cbn [drawn_point]; unfold pixel, aspect_ratio; cbn [fst snd]|]).
  - f_equal; field; lra.
  - intros a b. cbn [drawn_at drawn_point]. unfold pixel, gnomonic_x, gnomonic_y, source, bruker_position, width, height, aspect_ratio. cbn [fst snd right_of_left_edge below_top_edge distance].
    f_equal; field; repeat split; lra.
  - reflexivity.
  - intros a b. cbn [drawn_at drawn_point]. unfold x_min, x_max, y_min, y_max, gnomonic_x, gnomonic_y, source, bruker_position, width, height, aspect_ratio. cbn [right_of_left_edge below_top_edge distance].
    f_equal; field; repeat split; lra.
Qed.

(** With one PC, in a figure the PC is at the origin of the gnomonic coordinates of the lines, and the pattern is drawn so that lines are
    on what they cross: the point of the pattern at these fractions of its width from the left and of its height from the top is where lines
    have its coordinates. *)
Theorem C89_pattern_below_its_lines s d p i c lines zone_axes text pc f :
  valid d -> pcs (d_pc d) = [p] -> 0 < pcz p -> plot s d i c lines zone_axes text pc = Some f ->
  f_pc f = (if pc then Some (drawn_point d p c 0 0) else None) /\
  forall right below, drawn_at (f_extent f) right below =
    drawn_point d p c (gnomonic_x (source d p) (right * width d)) (gnomonic_y (source d p) (below * height d)).
Proof.
  intros Hv Hp Hz H. apply plot_figure in H. destruct H as (-> & -> & _).
  destruct (detector_plot_points d p c Hv Hp Hz) as [-> E]. split; [reflexivity|exact E].
Qed.

(** With several PCs, the PC and the pattern are drawn for the average PC: the figure of pattern 0 here has another PC than pattern 0. *)
Definition two_pcs : detector := Det 60 60 1 1 0 0 0 0 (PCArray [2%nat] [PC (1/4) (1/2) (1/2); PC (3/4) (1/2) (1/2)]).
Theorem C89_plot_with_several_pcs_refuted : exists s f g,
  on_detector (fun u => u) cube pair two_pcs [2%nat] [no_rotation; no_rotation] = Some s /\ usable two_pcs /\
  pc_of two_pcs 0 (PC (1/4) (1/2) (1/2)) /\
  plot s two_pcs 0 InPixels true false false true = Some f /\ f_pc f <> Some (pixel two_pcs (PC (1/4) (1/2) (1/2)) (0, 0)) /\
  plot s two_pcs 0 Gnomonic true false false true = Some g /\
  drawn_at (f_extent g) 0 0 <> (gnomonic_x (source two_pcs (PC (1/4) (1/2) (1/2))) 0, gnomonic_y (source two_pcs (PC (1/4) (1/2) (1/2))) 0).
Proof.
  destruct (on_detector (fun u => u) cube pair two_pcs [2%nat] [no_rotation; no_rotation]) as [s|] eqn:E.
  2:{ apply C65_refused_shapes in E. destruct E as [_ E]. now contradiction E. }
  assert (U : usable two_pcs).
  { split; [repeat split; cbn; lia || lra|]. split; [repeat constructor; cbn; lra|]. split; [reflexivity|discriminate]. }
  destruct (radius_exists _ U) as (r & Hr).
  destruct (lines_at _ _ _ _ _ _ _ E U eq_refl r 0%nat no_rotation Hr eq_refl) as (p & _ & _ & E1 & E2).
  eexists s, _, _. split; [exact E || reflexivity|]. split; [exact U|]. split; [reflexivity|].
  unfold plot, as_collections, lines_coordinates. rewrite E1, E2. cbn [option_map app existsb is_empty_list orb].
  split; [reflexivity|]. cbn [f_pc f_extent]. split; [|split; [reflexivity|]].
  - intros H. apply some_inj in H. apply (f_equal fst) in H.
    replace (fst (fst (detector_plot two_pcs InPixels))) with (59/2) in H.
    2:{ unfold detector_plot, mean_pc, meanR, sumR, two_pcs, ncols. cbn. rewrite Rmax_left by lra. field. }
    replace (fst (pixel two_pcs (PC (1/4) (1/2) (1/2)) (0, 0))) with (59/4) in H.
    2:{ unfold two_pcs, pixel, aspect_ratio, x_scale, x_max, x_min, aspect_ratio, ncols, nrows. cbn. field. }
    lra.
  - intros H. apply (f_equal fst) in H. cbn [f_extent] in H.
    replace (fst (drawn_at (snd (detector_plot two_pcs Gnomonic)) 0 0)) with (-1) in H.
    2:{ unfold drawn_at, detector_plot, meanR, sumR, two_pcs, x_max, x_min, aspect_ratio, ncols, nrows. cbn. field. }
    cbn [fst] in H. replace (gnomonic_x (source two_pcs (PC (1/4) (1/2) (1/2))) 0) with (-1/2) in H.
    2:{ unfold gnomonic_x, source, bruker_position, two_pcs, ncols, nrows. cbn. field. }
    lra.
Qed.

(** Asking for labels where a pattern of a map has no zone axes fails: so does the default of plot() in maps. *)
Theorem C89_plot_without_zone_axes_refuted : exists refl d rots s,
  on_detector (fun u => u) cube refl d [2%nat] rots = Some s /\ usable d /\ length rots = 2%nat /\ Forall unit_quaternion rots /\ zones s <> [] /\
  plot s d 0 InPixels true true true true <> None /\ plot s d 1 InPixels true true true true = None.
Proof.
  destruct (on_detector (fun u => u) cube pair (straight centre) [2%nat] [no_rotation; turned]) as [s|] eqn:E.
  2:{ apply C65_refused_shapes in E. destruct E as [E _]. now contradiction E. }
  assert (U : usable (straight centre)) by (apply straight_usable; unfold centre; cbn; lra).
  assert (Rp : 0 < r_max (straight centre) centre) by (apply r_max_pos; [apply U|unfold centre; cbn; lra]).
  assert (Z : In (Index 4 (-2) 0) (zones s)).
  { apply (zones_in _ _ _ _ _ _ _ E).
    assert (Vis : forall g, In g pair -> In g (visible s)).
    { intros g Hg. apply (visible_in _ _ _ _ _ _ _ E). split; [exact Hg|]. exists no_rotation. split; [simpl; auto|]. rewrite straight_hkl. cbn [vz].
      destruct Hg as [<-|[<-|[]]]; cbn [i1]; lra. }
    split.
    - apply in_map_iff. exists (Index 4 (-2) 0). split; [reflexivity|]. apply cross_products_in. split; [discriminate|].
      exists (Index 1 2 (-1)), (Index 1 2 1). split; [apply Vis; simpl; auto|]. split; [apply Vis; simpl; auto|reflexivity].
    - split; [exists no_rotation; split; [simpl; auto|]; rewrite straight_uvw; cbn [vz i1]; lra|].
      exists no_rotation, centre. split; [simpl; auto|]. rewrite straight_uvw. cbn [vz i1 i2 i3]. split; [lra|].
      unfold direction_xy. cbn [vx vy vz]. apply within_near; [reflexivity..|]. unfold near_surface. destruct centre_bounds as (-> & -> & -> & ->).
      unfold nrows, ncols, straight. cbn [d_nx d_ny]. lra. }
  assert (Only : forall u, In u (zones s) -> u = Index 4 (-2) 0 \/ u = Index (-4) 2 0).
  { intros u H. apply (zones_in _ _ _ _ _ _ _ E) in H. destruct H as [H _]. apply in_map_iff in H. destruct H as (u' & <- & H).
    apply cross_products_in in H. destruct H as (N & a & b & Ha & Hb & ->). apply (visible_in _ _ _ _ _ _ _ E) in Ha, Hb. destruct Ha as [Ha _], Hb as [Hb _].
    clear - Ha Hb N. destruct Ha as [<-|[<-|[]]], Hb as [<-|[<-|[]]]; try (left; reflexivity); try (right; reflexivity); now contradiction N. }
  assert (Nz : zones s <> []) by (intros N; rewrite N in Z; destruct Z).
  exists pair, (straight centre), [no_rotation; turned], s. split; [exact E || reflexivity|]. split; [exact U|]. split; [reflexivity|]. split; [exact turned_unit|]. split; [exact Nz|]. split.
  - intros H. apply (C89_plot_fails_iff _ _ _ _ _ _ _ 0%nat no_rotation _ _ _ _ _ E U eq_refl Nz eq_refl) in H. destruct H as [_ H].
    destruct (zones_at _ _ _ _ _ _ _ E U eq_refl _ 0%nat no_rotation (straight_radius centre) eq_refl) as (p & Hp & _ & _ & _ & E1).
    unfold pc_of in Hp. cbn in Hp. apply some_inj in Hp. subst p. unfold zone_axes_coordinates in H. rewrite E1 in H. cbn [option_map] in H. apply some_inj in H.
    assert (I : In (pixel (straight centre) centre (-1/2, 0)) (exclude_nan (map (fun u => zone_axis_pixels (straight centre) centre (zone_axis (r_max (straight centre) centre) (uvw_d cube (straight centre) no_rotation u))) (zones s)))).
    { apply exclude_nan_in, in_map_iff. exists (Index 4 (-2) 0). split; [|exact Z]. rewrite straight_uvw. cbn [i1 i2 i3].
      assert (Ez : zone_axis (r_max (straight centre) centre) (Vec (-2) 0 4) = Some (-1/2, 0)).
      { unfold zone_axis. cbn [vx vy vz]. destruct (Req_EM_T 4 0); [lra|]. replace (-2/4) with (-1/2) by field. replace (0/4) with 0 by field.
        rewrite (proj2 (rltb_spec _ _)); [rewrite (proj2 (rltb_spec _ _)) by lra; reflexivity|].
        replace ((-1/2) ^ 2 + 0 ^ 2) with ((-1/2) * (-1/2) + 0 * 0) by ring. apply in_circle; [exact Rp|]. rewrite centre_radius. lra. }
      rewrite Ez. unfold zone_axis_pixels. rewrite (proj2 (within_near (straight centre) centre (-1/2) 0 eq_refl eq_refl)); [reflexivity|].
      unfold near_surface. destruct centre_bounds as (-> & -> & -> & ->). unfold nrows, ncols, straight. cbn [d_nx d_ny]. lra. }
    rewrite H in I. destruct I.
  - apply (C89_plot_fails_iff _ _ _ _ _ _ _ 1%nat turned _ _ _ _ _ E U eq_refl Nz eq_refl). split; [reflexivity|].
    destruct (zones_at _ _ _ _ _ _ _ E U eq_refl _ 1%nat turned (straight_radius centre) eq_refl) as (p & Hp & _ & _ & _ & E1).
    unfold pc_of in Hp. cbn in Hp. apply some_inj in Hp. subst p. unfold zone_axes_coordinates. rewrite E1. cbn [option_map]. f_equal.
    assert (G : forall l, (forall u, In u l -> u = Index 4 (-2) 0 \/ u = Index (-4) 2 0) ->
      exclude_nan (map (fun u => zone_axis_pixels (straight centre) centre (zone_axis (r_max (straight centre) centre) (uvw_d cube (straight centre) turned u))) l) = []).
    { induction l as [|u l IH]; intros H; [reflexivity|]. cbn [map]. unfold exclude_nan in *. cbn [flat_map]. rewrite IH by (intros; apply H; now right).
      assert (None = zone_axis_pixels (straight centre) centre (zone_axis (r_max (straight centre) centre) (uvw_d cube (straight centre) turned u))) as <-; [|reflexivity].
      destruct (H u (or_introl eq_refl)) as [->| ->].
      - rewrite turned_uvw. destruct (zone_axis _ _) as [[x y]|] eqn:Ez; [|reflexivity]. apply zone_axis_some in Ez. destruct Ez as (_ & X & Y & _). cbn [vx vy vz] in X, Y.
        cbn [zone_axis_pixels]. destruct (within_bounds _ _ _) eqn:W; [|reflexivity]. exfalso. apply within_near in W; [|reflexivity..].
        unfold near_surface in W. destruct centre_bounds as (B1 & B2 & B3 & B4). rewrite B1, B2, B3, B4 in W. unfold nrows, ncols, straight in W. cbn [d_nx d_ny] in W. destruct W as [W _]. lra.
      - change (Index (-4) 2 0) with (opposite (Index 4 (-2) 0)). rewrite uvw_d_opposite, turned_uvw. cbn [vx vy vz].
        destruct (zone_axis _ _) as [[x y]|] eqn:Ez; [|reflexivity]. apply zone_axis_some in Ez. destruct Ez as (_ & _ & _ & _ & Z'). cbn [vz] in Z'. lra. }
    apply G, Only.
Qed.

(** The hypotheses of the theorems hold in the map of the last theorem: see there; and in a map of two by three. *)
Example positions_example : pattern_at [2; 3]%nat [2; 1]%nat 5 /\ pattern_at [2]%nat [1]%nat 1 /\ pattern_at [1]%nat [0]%nat 0.
Proof. split; [apply (In_map 2 3 2 1); lia|]. split; apply On_line; lia. Qed.
Example labels_example : label_of (Index 1 (-1) 0) = "1-10"%string /\ label_of (Index 0 1 2) = "012"%string.
Proof. split; reflexivity. Qed.

Print Assumptions C89_labels_at_zone_axes.
Print Assumptions C89_collections.
Print Assumptions C89_plot_without_zone_axes_refuted.
