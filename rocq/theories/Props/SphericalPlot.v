(** Master patterns on a sphere: property C100. *)
From Coq Require Import String List Arith Reals Bool Lra Lia Permutation.
From Verif Require Import Model.Detector Model.MasterPattern Model.SphericalPlot Spec.Euler Spec.KikuchiBandIntensity Spec.SphericalPlotSpec.
From Verif Require Model.KinematicalMaster Props.KinematicalMaster.
Import ListNotations.
Local Open Scope R_scope.

(** ** Directions of pixels *)
Definition pole (side : half) : R := match side with Above => -1 | Below => 1 end.
Lemma xy2vector_direction side n row col : (2 <= n)%nat ->
  direction side n row col (KinematicalMaster.xy2vector (pole side) (linspace n col, linspace n row)).
Proof.
  intros Hn. assert (N : 1 <= INR (n - 1)) by (change 1 with (INR 1); apply le_INR; lia).
  unfold direction. cbv zeta.
  assert (L : forall k, linspace n k = 2 * INR k / INR (n - 1) - 1) by (intros k; unfold linspace; field; lra).
  rewrite !L. set (x := 2 * INR col / _ - 1). set (y := 2 * INR row / _ - 1). clearbody x y.
  assert (D : 1 + x * x + y * y > 0) by nra.
  unfold KinematicalMaster.xy2vector, from_south, from_north, dot3. cbn [vx vy vz].
  assert (P : 0 < 2 / (1 + x * x + y * y)) by (apply Rdiv_lt_0_compat; lra).
  destruct side; cbn [pole].
  - assert (E : 1 + - -1 * (1 - x * x - y * y) / (1 + x * x + y * y) = 2 / (1 + x * x + y * y)) by (field; lra).
    split; [field; lra|]. split; [lra|]. rewrite E. f_equal; field; lra.
  - assert (E : 1 - - (1) * (1 - x * x - y * y) / (1 + x * x + y * y) = 2 / (1 + x * x + y * y)) by (field; lra).
    split; [field; lra|]. split; [lra|]. rewrite E. f_equal; field; lra.
Qed.
Lemma direction_unique side n row col u v : direction side n row col u -> direction side n row col v -> u = v.
Proof.
  unfold direction. cbv zeta. intros [Hu Su] [Hv Sv].
  set (xy := (_, _)) in *. clearbody xy.
  destruct u as [a b c], v as [x y z]. unfold dot3, from_south, from_north in *. cbn [vx vy vz] in *.
  assert (G : forall t, t * t = 1 -> t * c <> -1 -> t * z <> -1 ->
    a / (1 + t * c) = x / (1 + t * z) -> b / (1 + t * c) = y / (1 + t * z) -> a = x /\ b = y /\ c = z).
  { clear - Hu Hv. intros t Ht Nc Nz E1 E2.
    assert (Dc : 1 + t * c <> 0) by lra. assert (Dz : 1 + t * z <> 0) by lra.
    set (p := x / (1 + t * z)) in *. set (q := y / (1 + t * z)) in *.
    assert (Ea : a = p * (1 + t * c)) by (rewrite <- E1; field; auto).
    assert (Eb : b = q * (1 + t * c)) by (rewrite <- E2; field; auto).
    assert (Ex : x = p * (1 + t * z)) by (unfold p; field; auto).
    assert (Ey : y = q * (1 + t * z)) by (unfold q; field; auto).
    assert (Ec : c = t * (t * c)) by (replace (t * (t * c)) with ((t * t) * c) by ring; rewrite Ht; ring).
    assert (Ez : z = t * (t * z)) by (replace (t * (t * z)) with ((t * t) * z) by ring; rewrite Ht; ring).
    assert (Q1 : (p * p + q * q) * (1 + t * c) = 1 - t * c).
    { apply (Rmult_eq_reg_r (1 + t * c)); auto.
      replace ((1 - t * c) * (1 + t * c)) with (1 - (t * t) * (c * c)) by ring. rewrite Ht.
      replace ((p * p + q * q) * (1 + t * c) * (1 + t * c)) with (a * a + b * b) by (rewrite Ea, Eb; ring). lra. }
    assert (Q2 : (p * p + q * q) * (1 + t * z) = 1 - t * z).
    { apply (Rmult_eq_reg_r (1 + t * z)); auto.
      replace ((1 - t * z) * (1 + t * z)) with (1 - (t * t) * (z * z)) by ring. rewrite Ht.
      replace ((p * p + q * q) * (1 + t * z) * (1 + t * z)) with (x * x + y * y) by (rewrite Ex, Ey at 1; rewrite Ex, Ey; ring). lra. }
    assert (S : 0 <= p * p + q * q) by nra.
    assert (T : t * c = t * z).
    { apply (Rmult_eq_reg_l (1 + (p * p + q * q))); [|lra]. lra. }
    rewrite Ea, Eb, Ec, Ex, Ey, Ez, T. auto. }
  destruct side.
  - destruct Su as [Nu Su], Sv as [Nv Sv]. rewrite <- Sv in Su. injection Su as E1 E2.
    destruct (G 1) as (-> & -> & ->); try lra; auto; rewrite !Rmult_1_l; auto.
  - destruct Su as [Nu Su], Sv as [Nv Sv]. rewrite <- Sv in Su. injection Su as E1 E2.
    destruct (G (-1)) as (-> & -> & ->); try lra; auto.
    + replace (1 + -1 * c) with (1 - c) by ring. replace (1 + -1 * z) with (1 - z) by ring. auto.
    + replace (1 + -1 * c) with (1 - c) by ring. replace (1 + -1 * z) with (1 - z) by ring. auto.
Qed.
Lemma in_keep n upper row col : In (row, col) (keep n upper) <-> (row < n)%nat /\ (col < n)%nat /\ upper row col <> 0.
Proof.
  unfold keep, places. rewrite filter_In, in_prod_iff, !in_seq. cbn [fst snd].
  destruct (Req_EM_T (upper row col) 0); split; intros H; try tauto; try (destruct H; discriminate); split; try tauto; lia.
Qed.
Lemma combine_app {A B} (a a' : list A) : forall (b b' : list B), length a = length b -> combine (a ++ a') (b ++ b') = combine a b ++ combine a' b'.
Proof. induction a as [|x a IH]; intros [|y b] b' H; try discriminate; simpl; auto. rewrite IH; auto. Qed.
Lemma combine_maps {A B C} (f : A -> B) (g : A -> C) l : combine (map f l) (map g l) = map (fun a => (f a, g a)) l.
Proof. induction l; simpl; congruence. Qed.

(** ** What is drawn *)

(** A point is drawn, with an intensity, if and only if it is the direction of a pixel which is not zero in the upper
    hemisphere, in either hemisphere, and the intensity is that of the pixel in this hemisphere. *)
Theorem C100_points_drawn s energy upper lower points : (2 <= size s)%nat ->
  arrays_from_energy s energy = Some (upper, lower) -> plot_spherical s energy = Some points ->
  forall v i, In (v, i) points <->
    exists side row col, (row < size s)%nat /\ (col < size s)%nat /\ upper row col <> 0 /\ direction side (size s) row col v /\
      i = match side with Above => upper row col | Below => lower row col end.
Proof.
  intros Hn A P v i. unfold plot_spherical in P. destruct (negb _); [discriminate P|]. destruct (_ || _)%bool; [|discriminate P].
  rewrite A in P. injection P as <-. unfold vectors.
  rewrite combine_app by (now rewrite !map_length). rewrite !combine_maps, in_app_iff, !in_map_iff. split.
  - intros [([r c] & E & H)|([r c] & E & H)]; apply in_keep in H; destruct H as (Hr & Hc & Hu); cbn [fst snd] in E; injection E as <- <-.
    + exists Above, r, c. repeat split; auto; apply (xy2vector_direction Above); auto.
    + exists Below, r, c. repeat split; auto; apply (xy2vector_direction Below); auto.
  - intros (side & r & c & Hr & Hc & Hu & D & ->).
    assert (K : In (r, c) (keep (size s) upper)) by (apply in_keep; auto).
    assert (E : KinematicalMaster.xy2vector (pole side) (linspace (size s) c, linspace (size s) r) = v).
    { apply (direction_unique side (size s) r c); [apply xy2vector_direction; exact Hn|exact D]. }
    destruct side; [left|right]; exists (r, c); cbn [fst snd]; cbn [pole] in E; rewrite E; auto.
Qed.
(** It is refused unless the projection is stereographic and both hemispheres are known. *)
Theorem C100_refused_iff s energy : arrays_from_energy s energy <> None ->
  (plot_spherical s energy = None <->
   projection s <> "stereographic"%string \/ (hemisphere s <> "both"%string /\ point_group_inversion s <> Some true)).
Proof.
  intros A. unfold plot_spherical. destruct (String.eqb_spec (projection s) "stereographic") as [->|N]; cbn [negb].
  - destruct (String.eqb_spec (hemisphere s) "both") as [->|H]; cbn [orb].
    + destruct (arrays_from_energy s energy) as [[u l]|]; [|contradiction]. split; [discriminate|]. intros [Q|[Q _]]; congruence.
    + destruct (point_group_inversion s) as [[]|] eqn:Q.
      * destruct (arrays_from_energy s energy) as [[u l]|]; [|contradiction]. split; [discriminate|]. intros [Q'|[_ Q']]; congruence.
      * split; auto. intros _. right. split; [exact H|discriminate].
      * split; auto. intros _. right. split; [exact H|discriminate].
  - split; auto.
Qed.
(** So that of a master pattern with both hemispheres of an intensity that depends on the direction, every point has the
    intensity of its direction. *)
Theorem C100_intensities_of_directions s energy upper lower f points : (2 <= size s)%nat ->
  arrays_from_energy s energy = Some (upper, lower) ->
  shows Above (size s) f upper -> shows Below (size s) f lower ->
  plot_spherical s energy = Some points -> Forall (fun p => dot3 (fst p) (fst p) = 1 /\ snd p = f (fst p)) points.
Proof.
  intros Hn A U L P. apply Forall_forall. intros [v i] H. apply (C100_points_drawn s energy upper lower points Hn A P) in H.
  destruct H as (side & r & c & Hr & Hc & _ & D & ->). cbn [fst snd]. split; [apply D|].
  destruct side; [apply (U r c v)|apply (L r c v)]; auto.
Qed.

(** The square reaches beyond the equator: a pixel outside of the circle shows a direction of the other half, so that a pattern
    which is not zero there is drawn twice. *)
Theorem C100_corners_in_the_other_half n row col v : (2 <= n)%nat ->
  let x := 2 * INR col / INR (n - 1) - 1 in let y := 2 * INR row / INR (n - 1) - 1 in
  (direction Above n row col v -> (vz v < 0 <-> x * x + y * y > 1)) /\ (direction Below n row col v -> (vz v > 0 <-> x * x + y * y > 1)).
Proof.
  intros Hn x y.
  assert (G : forall t z w, t + w * w = 1 -> w <> -1 -> t = z * ((1 + w) * (1 + w)) -> 0 <= z -> (w < 0 <-> z > 1)).
  { intros t z w E N F Hz. assert (Q : z * (1 + w) = 1 - w).
    { apply (Rmult_eq_reg_r (1 + w)); [|lra]. rewrite Rmult_assoc, <- F. lra. }
    assert (Dw : 0 < 1 + w). { assert (w <= 1) by nra. assert (-1 <= w) by nra. lra. }
    split; intros; nra. }
  assert (Z : 0 <= x * x + y * y) by nra.
  unfold direction, dot3, from_south, from_north. fold x. fold y. clearbody x y. destruct v as [a b c]. cbn [vx vy vz]. split.
  - intros (D & N & E). injection E as <- <-. apply (G (a * a + b * b)); auto; try lra. field. lra.
  - intros (D & N & E). injection E as <- <-.
    transitivity (- c < 0); [split; intros; lra|]. apply (G (a * a + b * b)); auto; try lra. field. lra.
Qed.

(** ** Simulated master patterns *)

(** The kinematical master pattern of both hemispheres as a signal. *)
Definition as_signal (h : nat) (s : KinematicalMaster.signal) (inversion : option bool) : master_signal :=
  MasterSignal (map (fun p => [fun row col => nth (row * (2 * h + 1) + col) p 0]) (KinematicalMaster.data s)) (2 * h + 1) None
    (KinematicalMaster.hemisphere_of s) "stereographic" false inversion.
Lemma shown_direction side h row col v : (1 <= h)%nat ->
  direction side (2 * h + 1) row col v ->
  Props.KinematicalMaster.shown (match side with Above => Props.KinematicalMaster.Upper | Below => Props.KinematicalMaster.Lower end) h row col v.
Proof.
  intros Hh. unfold direction, Props.KinematicalMaster.shown. cbv zeta. replace (2 * h + 1 - 1)%nat with (2 * h)%nat by lia.
  assert (H1 : 1 <= INR h) by (change 1 with (INR 1); apply le_INR; lia).
  rewrite mult_INR. cbn [INR].
  assert (E : forall k, 2 * INR k / ((1 + 1) * INR h) - 1 = (INR k - INR h) / INR h) by (intros k; field; lra).
  rewrite !E. destruct side; auto.
Qed.
(** Every point drawn of it has the sum of the intensities of the bands the direction lies in. *)
Theorem C100_simulated_master_pattern r scaling planes h points inversion s :
  (scaling = None \/ scaling = Some "linear"%string \/ scaling = Some "square"%string) ->
  (exists ps, Props.KinematicalMaster.stand_for r scaling ps /\ Permutation ps (planes ++ map other_side planes)) -> Forall proper planes ->
  (1 <= h)%nat -> KinematicalMaster.calculate_master_pattern r h "both" scaling = Some s ->
  plot_spherical (as_signal h s inversion) None = Some points ->
  Forall (fun p => snd p = band_intensity planes (fst p)) points.
Proof.
  intros Hs Hst Hp Hh Hc P.
  destruct (Props.KinematicalMaster.C68_each_band_once r scaling planes h "both"%string
    [Props.KinematicalMaster.Upper; Props.KinematicalMaster.Lower] Hs Hst Hp Hh eq_refl) as (s' & Hc' & Hl & Hpix).
  rewrite Hc in Hc'. injection Hc' as <-.
  assert (HH : KinematicalMaster.hemisphere_of s = "both"%string).
  { unfold KinematicalMaster.calculate_master_pattern in Hc. destruct (KinematicalMaster.thetas r); [|discriminate Hc].
    destruct (KinematicalMaster.factors r); [|discriminate Hc]. destruct (KinematicalMaster.poles_from_hemisphere "both"); [|discriminate Hc].
    destruct (KinematicalMaster.intensities scaling _); [|discriminate Hc]. injection Hc as <-. reflexivity. }
  unfold Props.KinematicalMaster.pixel in Hpix.
  destruct (KinematicalMaster.data s) as [|pu [|pl [|]]] eqn:HD; try discriminate Hl.
  assert (A : arrays_from_energy (as_signal h s inversion) None
    = Some ((fun row col => nth (row * (2 * h + 1) + col) pu 0), (fun row col => nth (row * (2 * h + 1) + col) pl 0))).
  { unfold arrays_from_energy, as_signal. cbn [energy_axis patterns hemisphere]. rewrite HD, HH. reflexivity. }
  assert (N : (2 <= size (as_signal h s inversion))%nat) by (cbn [size as_signal]; lia).
  assert (F : Forall (fun p => dot3 (fst p) (fst p) = 1 /\ snd p = band_intensity planes (fst p)) points).
  { apply (C100_intensities_of_directions _ _ _ _ (band_intensity planes) points N A); auto.
    - intros row col v Hr Hcl D. cbn [size as_signal] in *.
      destruct (Hpix 0%nat _ row col eq_refl Hr Hcl) as (w & Hw & E).
      rewrite (Props.KinematicalMaster.C68_direction_unique _ _ _ _ _ _ (shown_direction Above h row col v Hh D) Hw).
      apply nth_error_nth. exact E.
    - intros row col v Hr Hcl D. cbn [size as_signal] in *.
      destruct (Hpix 1%nat _ row col eq_refl Hr Hcl) as (w & Hw & E).
      rewrite (Props.KinematicalMaster.C68_direction_unique _ _ _ _ _ _ (shown_direction Below h row col v Hh D) Hw).
      apply nth_error_nth. exact E. }
  apply Forall_forall. intros p Hi. rewrite Forall_forall in F. apply (F p Hi).
Qed.

(** ** What is not as expected *)

(** Zeros are taken to be outside of the equator, and only looked for in the upper hemisphere: where a direction in the
    upper hemisphere has no intensity, the one below it is not drawn either.  Here only the lower pole is bright. *)
Definition lower_pole (v : vec) : R := if Req_EM_T (vz v) (-1) then 7 else 0.
Definition lower_pole_signal : master_signal :=
  MasterSignal [[fun _ _ => 0]; [fun row col => if (row =? 1)%nat && (col =? 1)%nat then 7 else 0]] 3 None "both" "stereographic" false None.
Theorem C100_zeros_above_refuted :
  shows Above 3 lower_pole (fun _ _ => 0) /\ shows Below 3 lower_pole (fun row col => if (row =? 1)%nat && (col =? 1)%nat then 7 else 0) /\
  direction Below 3 1 1 (Vec 0 0 (-1)) /\ lower_pole (Vec 0 0 (-1)) = 7 /\ plot_spherical lower_pole_signal None = Some [].
Proof.
  repeat split.
  - intros row col v Hr Hc D. unfold lower_pole. destruct (Req_EM_T (vz v) (-1)) as [E|]; [|reflexivity].
    destruct D as [_ [N _]]. contradiction.
  - assert (DP : direction Below 3 1 1 (Vec 0 0 (-1))).
    { unfold direction, dot3, from_north. cbn [vx vy vz Nat.sub INR]. split; [ring|]. split; [lra|]. f_equal; field. }
    intros row col v Hr Hc D. unfold lower_pole.
    destruct (Req_EM_T (vz v) (-1)) as [E|E].
    + destruct v as [x y z]. cbn [vz] in E. subst z. unfold direction, dot3, from_north in D. cbn [vx vy vz Nat.sub INR] in D.
      destruct D as (D1 & _ & D2). assert (Hx : x = 0) by nra. assert (Hy : y = 0) by nra. subst x y.
      injection D2 as Ex Ey.
      assert (K : forall k, (k < 3)%nat -> 0 / (1 - -1) = 2 * INR k / (1 + 1) - 1 -> k = 1%nat).
      { intros [|[|[|]]] L Q; auto; try lia; cbn [INR] in Q; lra. }
      rewrite (K row Hr Ey), (K col Hc Ex). reflexivity.
    + destruct ((row =? 1)%nat && (col =? 1)%nat) eqn:Q; [|reflexivity]. exfalso.
      apply andb_prop in Q. destruct Q as [Q1 Q2]. apply Nat.eqb_eq in Q1, Q2. subst row col.
      apply E. rewrite (direction_unique Below 3 1 1 v (Vec 0 0 (-1)) D DP). reflexivity.
  - unfold dot3. cbn [vx vy vz]. ring.
  - cbn [vz]. lra.
  - unfold from_north. cbn [vx vy vz Nat.sub INR]. f_equal; field.
  - unfold lower_pole. cbn [vz]. destruct (Req_EM_T (-1) (-1)); [reflexivity|contradiction].
  - unfold plot_spherical, lower_pole_signal. cbn [projection hemisphere point_group_inversion arrays_from_energy energy_axis patterns map size String.eqb Ascii.eqb Bool.eqb negb orb nth].
    assert (K : keep 3 (fun _ _ => 0) = []).
    { unfold keep. generalize (places 3). intros l. induction l as [|a l IH]; [reflexivity|]. cbn [filter].
      destruct (Req_EM_T 0 0); [exact IH|contradiction]. }
    rewrite K. reflexivity.
Qed.

(** A centrosymmetric phase with one hemisphere: the lower half of the sphere is the mirror image of the upper half, and right
    if turning by 180 degrees about the pole leaves the intensity as it is ... *)
Theorem C100_one_hemisphere_partial s energy upper f points : (2 <= size s)%nat -> hemisphere s <> "both"%string ->
  arrays_from_energy s energy = Some (upper, upper) -> shows Above (size s) f upper ->
  (forall v, f (negated v) = f v) -> (forall v, f (Vec (- vx v) (- vy v) (vz v)) = f v) ->
  plot_spherical s energy = Some points -> Forall (fun p => snd p = f (fst p)) points.
Proof.
  intros Hn Hh A U I T P. apply Forall_forall. intros [v i] H. apply (C100_points_drawn s energy upper upper points Hn A P) in H.
  destruct H as (side & r & c & Hr & Hc & _ & D & ->). cbn [fst snd]. destruct side; [apply (U r c v); auto|].
  rewrite <- (I v), <- (T (negated v)). apply (U r c); auto. unfold direction, dot3, negated, from_south, from_north in *. cbn [vx vy vz] in *.
  destruct D as (D1 & D2 & D3). cbv zeta in *. repeat split.
  - rewrite <- D1. ring.
  - lra.
  - rewrite <- D3. f_equal; f_equal; ring.
Qed.
(** ... but not otherwise: one band of a centrosymmetric crystal. *)
Definition tilted : plane := Plane (Vec 1 0 1) (PI / 6) 1.
Theorem C100_one_hemisphere_refuted : exists s upper points v, point_group_inversion s = Some true /\ hemisphere s = "upper"%string /\
  arrays_from_energy s None = Some (upper, upper) /\ shows Above (size s) (band_intensity [tilted]) upper /\
  plot_spherical s None = Some points /\ In (v, 1) points /\ dot3 v v = 1 /\ band_intensity [tilted] v = 0.
Proof.
  set (upper := fun row col => band_intensity [tilted] (KinematicalMaster.xy2vector (-1) (linspace 5 col, linspace 5 row))).
  set (s := MasterSignal [[upper]] 5 None "upper" "stereographic" false (Some true)).
  assert (A : arrays_from_energy s None = Some (upper, upper)) by reflexivity.
  assert (P : exists points, plot_spherical s None = Some points) by (eexists; reflexivity).
  destruct P as [points P].
  assert (S : shows Above 5 (band_intensity [tilted]) upper).
  { intros row col v Hr Hc D. unfold upper. f_equal. apply (direction_unique Above 5 row col); [|exact D].
    apply (xy2vector_direction Above). lia. }
  assert (Q : sqrt 2 * sqrt 2 = 2) by (apply sqrt_sqrt; lra). assert (Q0 : 0 <= sqrt 2) by apply sqrt_pos.
  assert (Lt : length3 (Vec 1 0 1) = sqrt 2) by (unfold length3, dot3; cbn [vx vy vz]; f_equal; ring).
  assert (B : forall v, band_intensity [tilted] v = if Rle_dec (Rabs ((vx v + vz v) / sqrt 2)) (/ 2) then 1 else 0).
  { intros v. unfold band_intensity, total. cbn [map fold_right]. unfold in_band_dec, in_band, elevation. cbn [normal tilted bragg strength].
    rewrite Lt. unfold dot3. cbn [vx vy vz]. replace (1 * vx v + 0 * vy v + 1 * vz v) with (vx v + vz v) by ring.
    replace (sin (PI / 6)) with (/ 2) by (rewrite sin_PI6; lra). destruct (Rle_dec _ _); ring. }
  assert (W : upper 2%nat 1%nat = 1).
  { unfold upper. rewrite B. unfold KinematicalMaster.xy2vector, linspace. cbn [vx vz Nat.sub INR].
    match goal with |- context [Rabs ((?a + ?b) / _)] => replace a with (- (4 / 5)) by field; replace b with (3 / 5) by field end.
    destruct (Rle_dec _ _) as [|N]; [reflexivity|]. exfalso. apply N.
    replace ((- (4 / 5) + 3 / 5) / sqrt 2) with (- (sqrt 2 / 10)) by (replace (- (sqrt 2 / 10)) with (- ((sqrt 2 * sqrt 2) / (10 * sqrt 2))) by (field; nra); rewrite Q; field; nra).
    rewrite Rabs_Ropp, Rabs_pos_eq by lra. assert (sqrt 2 <= 2) by nra. lra. }
  exists s, upper, points, (Vec (- (4 / 5)) 0 (- (3 / 5))). cbn [size s]. repeat split; auto.
  - apply (C100_points_drawn s None upper upper points); auto; [cbn [size s]; lia|].
    exists Below, 2%nat, 1%nat. cbn [size s]. repeat split; try lia; auto.
    + rewrite W. lra.
    + unfold dot3. cbn [vx vy vz]. field.
    + cbn [vz]. lra.
    + unfold from_north. cbn [vx vy vz Nat.sub INR]. f_equal; field.
  - unfold dot3. cbn [vx vy vz]. field.
  - rewrite B. cbn [vx vz]. destruct (Rle_dec _ _) as [L|]; [|reflexivity]. exfalso.
    replace ((- (4 / 5) + - (3 / 5)) / sqrt 2) with (- (7 / 10 * sqrt 2)) in L by (replace (- (7 / 10 * sqrt 2)) with (- (7 / 10 * (sqrt 2 * sqrt 2) / sqrt 2)) by (field; nra); rewrite Q; field; nra).
    rewrite Rabs_Ropp, Rabs_pos_eq in L by lra. assert (1 <= sqrt 2) by nra. lra.
Qed.

(** ** Concrete cases *)

(** Both hemispheres of the intensity 2 + z, 3 pixels wide: of the upper pole and of the lower pole. *)
Definition height (v : vec) : R := 2 + vz v.
Definition height_signal : master_signal :=
  MasterSignal [[fun row col => height (KinematicalMaster.xy2vector (-1) (linspace 3 col, linspace 3 row))];
                [fun row col => height (KinematicalMaster.xy2vector 1 (linspace 3 col, linspace 3 row))]] 3 None "both" "stereographic" false None.
Example C100_points_drawn_case : exists upper lower points, arrays_from_energy height_signal None = Some (upper, lower) /\
  shows Above 3 height upper /\ shows Below 3 height lower /\ plot_spherical height_signal None = Some points /\
  In (Vec 0 0 1, 3) points /\ In (Vec 0 0 (-1), 1) points.
Proof.
  eexists _, _, _. split; [reflexivity|]. split; [|split; [|split; [reflexivity|]]].
  - intros row col v Hr Hc D. cbn [nth]. f_equal. apply (direction_unique Above 3 row col); [|exact D]. apply (xy2vector_direction Above). lia.
  - intros row col v Hr Hc D. cbn [nth]. f_equal. apply (direction_unique Below 3 row col); [|exact D]. apply (xy2vector_direction Below). lia.
  - split; apply (C100_points_drawn height_signal None _ _ _ (le_n_S _ _ (le_n_S _ _ (Nat.le_0_l _))) eq_refl eq_refl).
    + exists Above, 1%nat, 1%nat. unfold height, KinematicalMaster.xy2vector, linspace, direction, dot3, from_south. cbn [size height_signal vx vy vz Nat.sub INR].
      assert (F : forall p, p = -1 \/ p = 1 -> 2 + - p * (1 - (-1 + 1 * (2 / (1 + 1))) * (-1 + 1 * (2 / (1 + 1))) - (-1 + 1 * (2 / (1 + 1))) * (-1 + 1 * (2 / (1 + 1)))) / (1 + (-1 + 1 * (2 / (1 + 1))) * (-1 + 1 * (2 / (1 + 1))) + (-1 + 1 * (2 / (1 + 1))) * (-1 + 1 * (2 / (1 + 1)))) = 2 - p) by (intros p _; field).
      repeat split; try lia; try lra; try (f_equal; field); cbn [nth INR]; rewrite F; lra.
    + exists Below, 1%nat, 1%nat. unfold height, KinematicalMaster.xy2vector, linspace, direction, dot3, from_north. cbn [size height_signal vx vy vz Nat.sub INR].
      assert (F : forall p, p = -1 \/ p = 1 -> 2 + - p * (1 - (-1 + 1 * (2 / (1 + 1))) * (-1 + 1 * (2 / (1 + 1))) - (-1 + 1 * (2 / (1 + 1))) * (-1 + 1 * (2 / (1 + 1)))) / (1 + (-1 + 1 * (2 / (1 + 1))) * (-1 + 1 * (2 / (1 + 1))) + (-1 + 1 * (2 / (1 + 1))) * (-1 + 1 * (2 / (1 + 1)))) = 2 - p) by (intros p _; field).
      repeat split; try lia; try lra; try (f_equal; field); cbn [nth INR]; rewrite F; lra.
Qed.
(** The basal planes of Props/KinematicalMaster.v: the point (1, 0, 0), in their band, is drawn with their intensity. *)
Example C100_simulated_case : exists s points,
  KinematicalMaster.calculate_master_pattern Props.KinematicalMaster.basal_reflectors 1 "both" (Some "linear"%string) = Some s /\
  plot_spherical (as_signal 1 s None) None = Some points /\ (exists v, In (v, 3) points).
Proof.
  destruct Props.KinematicalMaster.basal_example as (s & E & P & _).
  assert (HH : KinematicalMaster.hemisphere_of s = "both"%string) by (unfold KinematicalMaster.calculate_master_pattern in E; cbn in E; injection E as <-; reflexivity).
  assert (HD : exists a b, KinematicalMaster.data s = [a; b]) by (unfold KinematicalMaster.calculate_master_pattern in E; cbn in E; injection E as <-; eexists _, _; reflexivity).
  destruct HD as (a & b & HD).
  unfold Props.KinematicalMaster.pixel in P. rewrite HD in P. cbn [nth_error] in P.
  assert (A : arrays_from_energy (as_signal 1 s None) None = Some ((fun row col => nth (row * (2 * 1 + 1) + col) a 0), (fun row col => nth (row * (2 * 1 + 1) + col) b 0))).
  { unfold arrays_from_energy, as_signal. cbn [energy_axis patterns hemisphere]. rewrite HD, HH. reflexivity. }
  assert (Q : exists points, plot_spherical (as_signal 1 s None) None = Some points).
  { unfold plot_spherical. rewrite A. unfold as_signal. cbn [projection hemisphere]. rewrite HH. eexists. reflexivity. }
  destruct Q as [points Q]. exists s, points. repeat split; auto.
  exists (KinematicalMaster.xy2vector (-1) (linspace 3 2, linspace 3 1)).
  assert (V : nth (1 * (2 * 1 + 1) + 2) a 0 = 3) by (apply nth_error_nth; exact P).
  apply (C100_points_drawn (as_signal 1 s None) None _ _ points (le_n_S _ _ (le_n_S _ _ (Nat.le_0_l _))) A Q).
  exists Above, 1%nat, 2%nat. repeat split; try (cbn; lia).
  - rewrite V. lra.
  - apply (xy2vector_direction Above 3 1 2). lia.
  - apply (xy2vector_direction Above 3 1 2). lia.
  - apply (xy2vector_direction Above 3 1 2). lia.
  - symmetry. exact V.
Qed.
(** The height above or below the equator is the same for opposite and turned directions. *)
Example C100_one_hemisphere_case : let f v := 1 + vz v * vz v in
  (forall v, f (negated v) = f v) /\ (forall v, f (Vec (- vx v) (- vy v) (vz v)) = f v) /\ f (Vec 0 0 1) <> f (Vec 1 0 0).
Proof. cbn. repeat split; intros; try ring. lra. Qed.

Print Assumptions C100_points_drawn.
Print Assumptions C100_simulated_master_pattern.
