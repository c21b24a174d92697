(** Zone axes (property C66) and the interactive detector plot (property C67). *)
From Coq Require Import List Arith ZArith Reals Lra Lia Psatz Bool.
From Verif Require Import Model.Detector Model.Rotations Model.Simulation Model.KikuchiLines Spec.Euler Spec.KikuchiBands Spec.DetectorGeometry
  Proofs.DetectorProofs Proofs.DetectorTilt Proofs.KikuchiLinesProofs Props.KikuchiLines.
Import ListNotations.
Local Open Scope R_scope.

(** ** Specification *)

(** [uvw] is the direction common to the lattice planes of two reflectors: the zone axis. *)
Definition in_plane (h u : index) : Prop := (i1 h * i1 u + i2 h * i2 u + i3 h * i3 u = 0)%Z.
Definition parallel (a b : index) : Prop :=
  (i1 a * i2 b = i2 a * i1 b /\ i1 a * i3 b = i3 a * i1 b /\ i2 a * i3 b = i3 a * i2 b)%Z.
Definition null (u : index) : Prop := u = Index 0 0 0.

(** "round()" of a direction: integers, not all zero, with the same direction. *)
Definition keeps_direction (reduce : index -> index) : Prop :=
  forall u, ~ null u -> exists k, (0 < k)%Z /\ u = Index (k * i1 (reduce u)) (k * i2 (reduce u)) (k * i3 (reduce u)).

(** On the detector surface or less than a pixel outside (pixels as in the pixel coordinates of C65). *)
Definition near_surface (d : detector) (p : pc3) (x y : R) : Prop :=
  let px := (x_max d p - x_min d p) / (ncols d - 1) in
  let py := (y_max d p - y_min d p) / (nrows d - 1) in
  x_min d p - px <= x <= x_max d p + px /\ y_min d p - py <= y <= y_max d p + py.

(** ** Proofs *)

Lemma index_eqb_spec a b : index_eqb a b = true <-> a = b.
Proof.
  destruct a as [a1 a2 a3], b as [b1 b2 b3]. unfold index_eqb. cbn [i1 i2 i3]. rewrite !andb_true_iff, !Z.eqb_eq. split.
  - intros ((-> & ->) & ->). reflexivity.
  - intros H. injection H as -> -> ->. auto.
Qed.
Lemma unique_in l u : In u (unique l) <-> In u l.
Proof.
  induction l as [|a l IH]; [tauto|]. simpl. destruct (existsb (index_eqb a) l) eqn:E.
  - rewrite IH. split; [auto|]. intros [<-|H]; [|exact H]. apply existsb_exists in E. destruct E as (b & Hb & Eb). apply index_eqb_spec in Eb. now subst b.
  - simpl. rewrite IH. tauto.
Qed.
Lemma cross_products_in hkl u : In u (cross_products hkl) <-> ~ null u /\ exists a b, In a hkl /\ In b hkl /\ u = cross_index a b.
Proof.
  unfold cross_products. rewrite filter_In, in_flat_map. split.
  - intros ((a & Ha & H) & N). apply in_map_iff in H. destruct H as (b & E & Hb). split.
    + intros Z. unfold null in Z. subst u. rewrite Z in N. discriminate.
    + exists a, b. auto.
  - intros (N & a & b & Ha & Hb & ->). split.
    + exists a. split; [exact Ha|]. now apply in_map.
    + apply negb_true_iff. destruct (index_eqb _ _) eqn:E; [|reflexivity]. apply index_eqb_spec in E. contradiction.
Qed.
Lemma cross_null a b : null (cross_index a b) <-> parallel a b.
Proof.
  unfold null, parallel, cross_index. split.
  - intros H. injection H as A B C. lia.
  - intros (A & B & C). f_equal; lia.
Qed.
Lemma cross_in_plane a b : in_plane a (cross_index a b) /\ in_plane b (cross_index a b).
Proof. unfold in_plane, cross_index. cbn [i1 i2 i3]. split; ring. Qed.

Lemma within_near d p x y : (1 < d_nx d)%Z -> (1 < d_ny d)%Z -> within_bounds d p (x, y) = true <-> near_surface d p x y.
Proof.
  intros Hx Hy. unfold within_bounds, near_surface, x_scale, y_scale. destruct (Z.eqb_spec (d_nx d) 1); [lia|]. destruct (Z.eqb_spec (d_ny d) 1); [lia|].
  cbn [fst snd]. rewrite !andb_true_iff, !rleb_spec. cbv zeta. tauto.
Qed.

Section OneSimulation.
Context (reduce : index -> index) (base : mat) (refl : list index) (d : detector) (shape : list nat) (rots : list quat) (s : simulation).
Context (Hsim : on_detector reduce base refl d shape rots = Some s).
Context (Hd : usable d) (Hrots : length rots = number shape).

Definition kept (u : index) : Prop :=
  (exists q, In q rots /\ 0 < vz (uvw_d base d q u)) /\
  (exists q p, In (q, p) (views d rots) /\ vz (uvw_d base d q u) <> 0 /\ within_bounds d p (direction_xy (uvw_d base d q u)) = true).

Lemma zones_in u : In u (zones s) <-> In u (map reduce (cross_products (visible s))) /\ kept u.
Proof using Hsim.
  clear Hd Hrots. pose proof (visible_eq _ _ _ _ _ _ _ Hsim) as Ev. unfold on_detector in Hsim. destruct (_ && _)%bool; [discriminate|]. apply some_inj in Hsim. subst s.
  cbn [visible zones] in *. clear Ev. rewrite filter_In, unique_in, andb_true_iff, !existsb_exists. unfold kept.
  split; intros (A & (q & B & C) & H).
  - split; [exact A|]. split; [exists q; split; [exact B|now apply rltb_spec]|].
    destruct H as ([q' p'] & H1 & H2). cbn [fst snd] in H2. exists q', p'. split; [exact H1|]. destruct (Req_EM_T _ 0); [discriminate|]. auto.
  - split; [exact A|]. split; [exists q; split; [exact B|now apply rltb_spec]|].
    destruct H as (q' & p' & H1 & H2 & H3). exists (q', p'). split; [exact H1|]. cbn [fst snd]. destruct (Req_EM_T _ 0); [contradiction|exact H3].
Qed.
Lemma zones_at r i q : radius d r -> nth_error rots i = Some q ->
  exists p, pc_of d i p /\ In p (pcs (d_pc d)) /\ In (q, p) (views d rots) /\
    nth_error (zones_gnomonic s) i = Some (map (fun u => zone_axis r (uvw_d base d q u)) (zones s)) /\
    nth_error (zones_pixel s) i = Some (map (fun u => zone_axis_pixels d p (zone_axis r (uvw_d base d q u))) (zones s)).
Proof using Hsim Hd Hrots.
  intros Hr Hi. destruct (views_at d shape rots i q Hd Hrots (on_detector_inv _ _ _ _ _ _ _ Hsim) Hi) as (p & Hp & Hv & Hin).
  exists p. split; [exact Hp|]. split; [exact Hin|]. split; [now apply nth_error_In in Hv|].
  unfold on_detector in Hsim. destruct (_ && _)%bool; [discriminate|]. apply some_inj in Hsim. subst s.
  cbn [zones zones_gnomonic zones_pixel]. rewrite (radius_fold d r Hd Hr).
  set (zs := filter _ _). set (ls := map _ (views d rots)).
  assert (E : nth_error ls i = Some (map (fun u => zone_axis r (uvw_d base d q u)) zs)).
  { unfold ls. now rewrite nth_error_map, Hv. }
  split; [exact E|]. rewrite nth_error_map, (nth_error_combine _ _ _ _ _ Hv E). cbn [option_map fst snd]. now rewrite map_map.
Qed.
End OneSimulation.

Lemma zone_axis_some r v x y : zone_axis r v = Some (x, y) ->
  vz v <> 0 /\ x = vx v / vz v /\ y = vy v / vz v /\ sqrt (x * x + y * y) < r /\ -1/100000 < vz v.
Proof.
  unfold zone_axis. destruct (Req_EM_T (vz v) 0); [discriminate|]. cbv zeta.
  destruct (rltb _ r) eqn:A; [|discriminate]. destruct (rltb _ (vz v)) eqn:B; [|discriminate]. cbn [andb]. intros H.
  apply some_inj in H. assert (X : vx v / vz v = x) by exact (f_equal fst H). assert (Y : vy v / vz v = y) by exact (f_equal snd H).
  apply rltb_spec in A, B. rewrite X, Y in A. replace (x ^ 2 + y ^ 2) with (x * x + y * y) in A by ring. auto.
Qed.
Lemma in_circle x y r : 0 < r -> sqrt (x * x + y * y) < r <-> x * x + y * y < r * r.
Proof.
  intros Hr. assert (P : 0 <= x * x + y * y) by nra. pose proof (sqrt_sqrt _ P) as S. pose proof (sqrt_pos (x * x + y * y)). split; intros; nra.
Qed.

Lemma uvw_scale base d q k u : uvw_d base d q (Index (k * i1 u) (k * i2 u) (k * i3 u))
  = let v := uvw_d base d q u in Vec (IZR k * vx v) (IZR k * vy v) (IZR k * vz v).
Proof.
  rewrite !uvw_d_eq. set (t := row_times (row_of u) base).
  assert (E : row_times (row_of (Index (k * i1 u) (k * i2 u) (k * i3 u))) base = Vec (IZR k * vx t) (IZR k * vy t) (IZR k * vz t)).
  { unfold t. rewrite <- row_times_scale. f_equal. unfold row_of. cbn [vx vy vz i1 i2 i3]. now rewrite !mult_IZR. }
  rewrite E, row_times_scale. cbv zeta. now rewrite times_scale.
Qed.

(** Points on the trace of a reflector that contains the zone axis *)
Lemma zone_on_trace base d q h u x y : proper_lattice base -> unit_quaternion q -> in_plane h u -> vz (uvw_d base d q u) <> 0 ->
  x = vx (uvw_d base d q u) / vz (uvw_d base d q u) -> y = vy (uvw_d base d q u) / vz (uvw_d base d q u) ->
  on_trace base d q (IZR (i1 h)) (IZR (i2 h)) (IZR (i3 h)) x y.
Proof.
  intros V Hq Hp Hz -> ->. apply on_trace_iff; [exact V|]. pose proof (zone_law base d q h u V Hq) as Z.
  rewrite <- !mult_IZR, <- !plus_IZR in Z. unfold in_plane in Hp. rewrite Hp in Z. unfold dot3 in Z.
  apply Rmult_eq_reg_r with (vz (uvw_d base d q u)); [|exact Hz]. rewrite Rmult_0_l, <- Z. field. exact Hz.
Qed.

Lemma reduce_spec reduce u : keeps_direction reduce -> ~ null u ->
  ~ null (reduce u) /\ exists k, (0 < k)%Z /\ u = Index (k * i1 (reduce u)) (k * i2 (reduce u)) (k * i3 (reduce u)).
Proof.
  intros K N. destruct (K u N) as (k & Hk & E). split; [|eauto]. intros Z. apply N. rewrite E, Z. cbn [i1 i2 i3]. unfold null. f_equal; lia.
Qed.
Lemma in_plane_scale h k u : (0 < k)%Z -> in_plane h (Index (k * i1 u) (k * i2 u) (k * i3 u)) <-> in_plane h u.
Proof. intros Hk. unfold in_plane. cbn [i1 i2 i3]. split; intros; nia. Qed.

(** ** C66 *)

(** Every zone axis shown is a point where the traces of two reflectors, not parallel, meet; in gnomonic
    coordinates it is inside the region, in pixels also near the detector surface. *)
Theorem C66_zone_axes_are_crossings reduce base refl d shape rots s r i q p :
  on_detector reduce base refl d shape rots = Some s -> usable d -> proper_lattice base -> Forall unit_quaternion rots -> keeps_direction reduce ->
  length rots = number shape -> radius d r -> nth_error rots i = Some q -> pc_of d i p -> (1 < d_nx d)%Z -> (1 < d_ny d)%Z ->
  exists gn px, zone_axes_coordinates s i Gnomonic = Some gn /\ zone_axes_coordinates s i InPixels = Some px /\
    (forall x y, In (x, y) gn -> x * x + y * y < r * r /\
       exists a b, In a refl /\ In b refl /\ ~ parallel a b /\
         on_trace base d q (IZR (i1 a)) (IZR (i2 a)) (IZR (i3 a)) x y /\ on_trace base d q (IZR (i1 b)) (IZR (i2 b)) (IZR (i3 b)) x y) /\
    (forall c, In c px <-> exists x y, In (x, y) gn /\ near_surface d p x y /\ c = pixel d p (x, y)).
Proof.
  intros Hs Hd V Hqs K Hl Hr Hi Hp Hx Hy. destruct (zones_at _ _ _ _ _ _ _ Hs Hd Hl r i q Hr Hi) as (p' & Hp' & Hin & Hv & E1 & E2).
  assert (p' = p) by (unfold pc_of in *; congruence). subst p'. assert (Rp : 0 < r) by now apply radius_pos with d.
  assert (Hq : unit_quaternion q) by (rewrite Forall_forall in Hqs; apply Hqs; now apply nth_error_In in Hi).
  unfold zone_axes_coordinates. rewrite E1, E2. eexists _, _. split; [reflexivity|]. split; [reflexivity|]. split.
  - intros x y H. apply exclude_nan_in, in_map_iff in H. destruct H as (u & H & Hu). apply zone_axis_some in H. destruct H as (Hz & X & Y & C & _).
    apply (in_circle x y r Rp) in C. split; [exact C|]. apply (zones_in _ _ _ _ _ _ _ Hs) in Hu. destruct Hu as (Hu & _).
    apply in_map_iff in Hu. destruct Hu as (c & Ec & Hc). apply cross_products_in in Hc. destruct Hc as (N & a & b & Ha & Hb & E). subst c.
    destruct (reduce_spec reduce _ K N) as (_ & k & Hk & Ek). rewrite Ec in Ek.
    exists a, b. apply (visible_in _ _ _ _ _ _ _ Hs) in Ha, Hb. split; [tauto|]. split; [tauto|].
    split; [intros P; apply N; now apply cross_null|]. destruct (cross_in_plane a b) as [Pa Pb]. rewrite Ek in Pa, Pb. rewrite in_plane_scale in Pa, Pb by exact Hk.
    split; eapply zone_on_trace; eauto.
  - intros c. rewrite exclude_nan_in, in_map_iff. split.
    + intros (u & H & Hu). destruct (zone_axis r (uvw_d base d q u)) as [[x y]|] eqn:Z; [|discriminate]. cbn [zone_axis_pixels] in H.
      destruct (within_bounds d p (x, y)) eqn:W; [|discriminate]. apply some_inj in H. exists x, y. split; [|split; [now apply within_near|now symmetry]].
      apply exclude_nan_in, in_map_iff. exists u. auto.
    + intros (x & y & H & W & ->). apply exclude_nan_in, in_map_iff in H. destruct H as (u & H & Hu). exists u. split; [|exact Hu].
      rewrite H. cbn [zone_axis_pixels]. apply within_near in W; [|assumption..]. now rewrite W.
Qed.

(** The direction [uvw] that is shown points there, and not away from the detector, if lattice vectors are
    longer than 1e-5 times the farthest point's distance (in units of the distance of the PC): a lattice
    parameter in Angstrom or nanometers. *)
Theorem C66_shown_directions_point_to_the_detector reduce base refl d shape rots s r i q x y :
  on_detector reduce base refl d shape rots = Some s -> usable d -> proper_lattice base -> Forall unit_quaternion rots ->
  length rots = number shape -> radius d r -> nth_error rots i = Some q ->
  (forall u, In u (zones s) -> let t := lattice_direction base (IZR (i1 u)) (IZR (i2 u)) (IZR (i3 u)) in 1 + r * r <= 10000000000 * dot3 t t) ->
  (exists gn, zone_axes_coordinates s i Gnomonic = Some gn /\ In (x, y) gn) ->
  exists u, In u (zones s) /\ direction_seen_at base d q (IZR (i1 u)) (IZR (i2 u)) (IZR (i3 u)) x y.
Proof.
  intros Hs Hd V Hqs Hl Hr Hi Hlong (gn & E & H). destruct (zones_at _ _ _ _ _ _ _ Hs Hd Hl r i q Hr Hi) as (p & Hp & Hin & Hv & E1 & _).
  assert (Rp : 0 < r) by now apply radius_pos with d.
  assert (Hq : unit_quaternion q) by (rewrite Forall_forall in Hqs; apply Hqs; now apply nth_error_In in Hi).
  unfold zone_axes_coordinates in E. rewrite E1 in E. apply some_inj in E. subst gn.
  apply exclude_nan_in, in_map_iff in H. destruct H as (u & H & Hu). apply zone_axis_some in H. destruct H as (Hz & X & Y & C & Hneg).
  exists u. split; [exact Hu|]. apply direction_seen_iff; [exact Hq|]. split; [|auto].
  specialize (Hlong u Hu). cbv zeta in Hlong. pose proof (uvw_d_length base d q u Hq) as L. cbv zeta in L. rewrite <- L in Hlong. clear L.
  apply (in_circle x y r Rp) in C. set (v := uvw_d base d q u) in *. clearbody v.
  assert (Ex : vx v = x * vz v) by (rewrite X; field; exact Hz). assert (Ey : vy v = y * vz v) by (rewrite Y; field; exact Hz).
  destruct (Rlt_dec 0 (vz v)) as [|N]; [assumption|exfalso].
  unfold dot3 in Hlong. rewrite Ex, Ey in Hlong.
  assert (Z2 : 10000000000 * (vz v * vz v) < 1) by nra.
  replace (10000000000 * (x * vz v * (x * vz v) + y * vz v * (y * vz v) + vz v * vz v)) with ((x * x + y * y + 1) * (10000000000 * (vz v * vz v))) in Hlong by ring.
  assert (0 <= x * x + y * y) by nra. assert (0 < vz v * vz v) by nra.
  assert ((x * x + y * y + 1) * (10000000000 * (vz v * vz v)) <= (x * x + y * y + 1) * 1) by (apply Rmult_le_compat_l; lra). lra.
Qed.

(** Every crossing, near the detector surface and inside the region, of traces of two reflectors that both point
    to the detector is shown. *)
Theorem C66_crossings_are_shown reduce base refl d shape rots s r i q p a b x y :
  on_detector reduce base refl d shape rots = Some s -> usable d -> proper_lattice base -> Forall unit_quaternion rots -> keeps_direction reduce ->
  length rots = number shape -> radius d r -> nth_error rots i = Some q -> pc_of d i p -> (1 < d_nx d)%Z -> (1 < d_ny d)%Z ->
  In a refl -> In b refl -> towards base d q a -> towards base d q b -> ~ parallel a b ->
  on_trace base d q (IZR (i1 a)) (IZR (i2 a)) (IZR (i3 a)) x y -> on_trace base d q (IZR (i1 b)) (IZR (i2 b)) (IZR (i3 b)) x y ->
  x * x + y * y < r * r -> near_surface d p x y ->
  exists gn px, zone_axes_coordinates s i Gnomonic = Some gn /\ zone_axes_coordinates s i InPixels = Some px /\
    In (x, y) gn /\ In (pixel d p (x, y)) px.
Proof.
  intros Hs Hd V Hqs K Hl Hr Hi Hp Hx Hy Ha Hb Ta Tb Hab Oa Ob C W.
  destruct (zones_at _ _ _ _ _ _ _ Hs Hd Hl r i q Hr Hi) as (p' & Hp' & Hin & Hv & E1 & E2).
  assert (p' = p) by (unfold pc_of in *; congruence). subst p'. assert (Rp : 0 < r) by now apply radius_pos with d.
  assert (Hq : unit_quaternion q) by (rewrite Forall_forall in Hqs; apply Hqs; now apply nth_error_In in Hi).
  apply towards_iff in Ta; [|exact V]. apply towards_iff in Tb; [|exact V].
  rewrite on_trace_iff in Oa, Ob by exact V.
  assert (Qi : In q rots) by now apply nth_error_In in Hi.
  assert (Va : In a (visible s)) by (apply (visible_in _ _ _ _ _ _ _ Hs); split; eauto).
  assert (Vb : In b (visible s)) by (apply (visible_in _ _ _ _ _ _ _ Hs); split; eauto).
  (* along (x, y, 1), for a x b or b x a *)
  assert (D : exists a' b', In a' (visible s) /\ In b' (visible s) /\ ~ parallel a' b' /\ let v := uvw_d base d q (cross_index a' b') in 0 < vz v /\ vx v = x * vz v /\ vy v = y * vz v).
  { assert (G : forall a' b', In a' (visible s) -> In b' (visible s) -> ~ parallel a' b' ->
      vx (hkl_d base d q a') * x + vy (hkl_d base d q a') * y + vz (hkl_d base d q a') = 0 ->
      vx (hkl_d base d q b') * x + vy (hkl_d base d q b') * y + vz (hkl_d base d q b') = 0 ->
      let v := uvw_d base d q (cross_index a' b') in vx v = x * vz v /\ vy v = y * vz v).
    { intros a' b' _ _ _ A B. rewrite uvw_d_cross by assumption. cbv zeta. cbn [vx vy vz]. unfold cross3. cbn [vx vy vz].
      set (g := hkl_d base d q a') in *. set (f := hkl_d base d q b') in *. 
      assert (Zg : vz g = - (vx g * x + vy g * y)) by lra. assert (Zf : vz f = - (vx f * x + vy f * y)) by lra. rewrite Zg, Zf. split; ring. }
    destruct (Rtotal_order (vz (uvw_d base d q (cross_index a b))) 0) as [H|[H|H]].
    - exists b, a. split; [exact Vb|]. split; [exact Va|]. assert (~ parallel b a) by (unfold parallel in *; intros (P & P' & P''); apply Hab; lia).
      split; [assumption|]. cbv zeta. split; [|apply G; auto].
      rewrite uvw_d_cross in H |- * by assumption. cbv zeta in *. cbn [vz] in *. unfold cross3 in *. cbn [vz vx vy] in *. lra.
    - exfalso. destruct (G a b Va Vb Hab Oa Ob) as (X & Y). cbv zeta in X, Y. rewrite H, Rmult_0_r in X, Y.
      (* the zero vector *)
      pose proof (uvw_d_length base d q (cross_index a b) Hq) as L. unfold dot3 at 1 in L. rewrite X, Y, H in L. cbv zeta in L.
      set (t := lattice_direction base _ _ _) in L. assert (T : vx t = 0 /\ vy t = 0 /\ vz t = 0) by (unfold dot3 in L; nra).
      assert (N : ~ null (cross_index a b)) by (intros N; apply Hab; now apply cross_null).
      destruct T as (T1 & T2 & T3). destruct (recbase_reciprocal base a V) as (A1 & A2 & A3). 
      clear - T1 T2 T3 N V. set (u := cross_index a b) in *. clearbody u.
      unfold t, lattice_direction in *. cbn [vx vy vz] in *. apply N. unfold proper_lattice, dot3, cross3 in V. cbn [vx vy vz] in V.
      destruct base as [[b0 b1 b2] [b3 b4 b5] [b6 b7 b8]]. cbn [r0 r1 r2 vx vy vz] in *.
      set (D := b0 * (b4 * b8 - b5 * b7) + b1 * (b5 * b6 - b3 * b8) + b2 * (b3 * b7 - b4 * b6)) in *.
      assert (U1 : IZR (i1 u) * D = 0).
      { transitivity ((IZR (i1 u) * b0 + IZR (i2 u) * b3 + IZR (i3 u) * b6) * (b4 * b8 - b5 * b7) + (IZR (i1 u) * b1 + IZR (i2 u) * b4 + IZR (i3 u) * b7) * (b5 * b6 - b3 * b8) + (IZR (i1 u) * b2 + IZR (i2 u) * b5 + IZR (i3 u) * b8) * (b3 * b7 - b4 * b6)); [unfold D; ring|rewrite T1, T2, T3; ring]. }
      assert (U2 : IZR (i2 u) * D = 0).
      { transitivity ((IZR (i1 u) * b0 + IZR (i2 u) * b3 + IZR (i3 u) * b6) * (b7 * b2 - b8 * b1) + (IZR (i1 u) * b1 + IZR (i2 u) * b4 + IZR (i3 u) * b7) * (b8 * b0 - b6 * b2) + (IZR (i1 u) * b2 + IZR (i2 u) * b5 + IZR (i3 u) * b8) * (b6 * b1 - b7 * b0)); [unfold D; ring|rewrite T1, T2, T3; ring]. }
      assert (U3 : IZR (i3 u) * D = 0).
      { transitivity ((IZR (i1 u) * b0 + IZR (i2 u) * b3 + IZR (i3 u) * b6) * (b1 * b5 - b2 * b4) + (IZR (i1 u) * b1 + IZR (i2 u) * b4 + IZR (i3 u) * b7) * (b2 * b3 - b0 * b5) + (IZR (i1 u) * b2 + IZR (i2 u) * b5 + IZR (i3 u) * b8) * (b0 * b4 - b1 * b3)); [unfold D; ring|rewrite T1, T2, T3; ring]. }
      apply Rmult_integral in U1, U2, U3. destruct u as [u1 u2 u3]. cbn [i1 i2 i3] in *. unfold null.
      f_equal; apply eq_IZR; tauto.
    - exists a, b. split; [exact Va|]. split; [exact Vb|]. split; [exact Hab|]. cbv zeta. split; [exact H|apply G; auto]. }
  clear a b Ha Hb Ta Tb Hab Oa Ob Va Vb. destruct D as (a & b & Va & Vb & Hab & Z & X & Y). cbv zeta in Z, X, Y.
  assert (N : ~ null (cross_index a b)) by (intros N; apply Hab; now apply cross_null).
  destruct (reduce_spec reduce _ K N) as (_ & k & Hk & Ek). set (u := reduce (cross_index a b)) in *.
  rewrite Ek, uvw_scale in Z, X, Y. cbv zeta in Z, X, Y. cbn [vx vy vz] in Z, X, Y.
  assert (Kp : 0 < IZR k) by now apply (IZR_lt 0).
  assert (Z' : 0 < vz (uvw_d base d q u)) by nra.
  assert (X' : x = vx (uvw_d base d q u) / vz (uvw_d base d q u)).
  { apply Rmult_eq_reg_r with (IZR k * vz (uvw_d base d q u)); [|nra]. rewrite <- X. field. lra. }
  assert (Y' : y = vy (uvw_d base d q u) / vz (uvw_d base d q u)).
  { apply Rmult_eq_reg_r with (IZR k * vz (uvw_d base d q u)); [|nra]. rewrite <- Y. field. lra. }
  assert (ZA : zone_axis r (uvw_d base d q u) = Some (x, y)).
  { unfold zone_axis. destruct (Req_EM_T _ 0); [lra|]. rewrite <- X', <- Y'. 
    rewrite (proj2 (rltb_spec _ r)); [rewrite (proj2 (rltb_spec _ _)) by lra; reflexivity|].
    replace (x ^ 2 + y ^ 2) with (x * x + y * y) by ring. now apply in_circle. }
  assert (Hu : In u (zones s)).
  { apply (zones_in _ _ _ _ _ _ _ Hs). split.
    - apply in_map, cross_products_in. split; [exact N|]. exists a, b. auto.
    - split; [exists q; auto|]. exists q, p. split; [exact Hv|]. split; [lra|]. unfold direction_xy. rewrite <- X', <- Y'. now apply within_near. }
  unfold zone_axes_coordinates. rewrite E1, E2. eexists _, _. split; [reflexivity|]. split; [reflexivity|]. split.
  - apply exclude_nan_in, in_map_iff. exists u. auto.
  - apply exclude_nan_in, in_map_iff. exists u. split; [|exact Hu]. rewrite ZA. cbn [zone_axis_pixels]. apply within_near in W; [|assumption..]. now rewrite W.
Qed.
Print Assumptions C66_crossings_are_shown.

(** With one pattern, the zone axes in pixels are those in gnomonic coordinates. *)
Theorem C66_one_pattern reduce base refl d s q p :
  on_detector reduce base refl d [1%nat] [q] = Some s -> usable d -> pc_of d 0 p ->
  exists gn, zone_axes_coordinates s 0 Gnomonic = Some gn /\ zone_axes_coordinates s 0 InPixels = Some (map (pixel d p) gn).
Proof.
  intros Hs Hd Hp. destruct (radius_exists d Hd) as (r & Hr).
  destruct (zones_at _ _ _ _ _ _ _ Hs Hd eq_refl r 0%nat q Hr eq_refl) as (p' & Hp' & Hin & Hv & E1 & E2).
  assert (p' = p) by (unfold pc_of in *; congruence). subst p'.
  unfold zone_axes_coordinates. rewrite E1, E2. eexists. split; [reflexivity|]. cbn [option_map]. f_equal.
  rewrite <- exclude_nan_map. f_equal. rewrite map_map. apply map_ext_in. intros u Hu.
  apply (zones_in _ _ _ _ _ _ _ Hs) in Hu. destruct Hu as (_ & _ & q' & p' & Hqp & Hz & W).
  assert (Hqp' : q' = q /\ p' = p).
  { unfold views in Hqp. unfold pc_of in Hp. destruct Hd as (_ & _ & L & _). destruct (on_detector_inv _ _ _ _ _ _ _ Hs) as [N|N]; rewrite N in *;
      simpl in L; destruct (pcs (d_pc d)) as [|p0 [|]]; try discriminate; simpl in Hqp, Hp; destruct Hqp as [Hqp|[]];
      injection Hqp as <- <-; injection Hp as <-; auto. }
  destruct Hqp' as [-> ->]. unfold zone_axis. destruct (Req_EM_T _ 0); [contradiction|]. cbv zeta.
  destruct (_ && _)%bool; [|reflexivity]. cbn [zone_axis_pixels option_map]. unfold direction_xy in W. now rewrite W.
Qed.

(** ** Where this fails, and an example *)

Definition turned : quat := Quat (40/41) 0 0 (9/41).
Definition pair : list index := [Index 1 2 1; Index 1 2 (-1)].
Lemma turned_unit : Forall unit_quaternion [no_rotation; turned].
Proof. repeat constructor; unfold unit_quaternion, turned, no_rotation; cbn [qa qb qc qd]; lra. Qed.
Lemma identity_keeps_direction : keeps_direction (fun u => u).
Proof. intros [a b c] _. exists 1%Z. split; [lia|]. cbn [i1 i2 i3]. f_equal; lia. Qed.
Lemma centre_bounds : x_min (straight centre) centre = -1 /\ x_max (straight centre) centre = 1 /\ y_min (straight centre) centre = -1 /\ y_max (straight centre) centre = 1.
Proof. unfold x_min, x_max, y_min, y_max, aspect_ratio, nrows, ncols, straight, centre. cbn [d_nx d_ny pcx pcy pcz]. repeat split; field. Qed.
Lemma centre_radius : r_max (straight centre) centre * r_max (straight centre) centre = 2.
Proof.
  unfold r_max. destruct centre_bounds as (-> & -> & -> & ->). cbv zeta.
  replace ((-1)^2 + (-1)^2) with 2 by ring. replace (1^2 + (-1)^2) with 2 by ring. replace (1^2 + 1^2) with 2 by ring. rewrite !Rmax_left by lra. apply sqrt_sqrt. lra.
Qed.
Lemma straight_uvw p u : uvw_d cube (straight p) no_rotation u = Vec (IZR (i2 u)) (IZR (i3 u)) (IZR (i1 u)).
Proof.
  rewrite uvw_d_eq, straight_s2d, to_matrix_cube, !row_times_cube.
  unfold times, dot3, row_of. cbn [r0 r1 r2 vx vy vz]. f_equal; ring.
Qed.
Lemma turned_uvw p : uvw_d cube (straight p) turned (Index 4 (-2) 0) = Vec (-5918/1681) 0 (4636/1681).
Proof.
  rewrite uvw_d_eq, straight_s2d, row_times_cube. unfold to_matrix, turned, row_of, row_times, times, dot3. cbn [r0 r1 r2 vx vy vz i1 i2 i3]. f_equal; field.
Qed.

(** With several patterns, the zone axes in gnomonic coordinates include directions outside of the detector in this
    pattern, which are not among those in pixels. *)
Theorem C66_gnomonic_coordinates_of_several_patterns_refuted : exists refl d rots s gn px x y p,
  on_detector (fun u => u) cube refl d [2%nat] rots = Some s /\ usable d /\ length rots = 2%nat /\ Forall unit_quaternion rots /\ pc_of d 1 p /\
  zone_axes_coordinates s 1 Gnomonic = Some gn /\ zone_axes_coordinates s 1 InPixels = Some px /\
  In (x, y) gn /\ ~ near_surface d p x y /\ ~ In (pixel d p (x, y)) px.
Proof.
  destruct (on_detector (fun u => u) cube pair (straight centre) [2%nat] [no_rotation; turned]) as [s|] eqn:E.
  2:{ apply C65_refused_shapes in E. destruct E as [E _]. now contradiction E. }
  assert (U : usable (straight centre)) by (apply straight_usable; unfold centre; cbn; lra).
  assert (Rp : 0 < r_max (straight centre) centre) by (apply r_max_pos; [apply U|unfold centre; cbn; lra]).
  destruct (C66_zone_axes_are_crossings (fun u => u) cube pair (straight centre) [2%nat] [no_rotation; turned] s _ 1 turned centre E U cube_proper turned_unit identity_keeps_direction eq_refl (straight_radius centre) eq_refl eq_refl ltac:(reflexivity) ltac:(reflexivity))
    as (gn & px & Eg & Ep & _ & Hpx).
  set (x := -5918/4636).
  assert (Far : ~ near_surface (straight centre) centre x 0).
  { unfold near_surface. destruct centre_bounds as (-> & -> & -> & ->). unfold nrows, ncols, straight, x. cbn [d_nx d_ny]. intros [H _]. lra. }
  exists pair, (straight centre), [no_rotation; turned], s, gn, px, x, 0, centre.
  split; [exact E || reflexivity|]. split; [exact U|]. split; [reflexivity|]. split; [exact turned_unit|]. split; [reflexivity|]. split; [exact Eg|]. split; [exact Ep|]. split; [|split; [exact Far|]].
  - destruct (zones_at _ _ _ _ _ _ _ E U eq_refl _ 1%nat turned (straight_radius centre) eq_refl) as (p & Hp & _ & _ & E1 & _).
    unfold zone_axes_coordinates in Eg. rewrite E1 in Eg. apply some_inj in Eg. subst gn. apply exclude_nan_in, in_map_iff.
    exists (Index 4 (-2) 0). split.
    + rewrite turned_uvw. unfold zone_axis. cbn [vx vy vz]. destruct (Req_EM_T _ 0); [lra|].
      replace (-5918 / 1681 / (4636 / 1681)) with x by (unfold x; field). replace (0 / (4636 / 1681)) with 0 by (field; lra).
      rewrite (proj2 (rltb_spec _ _)); [rewrite (proj2 (rltb_spec _ _)) by lra; reflexivity|].
      replace (x ^ 2 + 0 ^ 2) with (x * x + 0 * 0) by ring. apply in_circle; [exact Rp|]. rewrite centre_radius. unfold x. lra.
    + apply (zones_in _ _ _ _ _ _ _ E). 
      assert (Vis : forall g, In g pair -> In g (visible s)).
      { intros g Hg. apply (visible_in _ _ _ _ _ _ _ E). split; [exact Hg|]. exists no_rotation. split; [simpl; auto|]. rewrite straight_hkl. cbn [vz].
        destruct Hg as [<-|[<-|[]]]; cbn [i1]; lra. }
      split.
      * apply in_map_iff. exists (Index 4 (-2) 0). split; [reflexivity|]. apply cross_products_in. split; [discriminate|].
        exists (Index 1 2 (-1)), (Index 1 2 1). split; [apply Vis; simpl; auto|]. split; [apply Vis; simpl; auto|reflexivity].
      * split; [exists no_rotation; split; [simpl; auto|]; rewrite straight_uvw; cbn [vz i1]; lra|].
        exists no_rotation, centre. split; [simpl; auto|]. rewrite straight_uvw. cbn [vz i1 i2 i3]. split; [lra|].
        unfold direction_xy. cbn [vx vy vz]. apply within_near; [reflexivity..|]. unfold near_surface. destruct centre_bounds as (-> & -> & -> & ->).
        unfold nrows, ncols, straight. cbn [d_nx d_ny]. lra.
  - intros H. apply Hpx in H. destruct H as (x' & y' & _ & W & Eq). apply Far.
    (* pixel coordinates are one to one *)
    destruct (x_scale_pos (straight centre) centre (proj1 U)) as [Sx Sy]; [unfold centre; cbn; lra|].
    unfold pixel in Eq. cbn [fst snd] in Eq. assert (A := f_equal fst Eq). assert (B := f_equal snd Eq). cbn [fst snd] in A, B.
    apply Rmult_eq_reg_r in A; [|apply Rinv_neq_0_compat; lra]. apply Rmult_eq_reg_r in B; [|apply Rinv_neq_0_compat; lra].
    replace x with x' by lra. replace 0 with y' by lra. exact W.
Qed.

(** All hypotheses of the theorems on zone axes hold for (1 2 1), (1 2 -1) and the zone axis at (-1/2, 0). *)
Example zone_axis_example : let d := straight centre in exists s,
  on_detector (fun u => u) cube pair d [1%nat] [no_rotation] = Some s /\ usable d /\ proper_lattice cube /\ Forall unit_quaternion [no_rotation] /\
  keeps_direction (fun u => u) /\ pc_of d 0 centre /\ (1 < d_nx d)%Z /\ (1 < d_ny d)%Z /\
  towards cube d no_rotation (Index 1 2 1) /\ towards cube d no_rotation (Index 1 2 (-1)) /\ ~ parallel (Index 1 2 1) (Index 1 2 (-1)) /\
  on_trace cube d no_rotation 1 2 1 (-1/2) 0 /\ on_trace cube d no_rotation 1 2 (-1) (-1/2) 0 /\ near_surface d centre (-1/2) 0.
Proof.
  cbv zeta. destruct (on_detector (fun u => u) cube pair (straight centre) [1%nat] [no_rotation]) as [s|] eqn:E.
  2:{ apply C65_refused_shapes in E. destruct E as [E _]. now contradiction E. }
  exists s. assert (U : usable (straight centre)) by (apply straight_usable; unfold centre; cbn; lra).
  split; [exact E || reflexivity|]. split; [exact U|]. split; [exact cube_proper|]. split; [constructor; [apply (Forall_inv turned_unit)|constructor]|].
  split; [exact identity_keeps_direction|]. split; [reflexivity|]. split; [reflexivity|]. split; [reflexivity|].
  split; [apply towards_iff; [exact cube_proper|]; rewrite straight_hkl; cbn [vz i1]; lra|].
  split; [apply towards_iff; [exact cube_proper|]; rewrite straight_hkl; cbn [vz i1]; lra|].
  split; [unfold parallel; cbn [i1 i2 i3]; lia|].
  split; [apply (on_trace_iff cube _ _ (Index 1 2 1)); [exact cube_proper|]; rewrite straight_hkl; cbn [vx vy vz i1 i2 i3]; lra|].
  split; [apply (on_trace_iff cube _ _ (Index 1 2 (-1))); [exact cube_proper|]; rewrite straight_hkl; cbn [vx vy vz i1 i2 i3]; lra|].
  unfold near_surface. destruct centre_bounds as (-> & -> & -> & ->). unfold nrows, ncols, straight. cbn [d_nx d_ny]. lra.
Qed.

(** ** C67: the interactive detector plot *)

Lemma cos_arctan2 v : rho v <> 0 -> cos (arctan2 (vy v) (vx v)) = vx v / rho v /\ sin (arctan2 (vy v) (vx v)) = vy v / rho v.
Proof.
  intros Hr. destruct (cos_azimuth v Hr) as [C S]. unfold arctan2, azimuth in *. fold (rho v).
  destruct (Rle_dec 0 (vy v)); [auto|]. split.
  - rewrite cos_minus, cos_2PI, sin_2PI in C. rewrite cos_neg. lra.
  - rewrite sin_minus, cos_2PI, sin_2PI in S. rewrite sin_neg. lra.
Qed.
Lemma band_eq r v : 0 < r -> band r v =
  if Rlt_dec (vz v) 0 then [] else if Req_EM_T (rho v) 0 then [] else if rltb (Rabs (vz v / rho v)) r then [chord r v] else [].
Proof.
  intros Hr. unfold band. destruct (Rlt_dec (vz v) 0); [reflexivity|]. fold (rho v). cbv zeta.
  destruct (Req_EM_T (rho v) 0) as [|Hrho]; [reflexivity|]. unfold rltb. 
  destruct (Rle_dec r (Rabs (vz v / rho v))), (Rlt_dec (Rabs (vz v / rho v)) r); try lra; [reflexivity|]. f_equal.
  destruct (cos_arctan2 v Hrho). now apply ends_eq.
Qed.
Lemma band_line r v : 0 < r -> 0 < vz v -> band r v = exclude_nan [line r v].
Proof.
  intros Hr Hz. rewrite band_eq, line_eq by exact Hr. destruct (Rlt_dec (vz v) 0); [lra|]. destruct (Req_EM_T (rho v) 0); [reflexivity|].
  rewrite (proj2 (rltb_spec (-1/100000) _)) by lra. rewrite andb_true_r. destruct (rltb _ r); reflexivity.
Qed.

Definition conversion (d : detector) (p : pc3) (c : coordinates) (x : point) : point :=
  match c with InPixels => pixel d p x | Gnomonic => x end.
Definition convert (d : detector) (p : pc3) (c : coordinates) (s : segment) : segment := (conversion d p c (fst s), conversion d p c (snd s)).

Section OnePattern.
Context (reduce : index -> index) (base : mat) (refl : list index) (d : detector) (p : pc3) (q : quat) (s : simulation).
Context (Hsim : on_detector reduce base refl d [1%nat] [q] = Some s) (Hd : usable d) (Hp : pc_of d 0 p).

Lemma one_pc : pcs (d_pc d) = [p] /\ radius d (r_max d p).
Proof using Hd Hp Hsim.
  assert (E : pcs (d_pc d) = [p]).
  { unfold pc_of in Hp. destruct Hd as (_ & _ & L & _). destruct (on_detector_inv _ _ _ _ _ _ _ Hsim) as [N|N]; rewrite N in L;
      simpl in L; destruct (pcs (d_pc d)) as [|p0 [|]]; try discriminate; simpl in Hp; congruence. }
  split; [exact E|]. unfold radius. rewrite E. split; [exists p; simpl; auto|]. intros p' [<-|[]]. lra.
Qed.
Lemma one_lines c : lines_coordinates s 0 c
  = Some (map (convert d p c) (exclude_nan (map (fun h => line (r_max d p) (hkl_d base d q h)) (visible s)))).
Proof using Hd Hp Hsim.
  destruct one_pc as (Ep & Hr). destruct (lines_at _ _ _ _ _ _ _ Hsim Hd eq_refl _ 0%nat q Hr eq_refl) as (p' & Hp' & Hin & E1 & E2).
  assert (p' = p) by (unfold pc_of in *; congruence). subst p'. unfold lines_coordinates. destruct c.
  - rewrite E2. cbn [option_map]. f_equal. rewrite <- exclude_nan_map, map_map. reflexivity.
  - rewrite E1. cbn [option_map]. f_equal. rewrite (map_ext (convert d p Gnomonic) (fun x => x)); [now rewrite map_id|]. now intros [].
Qed.
End OnePattern.

(** The lines of the interactive plot are those of the simulation on the detector, if no trace passes exactly
    through the PC. *)
Theorem C67_lines_agree reduce base refl d p q s c :
  on_detector reduce base refl d [1%nat] [q] = Some s -> usable d -> proper_lattice base -> pc_of d 0 p ->
  (forall h, In h refl -> ~ on_trace base d q (IZR (i1 h)) (IZR (i2 h)) (IZR (i3 h)) 0 0) ->
  lines_coordinates s 0 c = Some (fst (geometrical_simulation base refl d p q c)).
Proof.
  intros Hs Hd V Hp N. rewrite (one_lines reduce base refl d p q s Hs Hd Hp c). f_equal.
  assert (Rp : 0 < r_max d p).
  { apply r_max_pos; [apply Hd|]. destruct Hd as (_ & F & _). rewrite Forall_forall in F. apply F. unfold pc_of in Hp. now apply nth_error_In in Hp. }
  assert (E : exclude_nan (map (fun h => line (r_max d p) (hkl_d base d q h)) (visible s)) = flat_map (fun h => band (r_max d p) (hkl_d base d q h)) refl).
  { rewrite (visible_eq _ _ _ _ _ _ _ Hs). clear - N Rp V. induction refl as [|h l IH]; [reflexivity|].
    cbn [filter flat_map existsb]. rewrite orb_false_r. rewrite <- IH by (intros; apply N; simpl; auto). clear IH.
    specialize (N h (or_introl eq_refl)). rewrite on_trace_iff, !Rmult_0_r, !Rplus_0_l in N by exact V.
    destruct (rltb 0 (vz (hkl_d base d q h))) eqn:Z.
    - apply rltb_spec in Z. rewrite (band_line _ _ Rp Z). cbn [map]. unfold exclude_nan. cbn [flat_map]. now rewrite app_nil_r.
    - assert (Z' : vz (hkl_d base d q h) < 0).
      { unfold rltb in Z. destruct (Rlt_dec 0 (vz (hkl_d base d q h))); [discriminate|lra]. }
      rewrite band_eq by exact Rp. destruct (Rlt_dec _ 0); [reflexivity|contradiction]. }
  rewrite E. unfold geometrical_simulation. destruct c; cbn [fst]; [reflexivity|].
  rewrite (map_ext (convert d p Gnomonic) (fun x => x)); [now rewrite map_id|]. now intros [].
Qed.
(** Unlike the simulation (C65), the interactive plot also draws traces through the PC. *)
Theorem C67_all_traces_are_drawn base refl d p q h : 
  valid d -> 0 < pcz p -> proper_lattice base -> (forall g, In g refl -> In (opposite g) refl) -> In h refl ->
  ~ null h -> crosses base d q (r_max d p) h -> unit_quaternion q ->
  exists seg, In seg (fst (geometrical_simulation base refl d p q Gnomonic)) /\ shows base d q (r_max d p) h seg.
Proof.
  intros Hd Hz V Ho Hh Hn Hc Hq. assert (Rp : 0 < r_max d p) by now apply r_max_pos.
  assert (G : forall g, In g refl -> ~ null g -> 0 <= vz (hkl_d base d q g) -> crosses base d q (r_max d p) g ->
    exists seg, In seg (fst (geometrical_simulation base refl d p q Gnomonic)) /\ shows base d q (r_max d p) g seg).
  { intros g Hg Gn Z (x & y & T & D). apply on_trace_iff in T; [|exact V].
    assert (Hrho : rho (hkl_d base d q g) <> 0).
    { intros R0. pose proof (rho_sq (hkl_d base d q g)) as S. rewrite R0 in S. assert (X : vx (hkl_d base d q g) = 0) by nra. assert (Y : vy (hkl_d base d q g) = 0) by nra.
      rewrite X, Y in T. assert (Z0 : vz (hkl_d base d q g) = 0) by lra. apply Gn. clear - X Y Z0 V Hq.
      assert (L : forall u, IZR (i1 g) * IZR (i1 u) + IZR (i2 g) * IZR (i2 u) + IZR (i3 g) * IZR (i3 u) = 0).
      { intros u. rewrite <- (zone_law base d q g u V Hq). unfold dot3. rewrite X, Y, Z0. ring. }
      pose proof (L (Index 1 0 0)) as L1. pose proof (L (Index 0 1 0)) as L2. pose proof (L (Index 0 0 1)) as L3. cbn [i1 i2 i3] in L1, L2, L3.
      destruct g as [g1 g2 g3]. cbn [i1 i2 i3] in *. unfold null. f_equal; apply eq_IZR; lra. }
    exists (chord (r_max d p) (hkl_d base d q g)). assert (Hin := meets_disc _ _ _ _ Hrho Rp T D). split.
    - cbn [geometrical_simulation fst]. apply in_flat_map. exists g. split; [exact Hg|]. rewrite band_eq by exact Rp.
      destruct (Rlt_dec _ 0); [lra|]. destruct (Req_EM_T _ 0); [contradiction|]. rewrite (proj2 (rltb_spec _ _) Hin). simpl. auto.
    - pose proof (chord_cut _ _ Rp Hrho Hin) as C. destruct (chord _ _) as [[x1 y1] [x2 y2]]. cbn [cut shows] in *. destruct C as (A & B & C).
      split; [exact A|]. split; [exact B|]. intros. rewrite on_trace_iff by exact V. apply C. }
  destruct (Rle_dec 0 (vz (hkl_d base d q h))) as [Z|Z]; [now apply G|].
  destruct (G (opposite h)) as (seg & A & B); auto.
  - intros N. apply Hn. destruct h as [a b c]. unfold null, opposite in *. cbn [i1 i2 i3] in *. injection N as N1 N2 N3. f_equal; lia.
  - rewrite hkl_d_opposite. cbn [vz]. lra.
  - destruct Hc as (x & y & T & D). exists x, y. split; [|exact D]. now apply on_trace_opposite.
  - exists seg. split; [exact A|]. now apply shows_opposite.
Qed.

Lemma cross_opposite a b : cross_index (opposite a) b = opposite (cross_index a b) /\ cross_index a (opposite b) = opposite (cross_index a b) /\ cross_index b a = opposite (cross_index a b).
Proof. unfold cross_index, opposite. cbn [i1 i2 i3]. repeat split; f_equal; ring. Qed.
Lemma opposite_involutive h : opposite (opposite h) = h.
Proof. destruct h as [a b c]. unfold opposite. cbn [i1 i2 i3]. f_equal; ring. Qed.
Lemma null_opposite h : null (opposite h) <-> null h.
Proof. destruct h as [a b c]. unfold null, opposite. cbn [i1 i2 i3]. split; intros H; injection H as A B C; f_equal; lia. Qed.

Lemma zone_in r v x y : 0 < r -> In (x, y) (zone r v) <-> 0 < vz v /\ x = vx v / vz v /\ y = vy v / vz v /\ x * x + y * y < r * r.
Proof.
  intros Hr. unfold zone. destruct (Rle_dec (vz v) 0); [split; [contradiction|lra]|]. cbv zeta.
  set (a := vx v / vz v). set (b := vy v / vz v). rewrite <- (in_circle x y r Hr).
  destruct (Rle_dec r (sqrt (a * a + b * b))) as [L|L]; split.
  - contradiction.
  - intros (_ & -> & -> & H). lra.
  - intros [H|[]]. injection H as <- <-. repeat split; lra.
  - intros (_ & -> & -> & _). simpl. auto.
Qed.

(** The zone axes are at the same positions, if in addition (-h -k -l) is given for every (hkl). *)
Theorem C67_zone_axes_agree reduce base refl d p q s c x :
  on_detector reduce base refl d [1%nat] [q] = Some s -> usable d -> proper_lattice base -> unit_quaternion q -> keeps_direction reduce -> pc_of d 0 p ->
  (forall g, In g refl -> In (opposite g) refl) ->
  (forall h, In h refl -> ~ on_trace base d q (IZR (i1 h)) (IZR (i2 h)) (IZR (i3 h)) 0 0) ->
  (exists zs, zone_axes_coordinates s 0 c = Some zs /\ In x zs) <-> In x (snd (geometrical_simulation base refl d p q c)).
Proof.
  intros Hs Hd V Hq K Hp Ho N. destruct (one_pc reduce base refl d p q s Hs Hd Hp) as (Ep & Hr).
  assert (Rp : 0 < r_max d p) by now apply radius_pos with d.
  destruct (zones_at _ _ _ _ _ _ _ Hs Hd eq_refl _ 0%nat q Hr eq_refl) as (p' & Hp' & Hin & Hv & E1 & E2).
  assert (p' = p) by (unfold pc_of in *; congruence). subst p'.
  assert (Vw : forall q' p', In (q', p') (views d [q]) -> q' = q /\ p' = p).
  { intros q' p' H. unfold views in H. rewrite Ep in H. destruct (nav_shape (d_pc d)) as [|[|[|n]] [|m l]]; simpl in H; destruct H as [H|[]]; injection H as <- <-; auto. }
  assert (Vis : forall g, In g (visible s) <-> In g refl /\ 0 < vz (hkl_d base d q g)).
  { intros g. rewrite (visible_in _ _ _ _ _ _ _ Hs). split.
    - intros (A & q' & [<-|[]] & B). auto.
    - intros (A & B). split; [exact A|]. exists q. split; [now left|exact B]. }
  (* zone axes of the simulation, in gnomonic coordinates *)
  assert (L : forall a b, In (a, b) (exclude_nan (map (fun u => zone_axis (r_max d p) (uvw_d base d q u)) (zones s))) <->
    exists u, ~ null u /\ (exists g h, In g refl /\ In h refl /\ u = cross_index g h) /\ In (a, b) (zone (r_max d p) (uvw_d base d q u)) /\ within_bounds d p (a, b) = true).
  { intros a b. rewrite exclude_nan_in, in_map_iff. split.
    - intros (u & Z & Hu). apply zone_axis_some in Z. destruct Z as (Z & X & Y & C & _).
      apply (zones_in _ _ _ _ _ _ _ Hs) in Hu. destruct Hu as (Hu & ((q' & Q & Zp) & q'' & p'' & Q2 & _ & W)).
      destruct Q as [<-|[]]. apply Vw in Q2. destruct Q2 as [-> ->].
      apply in_map_iff in Hu. destruct Hu as (c' & Ec & Hc). apply cross_products_in in Hc. destruct Hc as (Nn & g & h & Hg & Hh & E).
      destruct (reduce_spec reduce _ K Nn) as (_ & k & Hk & Ek). rewrite Ec in Ek. assert (Kp : 0 < IZR k) by now apply (IZR_lt 0).
      apply (in_circle _ _ _ Rp) in C.
      exists c'. split; [exact Nn|]. split; [exists g, h; apply Vis in Hg, Hh; tauto|]. rewrite zone_in by exact Rp.
      rewrite Ek, uvw_scale. cbv zeta. cbn [vx vy vz]. split; [|unfold direction_xy in W; rewrite <- X, <- Y in W; exact W].
      split; [nra|]. rewrite X, Y. split; [field; lra|]. split; [field; lra|]. rewrite <- X, <- Y. exact C.
    - intros (u & Nn & (g & h & Hg & Hh & E) & Z & W). apply zone_in in Z; [|exact Rp]. destruct Z as (Z & X & Y & C).
      destruct (reduce_spec reduce _ K Nn) as (_ & k & Hk & Ek). assert (Kp : 0 < IZR k) by now apply (IZR_lt 0).
      pose proof Z as Z0. pose proof X as X0. pose proof Y as Y0. rewrite Ek, uvw_scale in Z, X, Y. cbv zeta in Z, X, Y. cbn [vx vy vz] in Z, X, Y.
      set (w := reduce u) in *. assert (Zw : 0 < vz (uvw_d base d q w)) by nra.
      assert (Xw : a = vx (uvw_d base d q w) / vz (uvw_d base d q w)) by (rewrite X; field; lra).
      assert (Yw : b = vy (uvw_d base d q w) / vz (uvw_d base d q w)) by (rewrite Y; field; lra).
      exists w. split.
      + unfold zone_axis. destruct (Req_EM_T _ 0); [lra|]. cbv zeta. rewrite <- Xw, <- Yw. rewrite (proj2 (rltb_spec _ (r_max d p))); [rewrite (proj2 (rltb_spec _ _)) by lra; reflexivity|].
        replace (a ^ 2 + b ^ 2) with (a * a + b * b) by ring. now apply in_circle.
      + apply (zones_in _ _ _ _ _ _ _ Hs). split.
        * apply in_map, cross_products_in. split; [exact Nn|].
          assert (S : forall f, In f refl -> exists f', (f' = f \/ f' = opposite f) /\ In f' (visible s)).
          { intros f Hf. pose proof (N f Hf) as Nf. rewrite on_trace_iff, !Rmult_0_r, !Rplus_0_l in Nf by exact V.
            destruct (Rlt_dec 0 (vz (hkl_d base d q f))).
            - exists f. split; [auto|]. now apply Vis.
            - exists (opposite f). split; [auto|]. apply Vis. split; [now apply Ho|]. rewrite hkl_d_opposite. cbn [vz]. lra. }
          destruct (S g Hg) as (g' & Eg & Vg), (S h Hh) as (h' & Eh & Vh). destruct (cross_opposite g h) as (C1 & C2 & C3).
          destruct Eg as [-> | ->], Eh as [-> | ->].
          -- exists g, h. auto.
          -- exists (opposite h), g. split; [exact Vh|]. split; [exact Vg|]. destruct (cross_opposite h g) as (C4 & _). rewrite C4, C3, opposite_involutive. exact E.
          -- exists h, (opposite g). split; [exact Vh|]. split; [exact Vg|]. destruct (cross_opposite h g) as (_ & C4 & _). rewrite C4, C3, opposite_involutive. exact E.
          -- exists (opposite g), (opposite h). split; [exact Vg|]. split; [exact Vh|]. destruct (cross_opposite g (opposite h)) as (C4 & _). rewrite C4, C2, opposite_involutive. exact E.
        * split; [exists q; split; [simpl; auto|exact Zw]|]. exists q, p. split; [exact Hv|]. split; [lra|]. unfold direction_xy. now rewrite <- Xw, <- Yw. }
  assert (M : forall a b, In (a, b) (filter (within_bounds d p) (flat_map (fun u => zone (r_max d p) (uvw_d base d q u)) (zone_axes_from_hkl refl))) <->
    exists u, ~ null u /\ (exists g h, In g refl /\ In h refl /\ u = cross_index g h) /\ In (a, b) (zone (r_max d p) (uvw_d base d q u)) /\ within_bounds d p (a, b) = true).
  { intros a b. rewrite filter_In, in_flat_map. unfold zone_axes_from_hkl. split.
    - intros ((u & Hu & Z) & W). apply unique_in, cross_products_in in Hu. exists u. tauto.
    - intros (u & A & B & Z & W). split; [|exact W]. exists u. split; [|exact Z]. apply unique_in, cross_products_in. tauto. }
  destruct (C66_one_pattern reduce base refl d s q p Hs Hd Hp) as (gn & G1 & G2).
  assert (Egn : gn = exclude_nan (map (fun u => zone_axis (r_max d p) (uvw_d base d q u)) (zones s))).
  { unfold zone_axes_coordinates in G1. rewrite E1 in G1. now apply some_inj in G1. }
  assert (T : forall pt, In pt gn <-> In pt (filter (within_bounds d p) (flat_map (fun u => zone (r_max d p) (uvw_d base d q u)) (zone_axes_from_hkl refl)))).
  { intros [a b]. rewrite Egn, L, M. reflexivity. }
  unfold geometrical_simulation. destruct c; cbn [snd].
  - rewrite G2. rewrite in_map_iff. split.
    + intros (zs & Z & H). apply some_inj in Z. subst zs. apply in_map_iff in H. destruct H as (pt & E & H). exists pt. split; [exact E|]. now apply T.
    + intros (pt & E & H). eexists. split; [reflexivity|]. apply in_map_iff. exists pt. split; [exact E|]. now apply T.
  - rewrite G1. split.
    + intros (zs & Z & H). apply some_inj in Z. subst zs. now apply T.
    + intros H. exists gn. split; [reflexivity|]. now apply T.
Qed.

(** The hypotheses hold for the planes of the example and their opposites. *)
Example plot_example : let d := straight centre in let refl := pair ++ map opposite pair in exists s,
  on_detector (fun u => u) cube refl d [1%nat] [no_rotation] = Some s /\ usable d /\ proper_lattice cube /\ unit_quaternion no_rotation /\ pc_of d 0 centre /\
  (forall g, In g refl -> In (opposite g) refl) /\
  (forall h, In h refl -> ~ on_trace cube d no_rotation (IZR (i1 h)) (IZR (i2 h)) (IZR (i3 h)) 0 0) /\
  crosses cube d no_rotation (r_max d centre) (Index 1 2 1).
Proof.
  cbv zeta. destruct (on_detector (fun u => u) cube (pair ++ map opposite pair) (straight centre) [1%nat] [no_rotation]) as [s|] eqn:E.
  2:{ apply C65_refused_shapes in E. destruct E as [E _]. now contradiction E. }
  exists s. assert (U : usable (straight centre)) by (apply straight_usable; unfold centre; cbn; lra).
  split; [exact E || reflexivity|]. split; [exact U|]. split; [exact cube_proper|]. split; [apply (Forall_inv turned_unit)|]. split; [reflexivity|]. split.
  { intros g Hg. repeat (destruct Hg as [<-|Hg]; [simpl; auto|]). contradiction. }
  split.
  { intros h Hh T. apply on_trace_iff in T; [|exact cube_proper]. rewrite straight_hkl, !Rmult_0_r, !Rplus_0_l in T. cbn [vz] in T.
    repeat (destruct Hh as [<-|Hh]; [cbn in T; lra|]). contradiction. }
  exists (-1/2), 0. rewrite centre_radius. split; [|lra]. apply on_trace_iff; [exact cube_proper|]. rewrite straight_hkl. cbn [vx vy vz i1 i2 i3]. lra.
Qed.
Print Assumptions C67_lines_agree.
