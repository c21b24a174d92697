From Coq Require Import ZArith Reals List Lra Lia Psatz Nsatz.
From Verif Require Import Spec.Rotation Model.Detector.
Import ListNotations.
Open Scope R_scope.

Definition dot (a b : vec) : R := vx a * vx b + vy a * vy b + vz a * vz b.
Definition triple (a b c : vec) : R :=
  vx a * (vy b * vz c - vz b * vy c) - vy a * (vx b * vz c - vz b * vx c)
  + vz a * (vx b * vy c - vy b * vx c).

Definition orthonormal (m : mat) : Prop :=
  dot (r0 m) (r0 m) = 1 /\ dot (r1 m) (r1 m) = 1 /\ dot (r2 m) (r2 m) = 1 /\
  dot (r0 m) (r1 m) = 0 /\ dot (r0 m) (r2 m) = 0 /\ dot (r1 m) (r2 m) = 0 /\
  triple (r0 m) (r1 m) (r2 m) = 1.

Lemma cs angle : cos angle * cos angle + sin angle * sin angle = 1.
Proof. pose proof (sin2_cos2 angle) as H. unfold Rsqr in H. lra. Qed.

Lemma rodrigues_dot u angle a b :
  dot u u = 1 -> dot (rodrigues u angle a) (rodrigues u angle b) = dot a b.
Proof.
  destruct u as [u1 u2 u3], a as [a1 a2 a3], b as [b1 b2 b3].
  unfold dot, rodrigues; cbn [vx vy vz]. pose proof (cs angle) as H.
  generalize dependent (cos angle). generalize (sin angle). intros s c H Hu.
  nsatz.
Qed.

Lemma rodrigues_triple u angle a b e :
  dot u u = 1 ->
  triple (rodrigues u angle a) (rodrigues u angle b) (rodrigues u angle e) = triple a b e.
Proof.
  destruct u as [u1 u2 u3], a as [a1 a2 a3], b as [b1 b2 b3], e as [e1 e2 e3].
  unfold dot, triple, rodrigues; cbn [vx vy vz]. pose proof (cs angle) as H.
  generalize dependent (cos angle). generalize (sin angle). intros s c H Hu.
  (* the rotation matrix R and det(M R^T) = det M det R *)
  pose (q := 1 - c).
  pose (m11 := c + u1*u1*q). pose (m12 := u1*u2*q - u3*s). pose (m13 := u1*u3*q + u2*s).
  pose (m21 := u2*u1*q + u3*s). pose (m22 := c + u2*u2*q). pose (m23 := u2*u3*q - u1*s).
  pose (m31 := u3*u1*q - u2*s). pose (m32 := u3*u2*q + u1*s). pose (m33 := c + u3*u3*q).
  assert (D : m11 * (m22*m33 - m23*m32) - m12 * (m21*m33 - m23*m31) + m13 * (m21*m32 - m22*m31) = 1).
  { unfold m11, m12, m13, m21, m22, m23, m31, m32, m33, q. clear - H Hu. nsatz. }
  transitivity ((m11 * (m22*m33 - m23*m32) - m12 * (m21*m33 - m23*m31) + m13 * (m21*m32 - m22*m31)) *
     (a1 * (b2 * e3 - b3 * e2) - a2 * (b1 * e3 - b3 * e1) + a3 * (b1 * e2 - b2 * e1))).
  - clear D. unfold m11, m12, m13, m21, m22, m23, m31, m32, m33, q. ring.
  - rewrite D. ring.
Qed.

Lemma norm_one u : dot u u = 1 -> norm u = 1.
Proof. intros H. unfold norm. unfold dot in H. rewrite H. apply sqrt_1. Qed.

Lemma rotate_basis_orthonormal m ia : orthonormal m -> orthonormal (rotate_basis m ia).
Proof.
  intros Ho. destruct ia as [i angle].
  assert (Hu : dot (row i m) (row i m) = 1).
  { destruct Ho as (H0 & H1 & H2 & _). destruct i as [|[|i]]; assumption. }
  assert (E : rotate_basis m (i, angle) =
     Mat (rodrigues (row i m) angle (r0 m)) (rodrigues (row i m) angle (r1 m)) (rodrigues (row i m) angle (r2 m))).
  { unfold rotate_basis. rewrite (norm_one _ Hu). unfold Rdiv. rewrite Rinv_1, !Rmult_1_r.
    destruct (row i m); reflexivity. }
  rewrite E. unfold orthonormal in *. cbn [r0 r1 r2].
  rewrite !rodrigues_dot, rodrigues_triple by exact Hu. exact Ho.
Qed.

Lemma sample_to_detector_orthonormal s t o g : orthonormal (sample_to_detector_matrix s t o g).
Proof.
  unfold sample_to_detector_matrix. cbn [fold_left].
  do 4 apply rotate_basis_orthonormal.
  unfold orthonormal, dot, triple; cbn. repeat split; ring.
Qed.

(** View of the model's matrix as a function of two indices. *)
Definition vec_entry (v : vec) (k : nat) : R :=
  match k with O => vx v | S O => vy v | _ => vz v end.
Definition mat_entry (m : mat) : matrix := fun i k => vec_entry (row i m) k.

Lemma orthonormal_proper m : orthonormal m -> proper_rotation (mat_entry m).
Proof.
  intros (H0 & H1 & H2 & H3 & H4 & H5 & H6). split.
  - intros i j Hi Hj. unfold dot in *. unfold entry3, mat_entry.
    destruct i as [|[|[|i]]], j as [|[|[|j]]]; try lia; cbn [row vec_entry Nat.eqb]; lra.
  - unfold det3, mat_entry, triple in *. cbn [row vec_entry]. lra.
Qed.

(* ---------- closed form without azimuthal and twist ---------- *)

Lemma rodrigues_zero u v : rodrigues u 0 v = v.
Proof.
  destruct v as [v1 v2 v3]. unfold rodrigues; cbn [vx vy vz]. rewrite cos_0, sin_0. f_equal; ring.
Qed.

Lemma matrix_no_azimuthal_twist s t :
  sample_to_detector_matrix s t 0 0 =
  Mat (Vec 0 1 0) (Vec (sin (t - s)) 0 (cos (t - s))) (Vec (cos (t - s)) 0 (- sin (t - s))).
Proof.
  assert (Hmul : forall x, x / 1 = x) by (intros; field).
  unfold sample_to_detector_matrix. cbn [fold_left].
  assert (E1 : rotate_basis (Mat (Vec 0 1 0) (Vec 0 0 1) (Vec 1 0 0)) (0%nat, - s) =
     Mat (Vec 0 1 0) (Vec (sin (- s)) 0 (cos (- s))) (Vec (cos (- s)) 0 (- sin (- s)))).
  { unfold rotate_basis. cbn [row r0 r1 r2].
    rewrite (norm_one (Vec 0 1 0)) by (unfold dot; cbn; ring).
    unfold rodrigues; cbn [vx vy vz]. rewrite !Hmul. f_equal; f_equal; ring. }
  rewrite E1.
  assert (E2 : forall a, rotate_basis (Mat (Vec 0 1 0) (Vec (sin a) 0 (cos a)) (Vec (cos a) 0 (- sin a))) (0%nat, t) =
     Mat (Vec 0 1 0) (Vec (sin (t + a)) 0 (cos (t + a))) (Vec (cos (t + a)) 0 (- sin (t + a)))).
  { intros a. unfold rotate_basis. cbn [row r0 r1 r2].
    rewrite (norm_one (Vec 0 1 0)) by (unfold dot; cbn; ring).
    unfold rodrigues; cbn [vx vy vz]. rewrite !Hmul. rewrite sin_plus, cos_plus. f_equal; f_equal; ring. }
  rewrite E2.
  replace (t + - s) with (t - s) by ring.
  assert (E3 : forall m i, orthonormal m -> rotate_basis m (i, - 0) = m).
  { intros m i Ho.
    unfold rotate_basis. rewrite Ropp_0, !rodrigues_zero. destruct m; reflexivity. }
  assert (Ho : orthonormal (Mat (Vec 0 1 0) (Vec (sin (t - s)) 0 (cos (t - s))) (Vec (cos (t - s)) 0 (- sin (t - s))))).
  { pose proof (cs (t - s)). unfold orthonormal, dot, triple; cbn. repeat split; nra. }
  rewrite !E3; auto. rewrite E3; auto.
Qed.

(* ---------- least squares helpers ---------- *)

Lemma sumR_scale k l : sumR (map (fun x => k * x) l) = k * sumR l.
Proof. induction l as [|x l IH]; simpl; [ring|]. rewrite IH. ring. Qed.
Lemma sumR_plus {A} (f g : A -> R) l :
  sumR (map (fun x => f x + g x) l) = sumR (map f l) + sumR (map g l).
Proof. induction l as [|x l IH]; simpl; [ring|]. rewrite IH. ring. Qed.
Lemma sumR_const {A} k (l : list A) : sumR (map (fun _ => k) l) = k * INR (length l).
Proof.
  induction l as [|x l IH]; [simpl; ring|]. cbn [map sumR fold_right length].
  change (fold_right Rplus 0 (map (fun _ => k) l)) with (sumR (map (fun _ : A => k) l)).
  rewrite IH, S_INR. ring.
Qed.
Lemma meanR_affine {A} (f : A -> R) k c l :
  l <> [] -> meanR (map (fun x => k * f x + c) l) = k * meanR (map f l) + c.
Proof.
  intros Hl. unfold meanR. rewrite !map_length.
  rewrite (sumR_plus (fun x => k * f x) (fun _ => c)), sumR_const.
  rewrite <- (map_map f (fun y => k * y)), sumR_scale. field.
  apply not_0_INR. destruct l; [congruence|discriminate].
Qed.

Lemma combine_map_same {A B C} (f : A -> B) (g : A -> C) l :
  combine (map f l) (map g l) = map (fun x => (f x, g x)) l.
Proof. induction l; simpl; [reflexivity|congruence]. Qed.

Lemma cov_affine {A} (f : A -> R) k c l :
  l <> [] -> cov (map f l) (map (fun x => k * f x + c) l) = k * cov (map f l) (map f l).
Proof.
  intros Hl. unfold cov. rewrite !combine_map_same, !map_map. cbn [fst snd].
  rewrite (meanR_affine f k c l Hl).
  set (m := meanR (map f l)).
  rewrite (map_ext (fun x => (f x - m) * (k * f x + c - (k * m + c))) (fun x => k * ((f x - m) * (f x - m)))) by (intros; ring).
  rewrite <- (map_map (fun x => (f x - m) * (f x - m)) (fun y => k * y)), sumR_scale. reflexivity.
Qed.

Lemma sumR_sq_nonneg l : 0 <= sumR (map (fun x => x * x) l).
Proof. induction l as [|x l IH]; simpl; [lra|]. pose proof (Rle_0_sqr x) as H. unfold Rsqr in H. lra. Qed.
Lemma sumR_sq_zero l : sumR (map (fun x => x * x) l) = 0 -> forall x, In x l -> x = 0.
Proof.
  induction l as [|y l IH]; simpl; intros H x Hx; [contradiction|].
  pose proof (sumR_sq_nonneg l). pose proof (Rle_0_sqr y) as Hy. unfold Rsqr in Hy.
  destruct Hx as [->|Hx]; [nra|]. apply IH; [lra|exact Hx].
Qed.

(** Two different values make the variance non-zero. *)
Lemma cov_pos l a b : In a l -> In b l -> a <> b -> cov l l <> 0.
Proof.
  intros Ha Hb Hne H. unfold cov in H.
  assert (E : forall (g : R * R -> R), map g (combine l l) = map (fun x => g (x, x)) l).
  { intros g. clear. induction l; simpl; [reflexivity|congruence]. }
  rewrite E in H. cbn [fst snd] in H.
  rewrite <- (map_map (fun x => x - meanR l) (fun y => y * y)) in H.
  pose proof (sumR_sq_zero _ H) as Hz.
  assert (a - meanR l = 0) by (apply Hz, in_map_iff; exists a; auto).
  assert (b - meanR l = 0) by (apply Hz, in_map_iff; exists b; auto). lra.
Qed.

(* ---------- extrapolated PCs and the tilt estimate ---------- *)

Lemma atan_neg_cot a : 0 < a < PI -> PI / 2 + atan (- (cos a / sin a)) = a.
Proof.
  intros [H0 H1].
  assert (E : - (cos a / sin a) = tan (a - PI / 2)).
  { unfold tan. rewrite <- (cos_neg (a - PI/2)).
    replace (- (a - PI / 2)) with (PI / 2 - a) by ring. rewrite cos_shift.
    replace (a - PI / 2) with (- (PI / 2 - a)) by ring. rewrite sin_neg, sin_shift.
    field. apply Rgt_not_eq, sin_gt_0; assumption. }
  rewrite E, atan_tan; lra.
Qed.

Section Fit.
Context (d : detector) (rows cols px b dy dx : R) (ybar xbar : Z) (mean : pc3).
Let alpha := deg2rad (90 - d_sample_tilt d + d_tilt d).
Let E := extrapolated_pc d rows cols px b dy dx ybar xbar mean.

Lemma extrapolated_pcy_pcz y x :
  sin alpha <> 0 ->
  pcy (E y x) = - (cos alpha / sin alpha) * pcz (E y x)
                + (pcy mean + cos alpha / sin alpha * pcz mean).
Proof.
  intros Hs. unfold E, extrapolated_pc. cbn [pcy pcz]. fold alpha.
  set (q := IZR ybar - y). unfold Rdiv.
  replace (- q * dy * cos alpha) with (- (q * dy) * cos alpha) by ring.
  set (k := / (px * b * rows)). field. exact Hs.
Qed.

Lemma x_tilt_extrapolated pts :
  0 < alpha < PI -> dy <> 0 -> px * b * rows <> 0 ->
  (exists y1 x1 y2 x2, In (y1, x1) pts /\ In (y2, x2) pts /\ y1 <> y2) ->
  x_tilt (map (fun yx => E (fst yx) (snd yx)) pts) = alpha.
Proof.
  intros Ha Hdy Hf (y1 & x1 & y2 & x2 & H1 & H2 & Hne).
  assert (Hs : sin alpha <> 0) by (apply Rgt_not_eq, sin_gt_0; tauto).
  unfold x_tilt. rewrite !map_map. cbn [fst snd].
  rewrite (map_ext (fun yx => pcy (E (fst yx) (snd yx)))
     (fun yx => - (cos alpha / sin alpha) * pcz (E (fst yx) (snd yx)) + (pcy mean + cos alpha / sin alpha * pcz mean)))
     by (intros; apply extrapolated_pcy_pcz; exact Hs).
  unfold slope.
  rewrite (cov_affine (fun yx => pcz (E (fst yx) (snd yx)))) by (intros ->; contradiction).
  assert (Hc : cov (map (fun yx => pcz (E (fst yx) (snd yx))) pts) (map (fun yx => pcz (E (fst yx) (snd yx))) pts) <> 0).
  { apply (cov_pos _ (pcz (E y1 x1)) (pcz (E y2 x2))).
    - apply in_map_iff. exists (y1, x1). auto.
    - apply in_map_iff. exists (y2, x2). auto.
    - unfold E, extrapolated_pc. cbn [pcz]. fold alpha. intros Heq. apply Hne.
      assert (Hk : (y1 - y2) * (dy * sin alpha / (px * b * rows)) = 0).
      { assert (Hr : (IZR ybar - y1) * dy * sin alpha / (px * b * rows) = (IZR ybar - y2) * dy * sin alpha / (px * b * rows)) by lra.
        unfold Rdiv in *. lra. }
      apply Rmult_integral in Hk. destruct Hk as [Hk|Hk]; [lra|exfalso].
      revert Hk. unfold Rdiv. apply Rmult_integral_contrapositive. split; [|apply Rinv_neq_0_compat; exact Hf].
      apply Rmult_integral_contrapositive. tauto. }
  replace (- (cos alpha / sin alpha) * cov (map (fun yx => pcz (E (fst yx) (snd yx))) pts) (map (fun yx => pcz (E (fst yx) (snd yx))) pts) / cov (map (fun yx => pcz (E (fst yx) (snd yx))) pts) (map (fun yx => pcz (E (fst yx) (snd yx))) pts))
    with (- (cos alpha / sin alpha)) by (field; tauto).
  apply atan_neg_cot. exact Ha.
Qed.

Lemma fitted_tilt_extrapolated pts :
  0 < alpha < PI -> dy <> 0 -> px * b * rows <> 0 ->
  (exists y1 x1 y2 x2, In (y1, x1) pts /\ In (y2, x2) pts /\ y1 <> y2) ->
  fitted_sample_tilt d (map (fun yx => E (fst yx) (snd yx)) pts) = d_sample_tilt d - 2 * d_tilt d.
Proof.
  intros H1 H2 H3 H4. unfold fitted_sample_tilt. rewrite x_tilt_extrapolated by assumption.
  unfold alpha, rad2deg, deg2rad. field. apply PI_neq0.
Qed.
End Fit.

(* ---------- affine least squares ---------- *)

Lemma residual_nonneg a pts ys : 0 <= residual a pts ys.
Proof.
  unfold residual. generalize (combine pts ys). intros l.
  rewrite (map_ext _ (fun py : R * R * R => (affine_at a (fst py) - snd py) * (affine_at a (fst py) - snd py))) by (intros; ring).
  rewrite <- (map_map (fun py : R * R * R => affine_at a (fst py) - snd py) (fun z => z * z)). apply sumR_sq_nonneg.
Qed.

Lemma lstsq_exact pts b a :
  lstsq pts (map (affine_at b) pts) a -> forall p, In p pts -> affine_at a p = affine_at b p.
Proof.
  intros H p Hp. specialize (H b).
  assert (Hb : residual b pts (map (affine_at b) pts) = 0).
  { unfold residual. clear.
    rewrite <- (map_id pts) at 1. rewrite combine_map_same, map_map. cbn [fst snd].
    rewrite (map_ext _ (fun _ => 0)) by (intros; ring). rewrite sumR_const. ring. }
  rewrite Hb in H. pose proof (residual_nonneg a pts (map (affine_at b) pts)) as H0.
  assert (Hz : residual a pts (map (affine_at b) pts) = 0) by lra.
  unfold residual in Hz.
  rewrite (map_ext _ (fun py : R * R * R => (affine_at a (fst py) - snd py) * (affine_at a (fst py) - snd py))) in Hz by (intros; ring).
  rewrite <- (map_map (fun py : R * R * R => affine_at a (fst py) - snd py) (fun z => z * z)) in Hz.
  pose proof (sumR_sq_zero _ Hz) as Hall.
  assert (affine_at a p - affine_at b p = 0).
  { apply Hall. apply in_map_iff. exists (p, affine_at b p). split; [reflexivity|].
    rewrite <- (map_id pts) at 1. rewrite combine_map_same. apply in_map_iff. exists p. auto. }
  lra.
Qed.

(** Three points which are not on a line fix the affine map. *)
Lemma affine_three a b p q r :
  (fst q - fst p) * (snd r - snd p) - (fst r - fst p) * (snd q - snd p) <> 0 ->
  affine_at a p = affine_at b p -> affine_at a q = affine_at b q -> affine_at a r = affine_at b r ->
  a = b.
Proof.
  destruct a as [a1 a2 a3], b as [b1 b2 b3], p as [p1 p2], q as [q1 q2], r as [s1 s2].
  unfold affine_at; cbn [a_y a_x a_1 fst snd]. intros Hd H1 H2 H3.
  set (D := (q1 - p1) * (s2 - p2) - (s1 - p1) * (q2 - p2)) in *.
  assert (E1 : (a1 - b1) * D = 0).
  { unfold D. transitivity ((s2 - p2) * ((q1 * a1 + q2 * a2 + a3) - (q1 * b1 + q2 * b2 + b3))
      - (q2 - p2) * ((s1 * a1 + s2 * a2 + a3) - (s1 * b1 + s2 * b2 + b3))
      - (s2 - q2) * ((p1 * a1 + p2 * a2 + a3) - (p1 * b1 + p2 * b2 + b3))); [ring|].
    rewrite H1, H2, H3. ring. }
  assert (E2 : (a2 - b2) * D = 0).
  { unfold D. transitivity ((q1 - p1) * ((s1 * a1 + s2 * a2 + a3) - (s1 * b1 + s2 * b2 + b3))
      - (s1 - p1) * ((q1 * a1 + q2 * a2 + a3) - (q1 * b1 + q2 * b2 + b3))
      - (q1 - s1) * ((p1 * a1 + p2 * a2 + a3) - (p1 * b1 + p2 * b2 + b3))); [ring|].
    rewrite H1, H2, H3. ring. }
  apply Rmult_integral in E1. apply Rmult_integral in E2.
  destruct E1 as [E1|E1]; [|contradiction]. destruct E2 as [E2|E2]; [|contradiction].
  assert (a1 = b1) by lra. assert (a2 = b2) by lra. subst. f_equal. lra.
Qed.
