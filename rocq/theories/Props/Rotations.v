(** Rotations: property C46. *)
From Coq Require Import Reals Lra Lia.
From Verif Require Import Model.Detector Model.Rotations Spec.Euler.
Local Open Scope R_scope.

Lemma neg_rotates q v : rotate_vector (qneg q) v = rotate_vector q v.
Proof. destruct q, v. unfold rotate_vector, qneg. simpl. f_equal; ring. Qed.
Lemma half_angles x : cos x = cos (0.5 * x) * cos (0.5 * x) - sin (0.5 * x) * sin (0.5 * x)
  /\ sin x = 2 * sin (0.5 * x) * cos (0.5 * x) /\ cos (0.5 * x) * cos (0.5 * x) = 1 - sin (0.5 * x) * sin (0.5 * x).
Proof.
  split; [|split].
  - rewrite <- cos_2a. f_equal. lra.
  - rewrite <- sin_2a. f_equal. lra.
  - pose proof (sin2_cos2 (0.5 * x)) as H. unfold Rsqr in H. lra.
Qed.
Lemma vec_eq a b c a' b' c' : a = a' -> b = b' -> c = c' -> Vec a b c = Vec a' b' c'.
Proof. now intros -> -> ->. Qed.

(** The rotation has norm 1 and real part at least 0. *)
Theorem C46_euler_unit_quaternion alpha beta gamma :
  let q := rotation_from_euler alpha beta gamma in
  qa q * qa q + qb q * qb q + qc q * qc q + qd q * qd q = 1 /\ 0 <= qa q.
Proof.
  unfold rotation_from_euler. cbv zeta. cbn [qa].
  set (A := 0.5 * (alpha + gamma)). set (B := 0.5 * (alpha - gamma)). set (C := 0.5 * beta).
  pose proof (sin2_cos2 A) as HA. pose proof (sin2_cos2 B) as HB. pose proof (sin2_cos2 C) as HC. unfold Rsqr in *.
  assert (N : cos C * cos A * (cos C * cos A) + - sin C * cos B * (- sin C * cos B) + - sin C * sin B * (- sin C * sin B)
              + - cos C * sin A * (- cos C * sin A) = 1).
  { transitivity (cos C * cos C * (sin A * sin A + cos A * cos A) + sin C * sin C * (sin B * sin B + cos B * cos B)); [ring|].
    rewrite HA, HB. lra. }
  destruct (Rlt_dec (cos C * cos A) 0); cbn [qneg qa qb qc qd]; (split; [|lra]); rewrite <- N; ring.
Qed.

(** Rotating a vector with it is changing its coordinates by the Bunge Euler angles. *)
Theorem C46_euler_is_bunge alpha beta gamma v :
  rotate_vector (rotation_from_euler alpha beta gamma) v = bunge alpha beta gamma v.
Proof.
  unfold rotation_from_euler. cbv zeta.
  match goal with |- rotate_vector (if _ then qneg ?q else ?q) _ = _ =>
    transitivity (rotate_vector q v); [destruct (Rlt_dec _ 0); [apply neg_rotates|reflexivity]|] end.
  destruct v as [x y z]. unfold rotate_vector, bunge, turn_z, turn_x. cbn [vx vy vz].
  replace (0.5 * (alpha + gamma)) with (0.5 * alpha + 0.5 * gamma) by ring.
  replace (0.5 * (alpha - gamma)) with (0.5 * alpha - 0.5 * gamma) by ring.
  rewrite cos_plus, sin_plus, cos_minus, sin_minus.
  destruct (half_angles alpha) as (A1 & A2 & A3). destruct (half_angles beta) as (B1 & B2 & B3).
  destruct (half_angles gamma) as (C1 & C2 & C3). rewrite A1, A2, B1, B2, C1, C2. clear A1 A2 B1 B2 C1 C2.
  set (ca := cos (0.5 * alpha)) in *. set (sa := sin (0.5 * alpha)) in *.
  set (cb := cos (0.5 * beta)) in *. set (sb := sin (0.5 * beta)) in *.
  set (cc := cos (0.5 * gamma)) in *. set (sc := sin (0.5 * gamma)) in *.
  assert (A : ca * ca + sa * sa = 1) by lra. assert (B : cb * cb + sb * sb = 1) by lra. assert (C : cc * cc + sc * sc = 1) by lra.
  clear A3 B3 C3. clearbody ca sa cb sb cc sc.
  apply vec_eq.
  - transitivity (((ca * ca - sa * sa) * (cc * cc - sc * sc) * (cb * cb + sb * sb)
        - 4 * sa * ca * sc * cc * (cb * cb - sb * sb)) * x
      + (2 * sa * ca * (cc * cc - sc * sc) * (cb * cb + sb * sb) + (ca * ca - sa * sa) * 2 * sc * cc * (cb * cb - sb * sb)) * y
      + 2 * sc * cc * 2 * sb * cb * (ca * ca + sa * sa) * z); [ring|]. rewrite A, B. ring.
  - transitivity (((ca * ca - sa * sa) * (- (2 * sc * cc)) * (cb * cb + sb * sb)
        - 2 * sa * ca * (cc * cc - sc * sc) * (cb * cb - sb * sb)) * x
      + (- (2 * sa * ca * 2 * sc * cc) * (cb * cb + sb * sb) + (ca * ca - sa * sa) * (cc * cc - sc * sc) * (cb * cb - sb * sb)) * y
      + (cc * cc - sc * sc) * 2 * sb * cb * (ca * ca + sa * sa) * z); [ring|]. rewrite A, B. ring.
  - transitivity (2 * sa * ca * 2 * sb * cb * (cc * cc + sc * sc) * x
      - (ca * ca - sa * sa) * 2 * sb * cb * (cc * cc + sc * sc) * y
      + (cb * cb - sb * sb) * (ca * ca + sa * sa) * (cc * cc + sc * sc) * z); [ring|]. rewrite A, C. ring.
Qed.

(** Rotating with a unit quaternion preserves lengths, angles and handedness. *)
Theorem C46_rotation_preserves q u v : qa q * qa q + qb q * qb q + qc q * qc q + qd q * qd q = 1 ->
  dot3 (rotate_vector q u) (rotate_vector q v) = dot3 u v
  /\ cross3 (rotate_vector q u) (rotate_vector q v) = rotate_vector q (cross3 u v).
Proof.
  destruct q as [a b c d], u as [x y z], v as [x' y' z']. cbn [qa qb qc qd]. intros H.
  unfold rotate_vector, dot3, cross3. cbn [vx vy vz]. split.
  - transitivity ((a * a + b * b + c * c + d * d) * (a * a + b * b + c * c + d * d) * (x * x' + y * y' + z * z')); [ring|].
    rewrite H. ring.
  - apply vec_eq.
    + transitivity ((a * a + b * b + c * c + d * d) * ((a * a + b * b - c * c - d * d) * (y * z' - z * y')
        + 2 * ((a * c + b * d) * (x * y' - y * x') + (b * c - a * d) * (z * x' - x * z')))); [ring|]. rewrite H. ring.
    + transitivity ((a * a + b * b + c * c + d * d) * ((a * a - b * b + c * c - d * d) * (z * x' - x * z')
        + 2 * ((a * d + b * c) * (y * z' - z * y') + (c * d - a * b) * (x * y' - y * x')))); [ring|]. rewrite H. ring.
    + transitivity ((a * a + b * b + c * c + d * d) * ((a * a - b * b - c * c + d * d) * (x * y' - y * x')
        + 2 * ((a * b + c * d) * (z * x' - x * z') + (b * d - a * c) * (y * z' - z * y')))); [ring|]. rewrite H. ring.
Qed.

(** Rotations compose like quaternions, and the conjugate undoes them. *)
Definition qmul (p q : quat) : quat :=
  Quat (qa p * qa q - qb p * qb q - qc p * qc q - qd p * qd q)
       (qa p * qb q + qb p * qa q + qc p * qd q - qd p * qc q)
       (qa p * qc q - qb p * qd q + qc p * qa q + qd p * qb q)
       (qa p * qd q + qb p * qc q - qc p * qb q + qd p * qa q).
Definition qconj (q : quat) : quat := Quat (qa q) (- qb q) (- qc q) (- qd q).
Theorem C46_rotations_compose p q v : rotate_vector p (rotate_vector q v) = rotate_vector (qmul p q) v.
Proof.
  destruct p as [a b c d], q as [e f g h], v as [x y z]. unfold rotate_vector, qmul. cbn [qa qb qc qd]. apply vec_eq; ring.
Qed.
Theorem C46_conjugate_undoes q v : qa q * qa q + qb q * qb q + qc q * qc q + qd q * qd q = 1 ->
  rotate_vector (qconj q) (rotate_vector q v) = v.
Proof.
  intros H. rewrite C46_rotations_compose. destruct q as [a b c d], v as [x y z]. cbn [qa qb qc qd] in H.
  unfold rotate_vector, qmul, qconj. cbn [qa qb qc qd].
  apply vec_eq.
  - transitivity ((a * a + b * b + c * c + d * d) * (a * a + b * b + c * c + d * d) * x); [ring|rewrite H; ring].
  - transitivity ((a * a + b * b + c * c + d * d) * (a * a + b * b + c * c + d * d) * y); [ring|rewrite H; ring].
  - transitivity ((a * a + b * b + c * c + d * d) * (a * a + b * b + c * c + d * d) * z); [ring|rewrite H; ring].
Qed.

(** rotation_from_rodrigues: a unit quaternion whose vector part over its real part is the given
    vector... *)
Theorem C46_rodrigues rx ry rz : rx <> 0 \/ ry <> 0 \/ rz <> 0 ->
  exists q, rotation_from_rodrigues rx ry rz = Some q
    /\ qa q * qa q + qb q * qb q + qc q * qc q + qd q * qd q = 1 /\ 0 < qa q
    /\ qb q = qa q * rx /\ qc q = qa q * ry /\ qd q = qa q * rz.
Proof.
  intros H. unfold rotation_from_rodrigues. cbv zeta. set (n2 := rx * rx + ry * ry + rz * rz).
  assert (Q : forall t, t <> 0 -> 0 < t * t) by (intros t Ht; apply Rlt_0_sqr in Ht; exact Ht).
  assert (Z : forall t, 0 <= t * t) by (intros t; apply Rle_0_sqr).
  assert (Hn : 0 < n2) by (unfold n2; pose proof (Z rx); pose proof (Z ry); pose proof (Z rz);
    destruct H as [H|[H|H]]; apply Q in H; lra).
  assert (Hs : 0 < sqrt n2) by now apply sqrt_lt_R0.
  destruct (Req_EM_T (sqrt n2) 0) as [|_]; [lra|]. eexists. split; [reflexivity|].
  set (n := sqrt n2) in *. cbn [qa].
  assert (Hc : 0 < cos (atan n)).
  { apply cos_gt_0; pose proof (atan_bound n); lra. }
  assert (Ht : sin (atan n) = n * cos (atan n)).
  { pose proof (tan_atan n) as T. unfold tan in T. rewrite <- T at 2. field. lra. }
  destruct (Rlt_dec (cos (atan n)) 0); [lra|]. cbn [qa qb qc qd].
  assert (E : forall r, sin (atan n) * r / n = cos (atan n) * r) by (intros r; rewrite Ht; field; lra).
  rewrite !E. split; [|auto]. pose proof (sin2_cos2 (atan n)) as S. unfold Rsqr in S. rewrite Ht in S.
  assert (N : n * n = n2) by (apply sqrt_sqrt; lra).
  rewrite <- S. unfold n2 in N. 
  transitivity (cos (atan n) * cos (atan n) * (rx * rx + ry * ry + rz * rz) + cos (atan n) * cos (atan n)); [ring|].
  rewrite <- N. ring.
Qed.
(** ... except for the zero vector, the identity, for which the result is NaN. *)
Theorem C46_rodrigues_identity_refuted : rotation_from_rodrigues 0 0 0 = None.
Proof.
  unfold rotation_from_rodrigues. cbv zeta. replace (0 * 0 + 0 * 0 + 0 * 0) with 0 by ring. rewrite sqrt_0.
  destruct (Req_EM_T 0 0); [reflexivity|lra].
Qed.

(** A rotation for which the sign is changed. *)
Example sign_case : qa (rotation_from_euler (2 * PI) 0 0) = 1.
Proof.
  unfold rotation_from_euler. cbv zeta. cbn [qa].
  replace (0.5 * (2 * PI + 0)) with PI by lra. replace (0.5 * 0) with 0 by ring. rewrite cos_0, cos_PI.
  destruct (Rlt_dec (1 * -1) 0); [cbn [qneg qa]; ring|lra].
Qed.

Print Assumptions C46_euler_is_bunge.
Print Assumptions C46_rotation_preserves.
