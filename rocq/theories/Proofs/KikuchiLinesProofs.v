From Coq Require Import List Arith ZArith Reals Lra Lia Psatz Nsatz Bool.
From Verif Require Import Model.Detector Model.Rotations Model.Simulation Model.KikuchiLines Spec.Euler Spec.KikuchiBands Spec.DetectorGeometry
  Proofs.DetectorProofs Proofs.DetectorTilt Proofs.SimulationProofs.
Import ListNotations.
Local Open Scope R_scope.

Lemma rltb_spec a b : rltb a b = true <-> a < b.
Proof. unfold rltb. destruct (Rlt_dec a b); intuition (try discriminate; lra). Qed.
Lemma rleb_spec a b : rleb a b = true <-> a <= b.
Proof. unfold rleb. destruct (Rle_dec a b); intuition (try discriminate; lra). Qed.

(** ** Matrices *)

Lemma row_times_matmul v a b : row_times v (matmul a b) = row_times (row_times v a) b.
Proof. destruct v, a as [[] [] []], b as [[] [] []]. unfold row_times, matmul. cbn. f_equal; ring. Qed.
Lemma row_times_transposed v m : row_times v (transposed m) = times m v.
Proof. destruct v, m as [[] [] []]. unfold row_times, transposed, times, dot3. cbn. f_equal; ring. Qed.
Lemma times_adjoint u v m : dot3 (row_times u m) v = dot3 u (times m v).
Proof. destruct u, v, m as [[] [] []]. unfold row_times, times, dot3. cbn. ring. Qed.
Lemma times_adjoint' u v m : dot3 (times m u) v = dot3 u (row_times v m).
Proof. destruct u, v, m as [[] [] []]. unfold row_times, times, dot3. cbn. ring. Qed.
Lemma times_to_matrix q v : times (to_matrix q) v = rotate_vector q v.
Proof. destruct q, v. unfold times, to_matrix, rotate_vector, dot3. cbn. f_equal; ring. Qed.

Lemma orthonormal_row m v : orthonormal m -> row_times (times m v) m = v.
Proof.
  destruct m as [[a b c] [d e f] [g h i]], v as [x y z]. unfold orthonormal, times, row_times, dot, dot3, triple. cbn [r0 r1 r2 vx vy vz].
  intros (A & B & C & D & E & F & T).
  assert (X1 : a * a + d * d + g * g = 1) by nsatz. assert (X2 : b * b + e * e + h * h = 1) by nsatz. assert (X3 : c * c + f * f + i * i = 1) by nsatz.
  assert (X4 : a * b + d * e + g * h = 0) by nsatz. assert (X5 : a * c + d * f + g * i = 0) by nsatz. assert (X6 : b * c + e * f + h * i = 0) by nsatz.
  f_equal; nsatz.
Qed.
Lemma orthonormal_times m v : orthonormal m -> times m (row_times v m) = v.
Proof.
  destruct m as [[a b c] [d e f] [g h i]], v as [x y z]. unfold orthonormal, times, row_times, dot, dot3, triple. cbn [r0 r1 r2 vx vy vz].
  intros (A & B & C & D & E & F & T). f_equal; nsatz.
Qed.

Lemma to_matrix_orthonormal q : unit_quaternion q -> orthonormal (to_matrix q).
Proof.
  destruct q as [a b c d]. unfold unit_quaternion, orthonormal, to_matrix, dot, triple. cbn. intros H.
  repeat split; nsatz.
Qed.
Lemma s2d_orthonormal d : orthonormal (sample_to_detector d).
Proof. unfold sample_to_detector. apply sample_to_detector_orthonormal. Qed.

(** ** What is seen at a point *)

Definition at_point (d : detector) (x y : R) : vec := row_times (Vec x y 1) (sample_to_detector d).
Lemma seen_at_eq d q x y v : seen_at d q x y v <-> v = rotate_vector q (at_point d x y).
Proof.
  unfold seen_at, at_point. split.
  - intros (w & E & ->). f_equal. rewrite <- E. symmetry. apply orthonormal_row, s2d_orthonormal.
  - intros ->. eexists. split; [|reflexivity]. apply orthonormal_times, s2d_orthonormal.
Qed.
Lemma reciprocal_unique base h k l g g' : proper_lattice base ->
  reciprocal_vector base h k l g -> reciprocal_vector base h k l g' -> g = g'.
Proof.
  destruct base as [[a b c] [d e f] [m n o]], g as [x y z], g' as [x' y' z']. unfold proper_lattice, reciprocal_vector, dot3, cross3. cbn [r0 r1 r2 vx vy vz].
  intros V (A & B & C) (A' & B' & C').
  set (D := a * (e * o - f * n) + b * (f * m - d * o) + c * (d * n - e * m)) in *.
  assert (X : D * (x - x') = 0) by (unfold D; nsatz). assert (Y : D * (y - y') = 0) by (unfold D; nsatz). assert (Z : D * (z - z') = 0) by (unfold D; nsatz).
  apply Rmult_integral in X, Y, Z. f_equal; [destruct X|destruct Y|destruct Z]; try lra; contradiction.
Qed.
Lemma recbase_reciprocal base h : proper_lattice base ->
  reciprocal_vector base (IZR (i1 h)) (IZR (i2 h)) (IZR (i3 h)) (row_times (row_of h) (recbase_t base)).
Proof.
  destruct base as [[a b c] [d e f] [m n o]], h as [h1 h2 h3]. unfold proper_lattice, reciprocal_vector, recbase_t, volume, cross_rows, over, row_times, row_of, dot3, cross3.
  cbn [r0 r1 r2 vx vy vz i1 i2 i3]. intros V. repeat split; field; lra.
Qed.
Lemma on_trace_iff base d q h x y : proper_lattice base ->
  on_trace base d q (IZR (i1 h)) (IZR (i2 h)) (IZR (i3 h)) x y <->
  vx (hkl_d base d q h) * x + vy (hkl_d base d q h) * y + vz (hkl_d base d q h) = 0.
Proof.
  intros V. set (g := row_times (row_of h) (recbase_t base)).
  assert (E : vx (hkl_d base d q h) * x + vy (hkl_d base d q h) * y + vz (hkl_d base d q h)
    = dot3 g (rotate_vector q (at_point d x y))).
  { unfold hkl_d, u_os. rewrite !row_times_matmul, row_times_transposed. fold g.
    transitivity (dot3 (times (sample_to_detector d) (row_times g (to_matrix q))) (Vec x y 1)).
    - unfold dot3. cbn [vx vy vz]. ring.
    - rewrite times_adjoint', times_adjoint, times_to_matrix. reflexivity. }
  rewrite E. unfold on_trace. split.
  - intros (g' & v & Hg & Hv & Z). apply seen_at_eq in Hv. subst v.
    rewrite (reciprocal_unique _ _ _ _ g g' V (recbase_reciprocal base h V) Hg). exact Z.
  - intros Z. exists g, (rotate_vector q (at_point d x y)). split; [now apply recbase_reciprocal|]. split; [now apply seen_at_eq|exact Z].
Qed.

(** ** Lines *)

Lemma rho_sq v : rho v * rho v = vx v * vx v + vy v * vy v.
Proof. unfold rho. apply sqrt_sqrt. nra. Qed.
Lemma rho_nonneg v : 0 <= rho v.
Proof. apply sqrt_pos. Qed.
Lemma norm_sq' v : norm v * norm v = rho v * rho v + vz v * vz v.
Proof. rewrite rho_sq. unfold norm. rewrite sqrt_sqrt by nra. ring. Qed.
Lemma norm_nonneg v : 0 <= norm v.
Proof. apply sqrt_pos. Qed.

Lemma hesse_eq v : rho v <> 0 -> tan (0.5 * PI - polar v) = vz v / rho v.
Proof.
  intros Hr. pose proof (rho_nonneg v). pose proof (norm_sq' v) as S. pose proof (norm_nonneg v).
  assert (Hn : 0 < norm v) by nra.
  assert (B : -1 <= vz v / norm v <= 1).
  { split; [apply Rmult_le_reg_r with (norm v)|apply Rmult_le_reg_r with (norm v)]; auto; unfold Rdiv; rewrite Rmult_assoc, Rinv_l by lra; nra. }
  unfold tan, polar. replace (0.5 * PI) with (PI / 2) by lra. rewrite sin_shift, cos_shift, cos_acos, sin_acos by exact B.
  assert (E : sqrt (1 - Rsqr (vz v / norm v)) = rho v / norm v).
  { replace (1 - Rsqr (vz v / norm v)) with (Rsqr (rho v / norm v)).
    - rewrite sqrt_Rsqr; [reflexivity|]. apply Rmult_le_pos; [lra|]. left. now apply Rinv_0_lt_compat.
    - unfold Rsqr. apply Rmult_eq_reg_r with (norm v * norm v); [|nra].
      field_simplify; [|lra|lra]. nra. }
  rewrite E. field. split; lra.
Qed.

Lemma cos_azimuth v : rho v <> 0 -> cos (azimuth v) = vx v / rho v /\ sin (azimuth v) = vy v / rho v.
Proof.
  intros Hr. pose proof (rho_nonneg v). pose proof (rho_sq v) as S. assert (Hp : 0 < rho v) by lra.
  assert (B : -1 <= vx v / rho v <= 1).
  { split; apply Rmult_le_reg_r with (rho v); auto; unfold Rdiv; rewrite Rmult_assoc, Rinv_l by lra; nra. }
  assert (E : sqrt (1 - Rsqr (vx v / rho v)) = Rabs (vy v) / rho v).
  { replace (1 - Rsqr (vx v / rho v)) with (Rsqr (Rabs (vy v) / rho v)).
    - rewrite sqrt_Rsqr; [reflexivity|]. apply Rmult_le_pos; [apply Rabs_pos|]. left. now apply Rinv_0_lt_compat.
    - unfold Rsqr. apply Rmult_eq_reg_r with (rho v * rho v); [|nra].
      field_simplify; [|lra|lra]. rewrite <- ?Rsqr_pow2, <- ?Rsqr_abs. unfold Rsqr. nra. }
  unfold azimuth. destruct (Rle_dec 0 (vy v)) as [Hy|Hy].
  - rewrite cos_acos, sin_acos by exact B. rewrite E, Rabs_right by lra. auto.
  - rewrite cos_minus, sin_minus, cos_2PI, sin_2PI, cos_acos, sin_acos by exact B.
    rewrite E, Rabs_left by lra. split; [ring|]. unfold Rdiv. ring.
Qed.

(** Half the length of the chord *)
Definition half_chord (r d : R) : R := sqrt (r * r - d * d).

Definition chord (r : R) (v : vec) : segment :=
  let d := vz v / rho v in
  let w := half_chord r d in
  let c := vx v / rho v in let s := vy v / rho v in
  ((- (d * c) + w * s, - (d * s) - w * c), (- (d * c) - w * s, - (d * s) + w * c)).

Lemma ends_eq r v az : 0 < r -> rho v <> 0 -> Rabs (vz v / rho v) < r -> cos az = vx v / rho v -> sin az = vy v / rho v ->
  let al := acos ((vz v / rho v) / r) in
  ((r * cos (az - PI + al), r * sin (az - PI + al)), (r * cos (az - PI - al), r * sin (az - PI - al))) = chord r v.
Proof.
  intros Hr Hrho Hd Hc Hs al. set (d := vz v / rho v) in *.
  assert (B : -1 <= d / r <= 1).
  { apply Rabs_def2 in Hd. split; apply Rmult_le_reg_r with r; auto; unfold Rdiv; rewrite Rmult_assoc, Rinv_l by lra; lra. }
  assert (Ca : r * cos al = d) by (unfold al; rewrite cos_acos by exact B; field; lra).
  assert (Sa : r * sin al = half_chord r d).
  { unfold al. rewrite sin_acos by exact B. unfold half_chord. apply Rabs_def2 in Hd.
    transitivity (sqrt (r * r) * sqrt (1 - Rsqr (d / r))); [rewrite sqrt_square by lra; reflexivity|].
    rewrite <- sqrt_mult_alt by nra. f_equal. unfold Rsqr. field. lra. }
  unfold chord. fold d. cbv zeta.
  repeat rewrite cos_plus || rewrite cos_minus || rewrite sin_plus || rewrite sin_minus.
  rewrite cos_PI, sin_PI, Hc, Hs. rewrite <- Sa.
  set (cv := vx v / rho v). set (sv := vy v / rho v).
  assert (G : forall A : R, d * A = r * cos al * A) by (intros; rewrite Ca; reflexivity).
  rewrite !G. f_equal; f_equal; ring.
Qed.

Lemma line_eq r v : 0 < r ->
  line r v = if Req_EM_T (rho v) 0 then None
             else if rltb (Rabs (vz v / rho v)) r && rltb (-1/100000) (vz v) then Some (chord r v) else None.
Proof.
  intros Hr. unfold line. destruct (Req_EM_T (rho v) 0) as [|Hrho]; [reflexivity|]. cbv zeta. rewrite hesse_eq by exact Hrho.
  destruct (rltb (Rabs (vz v / rho v)) r) eqn:E; [|reflexivity]. apply rltb_spec in E.
  destruct (rltb (-1/100000) (vz v)); [|reflexivity]. cbn [andb]. f_equal.
  destruct (cos_azimuth v Hrho). now apply ends_eq.
Qed.

Lemma chord_props r v : 0 < r -> rho v <> 0 -> Rabs (vz v / rho v) < r ->
  let '((x1, y1), (x2, y2)) := chord r v in
  vx v * x1 + vy v * y1 + vz v = 0 /\ vx v * x2 + vy v * y2 + vz v = 0 /\
  x1 * x1 + y1 * y1 = r * r /\ x2 * x2 + y2 * y2 = r * r /\ (x1, y1) <> (x2, y2) /\
  (forall x y, vx v * x + vy v * y + vz v = 0 -> x * x + y * y <= r * r ->
     exists t, 0 <= t <= 1 /\ x = (1 - t) * x1 + t * x2 /\ y = (1 - t) * y1 + t * y2).
Proof.
  intros Hr Hrho Hd. pose proof (rho_nonneg v). assert (Hp : 0 < rho v) by lra. unfold chord. cbv zeta.
  set (d := vz v / rho v) in *. set (c := vx v / rho v). set (s := vy v / rho v). set (w := half_chord r d).
  assert (Ev : vx v = c * rho v /\ vy v = s * rho v /\ vz v = d * rho v) by (unfold c, s, d; repeat split; field; lra).
  destruct Ev as (Ex & Ey & Ez).
  assert (U : c * c + s * s = 1).
  { pose proof (rho_sq v) as S. rewrite Ex, Ey in S. apply Rmult_eq_reg_r with (rho v * rho v); [|nra]. nra. }
  apply Rabs_def2 in Hd. assert (W : w * w = r * r - d * d) by (unfold w, half_chord; apply sqrt_sqrt; nra).
  assert (Wp : 0 < w) by (unfold w, half_chord; apply sqrt_lt_R0; nra).
  rewrite Ex, Ey, Ez. clearbody c s d w. clear Ex Ey Ez.
  repeat split.
  - transitivity (rho v * d * (1 - (c * c + s * s))); [ring|rewrite U; ring].
  - transitivity (rho v * d * (1 - (c * c + s * s))); [ring|rewrite U; ring].
  - transitivity ((d * d + w * w) * (c * c + s * s)); [ring|rewrite U, W; ring].
  - transitivity ((d * d + w * w) * (c * c + s * s)); [ring|rewrite U, W; ring].
  - intros E. injection E as E1 E2. assert (w * s = 0) by lra. assert (w * c = 0) by lra.
    assert (s = 0) by nra. assert (c = 0) by nra. subst. lra.
  - intros x y L D. assert (L' : c * x + s * y + d = 0).
    { apply Rmult_eq_reg_l with (rho v); [|lra]. rewrite Rmult_0_r, <- L. ring. }
    set (k := - s * x + c * y).
    assert (Ed : d = - (c * x + s * y)) by lra.
    assert (X : x = - (d * c) - k * s) by (transitivity (x * (c * c + s * s)); [rewrite U; ring|rewrite Ed; unfold k; ring]).
    assert (Y : y = - (d * s) + k * c) by (transitivity (y * (c * c + s * s)); [rewrite U; ring|rewrite Ed; unfold k; ring]).
    clear Ed L L'.
    clearbody k. subst x y.
    assert (K : k * k <= w * w).
    { assert (E : (- (d * c) - k * s) * (- (d * c) - k * s) + (- (d * s) + k * c) * (- (d * s) + k * c) = d * d + k * k).
      { transitivity ((d * d + k * k) * (c * c + s * s)); [ring|rewrite U; ring]. }
      rewrite E in D. lra. }
    exists ((k + w) / (2 * w)). assert (-w <= k <= w) by nra. repeat split.
    + apply Rmult_le_pos; [lra|]. left. apply Rinv_0_lt_compat. lra.
    + apply Rmult_le_reg_r with (2 * w); [lra|]. unfold Rdiv. rewrite Rmult_assoc, Rinv_l by lra. lra.
    + field. lra.
    + field. lra.
Qed.

(** ** The same, for reflectors *)

(** The segment is the part of the line a x + b y + c = 0 within the circle of radius r about the origin. *)
Definition cut (r : R) (P : R -> R -> Prop) (s : segment) : Prop :=
  let '((x1, y1), (x2, y2)) := s in
  x1 * x1 + y1 * y1 = r * r /\ x2 * x2 + y2 * y2 = r * r /\
  forall x y, (P x y /\ x * x + y * y <= r * r) <->
              exists t, 0 <= t <= 1 /\ x = (1 - t) * x1 + t * x2 /\ y = (1 - t) * y1 + t * y2.

Lemma chord_cut r v : 0 < r -> rho v <> 0 -> Rabs (vz v / rho v) < r ->
  cut r (fun x y => vx v * x + vy v * y + vz v = 0) (chord r v).
Proof.
  intros Hr Hrho Hd. pose proof (chord_props r v Hr Hrho Hd) as H. destruct (chord r v) as [[x1 y1] [x2 y2]].
  destruct H as (L1 & L2 & C1 & C2 & _ & H). cbn [cut]. split; [exact C1|]. split; [exact C2|]. intros x y. split.
  - intros (L & D). now apply H.
  - intros (t & Ht & -> & ->). split.
    + transitivity ((1 - t) * (vx v * x1 + vy v * y1 + vz v) + t * (vx v * x2 + vy v * y2 + vz v)); [ring|rewrite L1, L2; ring].
    + clear H. pose proof (Rle_0_sqr (x1 - x2)) as Q1. pose proof (Rle_0_sqr (y1 - y2)) as Q2. unfold Rsqr in Q1, Q2.
      assert (P : 2 * (x1 * x2 + y1 * y2) <= 2 * (r * r)) by lra.
      assert (T : 0 <= t * (1 - t)) by (apply Rmult_le_pos; lra).
      replace (((1 - t) * x1 + t * x2) * ((1 - t) * x1 + t * x2) + ((1 - t) * y1 + t * y2) * ((1 - t) * y1 + t * y2))
        with ((1 - t) * (1 - t) * (x1 * x1 + y1 * y1) + t * t * (x2 * x2 + y2 * y2) + t * (1 - t) * (2 * (x1 * x2 + y1 * y2))) by ring.
      rewrite C1, C2. apply (Rmult_le_compat_l _ _ _ T) in P.
      replace (r * r) with ((1 - t) * (1 - t) * (r * r) + t * t * (r * r) + t * (1 - t) * (2 * (r * r))) at 3 by ring. lra.
Qed.

(** A line meets the open disc iff its distance from the origin is less than the radius. *)
Lemma meets_disc r v x y : rho v <> 0 -> 0 < r -> vx v * x + vy v * y + vz v = 0 -> x * x + y * y < r * r -> Rabs (vz v / rho v) < r.
Proof.
  intros Hrho Hr L D. pose proof (rho_nonneg v). assert (Hp : 0 < rho v) by lra. pose proof (rho_sq v) as S.
  assert (E : vz v * vz v <= (vx v * vx v + vy v * vy v) * (x * x + y * y)).
  { replace (vz v) with (- (vx v * x + vy v * y)) by lra. pose proof (Rle_0_sqr (vx v * y - vy v * x)) as Q. unfold Rsqr in Q. lra. }
  rewrite <- S in E. assert (P : 0 < rho v * rho v) by now apply Rmult_lt_0_compat.
  apply (Rmult_lt_compat_l _ _ _ P) in D. assert (E2 : Rsqr (vz v) < Rsqr (rho v * r)) by (unfold Rsqr; lra).
  assert (F : Rabs (vz v) < rho v * r).
  { rewrite <- (Rabs_right (rho v * r)) by (left; now apply Rmult_lt_0_compat). now apply Rsqr_lt_abs_0. }
  unfold Rdiv. rewrite Rabs_mult, (Rabs_right (/ rho v)).
  - apply Rmult_lt_reg_r with (rho v); [exact Hp|]. rewrite Rmult_assoc, Rinv_l by lra. lra.
  - left. now apply Rinv_0_lt_compat.
Qed.
Lemma meets_rho v x y : vx v * x + vy v * y + vz v = 0 -> vz v <> 0 -> rho v <> 0.
Proof.
  intros L Hz E. pose proof (rho_sq v) as S. rewrite E in S. assert (vx v = 0) by nra. assert (vy v = 0) by nra.
  rewrite H, H0 in L. lra.
Qed.

(** Length of hkl_d and uvw_d *)
Lemma hkl_d_eq base d q h : hkl_d base d q h = times (sample_to_detector d) (row_times (row_times (row_of h) (recbase_t base)) (to_matrix q)).
Proof. unfold hkl_d, u_os. now rewrite !row_times_matmul, row_times_transposed. Qed.
Lemma uvw_d_eq base d q u : uvw_d base d q u = times (sample_to_detector d) (row_times (row_times (row_of u) base) (to_matrix q)).
Proof. unfold uvw_d, u_os. now rewrite !row_times_matmul, row_times_transposed. Qed.

Lemma row_crosses m : orthonormal m ->
  cross3 (r1 m) (r2 m) = r0 m /\ cross3 (r2 m) (r0 m) = r1 m /\ cross3 (r0 m) (r1 m) = r2 m.
Proof.
  intros H. assert (T : triple (r0 m) (r1 m) (r2 m) = 1) by apply H.
  assert (G : forall c, c = row_times (times m c) m) by (intros; symmetry; now apply orthonormal_row).
  assert (E : times m (cross3 (r1 m) (r2 m)) = Vec 1 0 0 /\ times m (cross3 (r2 m) (r0 m)) = Vec 0 1 0 /\ times m (cross3 (r0 m) (r1 m)) = Vec 0 0 1).
  { clear G H. destruct m as [[a b c] [d e f] [g h i]]. unfold times, cross3, dot3, triple in *. cbn [r0 r1 r2 vx vy vz] in *.
    repeat split; f_equal; try ring; rewrite <- T; ring. }
  destruct E as (E0 & E1 & E2). rewrite (G (cross3 (r1 m) (r2 m))), (G (cross3 (r2 m) (r0 m))), (G (cross3 (r0 m) (r1 m))), E0, E1, E2.
  clear. destruct m as [[a b c] [d e f] [g h i]]. unfold row_times. cbn [r0 r1 r2 vx vy vz]. repeat split; f_equal; ring.
Qed.
Lemma cross_times m u v : orthonormal m -> times m (cross3 u v) = cross3 (times m u) (times m v).
Proof.
  intros H. destruct (row_crosses m H) as (A & B & C). 
  transitivity (Vec (dot3 (cross3 (r1 m) (r2 m)) (cross3 u v)) (dot3 (cross3 (r2 m) (r0 m)) (cross3 u v)) (dot3 (cross3 (r0 m) (r1 m)) (cross3 u v)));
    [now rewrite A, B, C|]. clear. unfold times.
  destruct m as [[a b c] [d e f] [g h i]], u as [x y z], v as [x' y' z']. unfold cross3, dot3. cbn [r0 r1 r2 vx vy vz]. f_equal; ring.
Qed.
Lemma transposed_orthonormal m : orthonormal m -> orthonormal (transposed m).
Proof.
  intros H. assert (T : triple (r0 m) (r1 m) (r2 m) = 1) by apply H.
  pose proof (orthonormal_row m (Vec 1 0 0) H) as A. pose proof (orthonormal_row m (Vec 0 1 0) H) as B. pose proof (orthonormal_row m (Vec 0 0 1) H) as C. clear H.
  destruct m as [[a b c] [d e f] [g h i]]. unfold orthonormal, transposed, times, row_times, dot, dot3, triple in *. cbn [r0 r1 r2 vx vy vz] in *.
  injection A as A1 A2 A3. injection B as B1 B2 B3. injection C as C1 C2 C3. repeat split; lra.
Qed.
Lemma cross_row_times m u v : orthonormal m -> row_times (cross3 u v) m = cross3 (row_times u m) (row_times v m).
Proof.
  intros H. rewrite <- (transposed_involutive m), !row_times_transposed. apply cross_times, transposed_orthonormal, H.
Qed.
Lemma cross_recbase base a b : proper_lattice base ->
  row_times (row_of (cross_index a b)) base
  = let g := cross3 (row_times (row_of a) (recbase_t base)) (row_times (row_of b) (recbase_t base)) in
    let V := volume base in Vec (V * vx g) (V * vy g) (V * vz g).
Proof.
  destruct base as [[p q r] [s t u] [v w x]], a as [a1 a2 a3], b as [b1 b2 b3].
  unfold proper_lattice, row_of, cross_index, row_times, recbase_t, volume, cross_rows, over, cross3, dot3. cbn [r0 r1 r2 vx vy vz i1 i2 i3].
  intros V. rewrite !minus_IZR, !mult_IZR. f_equal; field; lra.
Qed.
Lemma times_scale m k v : times m (Vec (k * vx v) (k * vy v) (k * vz v)) = let w := times m v in Vec (k * vx w) (k * vy w) (k * vz w).
Proof. destruct m as [[] [] []], v. unfold times, dot3. cbn. f_equal; ring. Qed.
Lemma row_times_scale m k v : row_times (Vec (k * vx v) (k * vy v) (k * vz v)) m = let w := row_times v m in Vec (k * vx w) (k * vy w) (k * vz w).
Proof. destruct m as [[] [] []], v. unfold row_times. cbn. f_equal; ring. Qed.

(** The zone axis of two reflectors is along the cross product of their vectors on the detector. *)
Lemma uvw_d_cross base d q a b : proper_lattice base -> unit_quaternion q ->
  uvw_d base d q (cross_index a b)
  = let g := cross3 (hkl_d base d q a) (hkl_d base d q b) in
    let V := volume base in Vec (V * vx g) (V * vy g) (V * vz g).
Proof.
  intros V Hq. rewrite uvw_d_eq, !hkl_d_eq, cross_recbase by exact V. cbv zeta.
  rewrite row_times_scale. cbv zeta. rewrite times_scale. cbv zeta.
  rewrite cross_row_times by now apply to_matrix_orthonormal. rewrite cross_times by apply s2d_orthonormal. reflexivity.
Qed.

(** Isometries *)
Lemma times_dot m u v : orthonormal m -> dot3 (times m u) (times m v) = dot3 u v.
Proof. intros H. rewrite times_adjoint'. now rewrite orthonormal_row. Qed.
Lemma row_times_dot m u v : orthonormal m -> dot3 (row_times u m) (row_times v m) = dot3 u v.
Proof. intros H. rewrite times_adjoint. now rewrite orthonormal_times. Qed.
Lemma uvw_d_length base d q u : unit_quaternion q ->
  dot3 (uvw_d base d q u) (uvw_d base d q u)
  = let t := lattice_direction base (IZR (i1 u)) (IZR (i2 u)) (IZR (i3 u)) in dot3 t t.
Proof.
  intros Hq. rewrite uvw_d_eq, times_dot by apply s2d_orthonormal. rewrite row_times_dot by now apply to_matrix_orthonormal.
  unfold row_times, lattice_direction, row_of, dot3. cbn [vx vy vz]. reflexivity.
Qed.
Lemma zone_law base d q h u : proper_lattice base -> unit_quaternion q ->
  dot3 (hkl_d base d q h) (uvw_d base d q u) = IZR (i1 h) * IZR (i1 u) + IZR (i2 h) * IZR (i2 u) + IZR (i3 h) * IZR (i3 u).
Proof.
  intros V Hq. rewrite hkl_d_eq, uvw_d_eq, times_dot by apply s2d_orthonormal. rewrite row_times_dot by now apply to_matrix_orthonormal.
  destruct (recbase_reciprocal base h V) as (A & B & C).
  set (g := row_times (row_of h) (recbase_t base)) in *.
  rewrite <- A, <- B, <- C. unfold dot3, row_times, row_of. cbn [vx vy vz]. ring.
Qed.

(** A lattice direction is seen at (x, y) iff its vector on the detector is along (x, y, 1). *)
Lemma direction_seen_iff base d q u x y : unit_quaternion q ->
  direction_seen_at base d q (IZR (i1 u)) (IZR (i2 u)) (IZR (i3 u)) x y <->
  0 < vz (uvw_d base d q u) /\ x = vx (uvw_d base d q u) / vz (uvw_d base d q u) /\ y = vy (uvw_d base d q u) / vz (uvw_d base d q u).
Proof.
  intros Hq. set (t := lattice_direction base (IZR (i1 u)) (IZR (i2 u)) (IZR (i3 u))).
  assert (Et : row_times (row_of u) base = t) by reflexivity.
  assert (E : uvw_d base d q u = times (sample_to_detector d) (row_times t (to_matrix q))) by (rewrite uvw_d_eq, Et; reflexivity).
  assert (G : forall k, 0 < k -> seen_at d q x y (Vec (k * vx t) (k * vy t) (k * vz t)) <->
            Vec x y 1 = let w := uvw_d base d q u in Vec (k * vx w) (k * vy w) (k * vz w)).
  { intros k Hk. rewrite seen_at_eq, E. cbv zeta. rewrite <- times_to_matrix.
    set (M := sample_to_detector d). set (T := to_matrix q). assert (OM : orthonormal M) by apply s2d_orthonormal. assert (OT : orthonormal T) by now apply to_matrix_orthonormal.
    unfold at_point. fold M. split.
    - intros F. apply (f_equal (fun v => times M (row_times v T))) in F. rewrite orthonormal_row, orthonormal_times in F by assumption.
      rewrite <- F, row_times_scale. cbv zeta. now rewrite times_scale.
    - intros F. rewrite F. transitivity (times T (row_times (times M (row_times (Vec (k * vx t) (k * vy t) (k * vz t)) T)) M)).
      + rewrite orthonormal_row, orthonormal_times by assumption. reflexivity.
      + rewrite row_times_scale. cbv zeta. now rewrite times_scale. }
  unfold direction_seen_at. cbv zeta. fold t.
  cbv zeta in G. clear E. generalize dependent (uvw_d base d q u). intros w G. split.
  - intros (k & Hk & H). apply (G k Hk) in H.
    assert (X : x = k * vx w) by exact (f_equal vx H). assert (Y : y = k * vy w) by exact (f_equal vy H). assert (Z : 1 = k * vz w) by exact (f_equal vz H).
    assert (Hw : 0 < vz w) by nra. assert (K : k = / vz w) by (apply Rmult_eq_reg_r with (vz w); [rewrite Rinv_l by lra; lra|lra]).
    split; [exact Hw|]. rewrite X, Y, K. split; unfold Rdiv; ring.
  - intros (Hw & X & Y). exists (/ vz w). split; [now apply Rinv_0_lt_compat|].
    apply G; [now apply Rinv_0_lt_compat|]. rewrite X, Y, Rinv_l by lra. unfold Rdiv. f_equal; ring.
Qed.

(** ** Pixels *)

Lemma pixel_eq d p x y : valid d -> 0 < pcz p ->
  pixel d p (x, y) = ((x - x_min d p) / x_scale d p, (y_max d p - y) / y_scale d p).
Proof. intros Hd Hp. unfold pixel, x_min, y_max. cbn [fst snd]. f_equal; f_equal; field; lra. Qed.
Lemma spans d p : valid d -> 0 < pcz p -> x_max d p - x_min d p = aspect_ratio d / pcz p /\ y_max d p - y_min d p = / pcz p.
Proof. intros Hd Hp. unfold x_max, x_min, y_max, y_min. split; field; lra. Qed.
Lemma x_scale_pos d p : valid d -> 0 < pcz p -> 0 < x_scale d p /\ 0 < y_scale d p.
Proof.
  intros Hd Hp. destruct (valid_pos d Hd) as [Hr Hc]. destruct (spans d p Hd Hp) as [Sx Sy]. pose proof (aspect_pos d Hd) as Ha.
  assert (0 < aspect_ratio d / pcz p) by now apply Rdiv_lt_0_compat. assert (0 < / pcz p) by now apply Rinv_0_lt_compat.
  unfold x_scale, y_scale. rewrite Sx, Sy. destruct (Z.eqb_spec (d_nx d) 1), (Z.eqb_spec (d_ny d) 1); split; try assumption;
    apply Rdiv_lt_0_compat; try assumption; unfold nrows, ncols in *.
  all: match goal with H : IZR ?z >= 1 |- _ => idtac | |- 0 < IZR ?z - 1 => enough (IZR 1 < IZR z) by lra; apply IZR_lt; assert (1 <= z)%Z by (apply le_IZR; lra); lia end.
Qed.
