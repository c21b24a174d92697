From Coq Require Import Reals ZArith Lra Lia Psatz.
From Verif Require Import Model.Detector Model.Lambert.
Local Open Scope R_scope.

Lemma sign_sq x : x <> 0 -> sign x * sign x = 1.
Proof. intros. unfold sign. destruct (Rlt_dec x 0), (Rlt_dec 0 x); lra. Qed.
Lemma sign_abs x : sign x * Rabs x = x.
Proof.
  unfold sign. destruct (Rlt_dec x 0); [rewrite Rabs_left by auto; lra|].
  destruct (Rlt_dec 0 x); [rewrite Rabs_pos_eq by lra; lra|]. replace x with 0 by lra. rewrite Rabs_R0. lra.
Qed.
Lemma sign_mult_abs x : sign x * x = Rabs x.
Proof.
  unfold sign. destruct (Rlt_dec x 0); [rewrite Rabs_left by auto; lra|].
  destruct (Rlt_dec 0 x); [rewrite Rabs_pos_eq by lra; lra|]. replace x with 0 by lra. rewrite Rabs_R0. lra.
Qed.
Lemma sign_pos x : 0 < x -> sign x = 1.
Proof. intros. unfold sign. destruct (Rlt_dec x 0), (Rlt_dec 0 x); lra. Qed.
Lemma sign_neg x : x < 0 -> sign x = -1.
Proof. intros. unfold sign. destruct (Rlt_dec x 0), (Rlt_dec 0 x); lra. Qed.
Lemma sign_scale k x : 0 < k -> sign (k * x) = sign x.
Proof.
  intros Hk. unfold sign. destruct (Rlt_dec x 0), (Rlt_dec (k * x) 0), (Rlt_dec 0 x), (Rlt_dec 0 (k * x)); try reflexivity; nra.
Qed.

Lemma sqrt_PI : 0 < sqrt PI /\ sqrt PI * sqrt PI = PI.
Proof. pose proof PI_RGT_0. split; [now apply sqrt_lt_R0|apply sqrt_sqrt; lra]. Qed.
Lemma sqrt_PI2 : 0 < sqrt (PI / 2) /\ sqrt (PI / 2) * sqrt (PI / 2) = PI / 2.
Proof. pose proof PI_RGT_0. split; [apply sqrt_lt_R0; lra|apply sqrt_sqrt; lra]. Qed.

Lemma norm_nonneg v : 0 <= norm v.
Proof. apply sqrt_pos. Qed.
Lemma norm_sq v : norm v * norm v = vx v * vx v + vy v * vy v + vz v * vz v.
Proof.
  unfold norm. apply sqrt_sqrt. pose proof (Rle_0_sqr (vx v)). pose proof (Rle_0_sqr (vy v)). pose proof (Rle_0_sqr (vz v)).
  unfold Rsqr in *. lra.
Qed.
Definition nonzero (v : vec) : Prop := vx v <> 0 \/ vy v <> 0 \/ vz v <> 0.
Lemma norm_pos v : nonzero v -> 0 < norm v.
Proof.
  intros H. unfold norm. apply sqrt_lt_R0.
  pose proof (Rle_0_sqr (vx v)). pose proof (Rle_0_sqr (vy v)). pose proof (Rle_0_sqr (vz v)).
  destruct H as [H|[H|H]]; apply Rlt_0_sqr in H; unfold Rsqr in *; lra.
Qed.
Lemma normalise_unit v : nonzero v ->
  vx (normalise v) * vx (normalise v) + vy (normalise v) * vy (normalise v) + vz (normalise v) * vz (normalise v) = 1.
Proof.
  intros H. pose proof (norm_pos v H) as Hn. pose proof (norm_sq v) as E. unfold normalise. cbn [vx vy vz].
  replace (vx v / norm v * (vx v / norm v) + vy v / norm v * (vy v / norm v) + vz v / norm v * (vz v / norm v))
    with ((vx v * vx v + vy v * vy v + vz v * vz v) / (norm v * norm v)) by (field; lra).
  rewrite E. field. rewrite <- E. nra.
Qed.
Lemma unit_norm v : vx v * vx v + vy v * vy v + vz v * vz v = 1 -> normalise v = v.
Proof.
  intros H. unfold normalise, norm. rewrite H, sqrt_1. destruct v as [a b c]. cbn [vx vy vz]. f_equal; field.
Qed.

Lemma atan_0' : atan 0 = 0.
Proof. apply atan_0. Qed.
Lemma atan_quarter t : Rabs t <= 1 -> Rabs (atan t) <= PI / 4.
Proof.
  intros H. assert (U : forall t, t <= 1 -> atan t <= PI / 4).
  { intros u Hu. rewrite <- atan_1. destruct (Rle_lt_or_eq_dec u 1 Hu) as [Hl| ->]; [left; now apply atan_increasing|lra]. }
  apply Rabs_le. apply Rabs_le_inv in H || (apply Rabs_def2 in H || idtac).
  assert (-1 <= t <= 1).
  { unfold Rabs in H. destruct (Rcase_abs t); lra. }
  split; [|apply U; lra].
  assert (atan (- t) <= PI / 4) by (apply U; lra). rewrite atan_opp in H1. lra.
Qed.
Lemma div_abs_le a b : Rabs a <= Rabs b -> b <> 0 -> Rabs (a / b) <= 1.
Proof.
  intros H Hb. unfold Rdiv. rewrite Rabs_mult, Rabs_inv.
  assert (0 < Rabs b) by now apply Rabs_pos_lt.
  apply Rmult_le_reg_r with (Rabs b); [auto|]. rewrite Rmult_assoc, Rinv_l by lra. lra.
Qed.

(** ** Projected coordinates stay inside the square *)
Lemma lambert_inside v : nonzero v ->
  Rabs (fst (vector2lambert v)) <= sqrt (PI / 2) /\ Rabs (snd (vector2lambert v)) <= sqrt (PI / 2).
Proof.
  intros Hv. pose proof (normalise_unit v Hv) as Hu. unfold vector2lambert.
  set (w := normalise v) in *. set (z := Rabs (vz w)).
  destruct sqrt_PI as [P1 P2]. destruct sqrt_PI2 as [Q1 Q2]. pose proof PI_RGT_0 as HP.
  assert (Hz : 0 <= z) by apply Rabs_pos.
  assert (Hz1 : z <= 1).
  { assert (z * z <= 1). { unfold z. rewrite <- Rabs_mult, Rabs_pos_eq by apply Rle_0_sqr.
      pose proof (Rle_0_sqr (vx w)). pose proof (Rle_0_sqr (vy w)). unfold Rsqr in *. lra. }
    nra. }
  assert (S : 0 <= sqrt (2 * (1 - z)) <= sqrt 2).
  { split; [apply sqrt_pos|]. apply sqrt_le_1_alt. lra. }
  assert (K : sqrt 2 * (sqrt PI / 2) = sqrt (PI / 2)).
  { apply Rsqr_inj; [apply Rmult_le_pos; [apply sqrt_pos|lra]|lra|]. unfold Rsqr. rewrite Q2.
    replace (sqrt 2 * (sqrt PI / 2) * (sqrt 2 * (sqrt PI / 2))) with (sqrt 2 * sqrt 2 * (sqrt PI * sqrt PI) / 4) by field.
    rewrite sqrt_sqrt by lra. rewrite P2. field. }
  assert (A : forall s, Rabs s <= 1 -> Rabs (s * sqrt (2 * (1 - z)) * (sqrt PI / 2)) <= sqrt (PI / 2)).
  { intros s Hs. rewrite !Rabs_mult, (Rabs_pos_eq (sqrt (2 * _))), (Rabs_pos_eq (sqrt PI / 2)) by lra. rewrite <- K.
    apply Rmult_le_compat_r; [lra|]. pose proof (Rabs_pos s). nra. }
  assert (B : forall s t, Rabs s <= 1 -> Rabs t <= 1 -> Rabs (s * sqrt (2 * (1 - z)) * (2 / sqrt PI) * atan t) <= sqrt (PI / 2)).
  { intros s t Hs Ht. apply atan_quarter in Ht.
    assert (0 < 2 / sqrt PI) by (apply Rdiv_lt_0_compat; lra).
    rewrite !Rabs_mult, (Rabs_pos_eq (sqrt (2 * _))), (Rabs_pos_eq (2 / sqrt PI)) by lra.
    rewrite <- K. pose proof (Rabs_pos s). pose proof (Rabs_pos (atan t)).
    replace (sqrt PI / 2) with (2 / sqrt PI * (PI / 4)) by (rewrite <- P2 at 2; field; lra).
    rewrite <- Rmult_assoc. apply Rmult_le_compat; try lra.
    - apply Rmult_le_pos; [apply Rmult_le_pos; lra|lra].
    - apply Rmult_le_compat_r; [lra|]. nra. }
  assert (Sg : forall x, Rabs (sign x) <= 1).
  { intros x. unfold sign. destruct (Rlt_dec x 0), (Rlt_dec 0 x); unfold Rabs; destruct (Rcase_abs _); lra. }
  destruct (Req_EM_T z 1); [cbn [fst snd]; rewrite Rabs_R0; lra|].
  destruct (Rle_dec (Rabs (vy w)) (Rabs (vx w))) as [Hxy|Hxy]; cbn [fst snd].
  - split; [apply A, Sg|]. apply B; [apply Sg|]. apply div_abs_le; [auto|].
    intros E0. rewrite E0, Rabs_R0 in Hxy. assert (vy w = 0) by (pose proof (Rabs_pos (vy w)); destruct (Req_dec (vy w) 0); [auto|apply Rabs_pos_lt in H0; lra]).
    rewrite E0, H in Hu. apply n. unfold z. apply Rsqr_inj; [apply Rabs_pos|lra|]. rewrite <- Rsqr_abs. unfold Rsqr. lra.
  - split; [|apply A, Sg]. apply B; [apply Sg|]. apply div_abs_le; [lra|].
    intros E0. rewrite E0, Rabs_R0 in Hxy. pose proof (Rabs_pos (vx w)). lra.
Qed.

(** ** The inverse gives unit vectors on the upper hemisphere *)
Lemma in_square x : -1 <= x <= 1 -> (x * sqrt (PI / 2)) * (x * sqrt (PI / 2)) <= PI / 2.
Proof.
  intros H. destruct sqrt_PI2 as [Q1 Q2]. replace (x * sqrt (PI / 2) * (x * sqrt (PI / 2))) with (x * x * (sqrt (PI / 2) * sqrt (PI / 2))) by ring.
  rewrite Q2. pose proof PI_RGT_0. assert (x * x <= 1) by nra. nra.
Qed.
Lemma q_identity y t : y * y <= PI / 2 ->
  (2 * y * sqrt (PI - y * y) / PI * sin t) * (2 * y * sqrt (PI - y * y) / PI * sin t)
  + (2 * y * sqrt (PI - y * y) / PI * cos t) * (2 * y * sqrt (PI - y * y) / PI * cos t)
  + (1 - 2 * (y * y) / PI) * (1 - 2 * (y * y) / PI) = 1.
Proof.
  intros H. pose proof PI_RGT_0. pose proof (sin2_cos2 t) as T. unfold Rsqr in T.
  transitivity (4 * (y * y) * (sqrt (PI - y * y) * sqrt (PI - y * y)) / (PI * PI) * (sin t * sin t + cos t * cos t)
    + (1 - 2 * (y * y) / PI) * (1 - 2 * (y * y) / PI)); [field; lra|].
  rewrite T, sqrt_sqrt by lra. field. lra.
Qed.
Lemma lambert2vector_unit x y : -1 <= x <= 1 -> -1 <= y <= 1 ->
  let v := lambert2vector x y in vx v * vx v + vy v * vy v + vz v * vz v = 1 /\ 0 <= vz v.
Proof.
  intros Hx Hy. pose proof (in_square x Hx) as Sx. pose proof (in_square y Hy) as Sy. unfold lambert2vector. cbv zeta.
  set (xi := x * sqrt (PI / 2)) in *. set (yi := y * sqrt (PI / 2)) in *. pose proof PI_RGT_0.
  assert (Zp : forall t, t <= PI / 2 -> 0 <= 1 - 2 * t / PI).
  { intros t Ht. apply Rmult_le_reg_r with PI; [auto|]. replace ((1 - 2 * t / PI) * PI) with (PI - 2 * t) by (field; lra). lra. }
  destruct (Req_EM_T _ 0); [cbn [vx vy vz]; split; lra|].
  destruct (Rle_dec (Rabs xi) (Rabs yi)); cbn [vx vy vz]; (split; [|now apply Zp]).
  - apply q_identity. auto.
  - rewrite (Rplus_comm (_ * cos _ * _)). apply q_identity. auto.
Qed.

(** ** Round trips *)
Section RoundTrip.
Variables x y : R.
Hypothesis Hx : -1 <= x <= 1. Hypothesis Hy : -1 <= y <= 1.
Let k := sqrt (PI / 2).
Let xi := x * k. Let yi := y * k.

Lemma sqrt_four t : 0 <= t -> sqrt (2 * (1 - Rabs (1 - 2 * (t * t) / PI))) = 2 * t / sqrt PI \/ PI / 2 < t * t.
Proof using.
  intros Ht. destruct (Rle_lt_dec (t * t) (PI / 2)) as [Hl|Hl]; [left|now right].
  pose proof PI_RGT_0 as HP. destruct sqrt_PI as [P1 P2].
  rewrite Rabs_pos_eq.
  - replace (2 * (1 - (1 - 2 * (t * t) / PI))) with ((2 * t / sqrt PI) * (2 * t / sqrt PI)).
    + apply sqrt_square. unfold Rdiv. apply Rmult_le_pos; [lra|]. left. now apply Rinv_0_lt_compat.
    + replace (2 * t / sqrt PI * (2 * t / sqrt PI)) with (4 * (t * t) / (sqrt PI * sqrt PI)) by (field; lra).
      rewrite P2. field. lra.
  - apply Rmult_le_reg_r with PI; [auto|]. replace ((1 - 2 * (t * t) / PI) * PI) with (PI - 2 * (t * t)) by (field; lra). lra.
Qed.
End RoundTrip.

(** Facts about an angle in the eighth of a circle. *)
Lemma eighth t : Rabs t <= PI / 4 -> 0 < cos t /\ Rabs (sin t) <= cos t /\ (Rabs t < PI / 4 -> Rabs (sin t) < cos t).
Proof.
  intros H. pose proof PI_RGT_0.
  assert (B : - (PI / 4) <= t <= PI / 4) by (unfold Rabs in H; destruct (Rcase_abs t); lra).
  assert (Hc : 0 < cos t) by (apply cos_gt_0; lra).
  assert (C2 : cos t * cos t - sin t * sin t = cos (2 * t)) by (now rewrite cos_2a).
  split; [auto|]. split.
  - assert (0 <= cos (2 * t)) by (apply cos_ge_0; lra).
    apply Rsqr_incr_0; [|apply Rabs_pos|lra]. rewrite <- Rsqr_abs. unfold Rsqr. lra.
  - intros Hlt. assert (- (PI / 4) < t < PI / 4) by (unfold Rabs in Hlt; destruct (Rcase_abs t); lra).
    assert (0 < cos (2 * t)) by (apply cos_gt_0; lra).
    apply Rsqr_incrst_0; [|apply Rabs_pos|lra]. rewrite <- Rsqr_abs. unfold Rsqr. lra.
Qed.

Lemma v2l_of_unit v : vx v * vx v + vy v * vy v + vz v * vz v = 1 -> vector2lambert v =
  let abs_z := Rabs (vz v) in
  let sqrt_z := sqrt (2 * (1 - abs_z)) in
  if Req_EM_T abs_z 1 then (0, 0)
  else if Rle_dec (Rabs (vy v)) (Rabs (vx v)) then
    let s := sign (vx v) in
    (s * sqrt_z * (sqrt PI / 2), s * sqrt_z * (2 / sqrt PI) * atan (vy v / vx v))
  else
    let s := sign (vy v) in
    (s * sqrt_z * (2 / sqrt PI) * atan (vx v / vy v), s * sqrt_z * (sqrt PI / 2)).
Proof. intros H. unfold vector2lambert. rewrite unit_norm by auto. reflexivity. Qed.

(** The branch in which b is the larger coordinate: q cos(qq) belongs to b, q sin(qq) to a. *)
Lemma branch a b : b * b <= PI / 2 -> b <> 0 -> Rabs a <= Rabs b ->
  let q := 2 * b * sqrt (PI - b * b) / PI in
  let qq := a * PI * (1 / 4) / b in
  let z := 1 - 2 * (b * b) / PI in
  Rabs z <> 1 /\ q <> 0 /\ Rabs qq <= PI / 4 /\ (Rabs a < Rabs b -> Rabs qq < PI / 4)
  /\ sign q = sign b /\ sqrt (2 * (1 - Rabs z)) = 2 * Rabs b / sqrt PI.
Proof.
  intros Hb Hb0 Hab q qq z. pose proof PI_RGT_0 as HP. destruct sqrt_PI as [P1 P2].
  assert (Hab0 : 0 < Rabs b) by now apply Rabs_pos_lt.
  assert (Hr : 0 < sqrt (PI - b * b)) by (apply sqrt_lt_R0; lra).
  assert (Hbb : 0 < b * b) by (apply Rlt_0_sqr in Hb0; exact Hb0).
  assert (Hz : 0 <= z < 1).
  { unfold z. split; apply Rmult_le_reg_r with PI || apply Rmult_lt_reg_r with PI; auto;
      replace ((1 - 2 * (b * b) / PI) * PI) with (PI - 2 * (b * b)) by (field; lra); lra. }
  assert (Eqq : Rabs qq = Rabs a / Rabs b * (PI / 4)).
  { unfold qq. replace (a * PI * (1 / 4) / b) with (a * / b * (PI / 4)) by (field; auto).
    rewrite !Rabs_mult, Rabs_inv, (Rabs_pos_eq (PI / 4)) by lra. reflexivity. }
  split; [rewrite Rabs_pos_eq by lra; lra|]. split; [|split; [|split; [|split]]].
  - unfold q. intros E. apply Hb0. apply (f_equal (fun t => t * PI / (2 * sqrt (PI - b * b)))) in E.
    replace (2 * b * sqrt (PI - b * b) / PI * PI / (2 * sqrt (PI - b * b))) with b in E by (field; split; lra). rewrite E. field. lra.
  - rewrite Eqq. assert (Rabs a / Rabs b <= 1) by (apply Rmult_le_reg_r with (Rabs b); [auto|]; unfold Rdiv; rewrite Rmult_assoc, Rinv_l by lra; lra).
    nra.
  - intros Hlt. rewrite Eqq. assert (Rabs a / Rabs b < 1) by (apply Rmult_lt_reg_r with (Rabs b); [auto|]; unfold Rdiv; rewrite Rmult_assoc, Rinv_l by lra; lra).
    nra.
  - unfold q. replace (2 * b * sqrt (PI - b * b) / PI) with (2 * sqrt (PI - b * b) / PI * b) by (field; lra). apply sign_scale.
    apply Rdiv_lt_0_compat; lra.
  - unfold z. destruct (sqrt_four (Rabs b)) as [E|E]; [lra| |].
    + rewrite <- Rabs_mult, (Rabs_pos_eq (b * b)) in E by lra. exact E.
    + rewrite <- Rabs_mult, (Rabs_pos_eq (b * b)) in E by lra. lra.
Qed.

Lemma v2l_l2v x y : -1 <= x <= 1 -> -1 <= y <= 1 ->
  vector2lambert (lambert2vector x y) = (x * sqrt (PI / 2), y * sqrt (PI / 2)).
Proof.
  intros Hx Hy. destruct (lambert2vector_unit x y Hx Hy) as [Hu _].
  pose proof (in_square x Hx) as Sx. pose proof (in_square y Hy) as Sy.
  rewrite v2l_of_unit by exact Hu. clear Hu. cbv zeta. unfold lambert2vector. cbv zeta.
  set (xi := x * sqrt (PI / 2)) in *. set (yi := y * sqrt (PI / 2)) in *. clearbody xi yi. clear x y Hx Hy.
  pose proof PI_RGT_0 as HP. destruct sqrt_PI as [P1 P2].
  destruct (Req_EM_T (Rmax (Rabs xi) (Rabs yi)) 0) as [E|E].
  { cbn [vx vy vz]. rewrite Rabs_pos_eq by lra. destruct (Req_EM_T 1 1); [|lra].
    pose proof (Rmax_l (Rabs xi) (Rabs yi)). pose proof (Rmax_r (Rabs xi) (Rabs yi)).
    pose proof (Rabs_pos xi). pose proof (Rabs_pos yi).
    assert (Z : forall t, Rabs t = 0 -> t = 0) by (intros t Ht; destruct (Req_dec t 0) as [|N]; [auto|apply Rabs_no_R0 in N; lra]).
    rewrite (Z xi), (Z yi) by lra. reflexivity. }
  assert (Coef : forall b t, b <> 0 -> sign b * (2 * Rabs b / sqrt PI) * (2 / sqrt PI) * (t * PI * (1 / 4) / b) = t).
  { intros b t Hb. transitivity (sign b * Rabs b * / b * t * (PI / (sqrt PI * sqrt PI))); [field; split; lra|].
    rewrite sign_abs, P2. field. split; lra. }
  assert (Coef1 : forall b, sign b * (2 * Rabs b / sqrt PI) * (sqrt PI / 2) = b).
  { intros b. transitivity (sign b * Rabs b); [field; lra|apply sign_abs]. }
  assert (Big : forall b a, Rabs a <= Rabs b -> Rmax (Rabs a) (Rabs b) <> 0 -> b <> 0).
  { intros b a Hle Hm ->. apply Hm. rewrite Rabs_R0 in *. pose proof (Rabs_pos a). rewrite Rmax_left by lra. lra. }
  (* the diagonal: both coordinates have the same modulus *)
  assert (Diag : forall a b, a <> 0 -> Rabs a = Rabs b ->
            sign a * (2 * Rabs b / sqrt PI) * (2 / sqrt PI) * atan (b / a) = b).
  { intros a b Ha Hab. assert (D : b = a \/ b = - a).
    { unfold Rabs in Hab. destruct (Rcase_abs a), (Rcase_abs b); lra. }
    rewrite <- Hab. destruct D as [-> | ->].
    - replace (a / a) with 1 by (field; auto). rewrite atan_1.
      transitivity (sign a * Rabs a * (PI / (sqrt PI * sqrt PI))); [field; lra|]. rewrite sign_abs, P2. field. lra.
    - replace (- a / a) with (- (1)) by (field; auto). rewrite atan_opp, atan_1.
      transitivity (- (sign a * Rabs a * (PI / (sqrt PI * sqrt PI)))); [field; lra|]. rewrite sign_abs, P2. field. lra. }
  destruct (Rle_dec (Rabs xi) (Rabs yi)) as [Hle|Hle].
  - assert (Hyi : yi <> 0) by (apply (Big yi xi); auto).
    destruct (branch xi yi Sy Hyi Hle) as (Hz & Hq & Hqq & Hlt & Hs & Hsq).
    set (q := 2 * yi * sqrt (PI - yi * yi) / PI) in *. set (qq := xi * PI * (1 / 4) / yi) in *. cbn [vx vy vz].
    destruct (eighth qq Hqq) as (C1 & C2 & C3).
    destruct (Req_EM_T (Rabs (1 - 2 * (yi * yi) / PI)) 1) as [|_]; [contradiction|]. rewrite Hsq.
    destruct (Rle_dec (Rabs (q * cos qq)) (Rabs (q * sin qq))) as [Hd|Hd].
    + (* |xi| = |yi| *)
      rewrite !Rabs_mult in Hd. apply Rmult_le_reg_l in Hd; [|now apply Rabs_pos_lt]. rewrite (Rabs_pos_eq (cos qq)) in Hd by lra.
      destruct (Rle_lt_or_eq_dec _ _ Hle) as [Hl|Heq]; [exfalso; specialize (Hlt Hl); specialize (C3 Hlt); lra|].
      assert (Hxi : xi <> 0) by (intros ->; rewrite Rabs_R0 in Heq; apply Rabs_pos_lt in Hyi; lra).
      assert (D : xi = yi \/ xi = - yi) by (unfold Rabs in Heq; destruct (Rcase_abs xi), (Rcase_abs yi); lra).
      assert (Sqq : sign (q * sin qq) = sign xi /\ q * cos qq / (q * sin qq) = yi / xi).
      { destruct D as [D|D].
        - assert (Eq : qq = PI / 4) by (unfold qq; rewrite D; field; auto). rewrite Eq, sin_PI4, cos_PI4.
          assert (0 < 1 / sqrt 2) by (apply Rdiv_lt_0_compat; [lra|apply sqrt_lt_R0; lra]).
          split; [rewrite Rmult_comm, sign_scale by auto; rewrite Hs, D; reflexivity|]. rewrite D. field.
          repeat split; auto. apply Rgt_not_eq, sqrt_lt_R0. lra.
        - assert (Eq : qq = - (PI / 4)) by (unfold qq; rewrite D; field; auto). rewrite Eq, sin_neg, cos_neg, sin_PI4, cos_PI4.
          assert (0 < 1 / sqrt 2) by (apply Rdiv_lt_0_compat; [lra|apply sqrt_lt_R0; lra]).
          split.
          + replace (q * - (1 / sqrt 2)) with (1 / sqrt 2 * - q) by ring. rewrite sign_scale by auto. rewrite D.
            clear - Hs Hq Hyi. unfold sign in *. destruct (Rlt_dec q 0), (Rlt_dec 0 q), (Rlt_dec yi 0), (Rlt_dec 0 yi), (Rlt_dec (- q) 0), (Rlt_dec 0 (- q)), (Rlt_dec (- yi) 0), (Rlt_dec 0 (- yi)); lra.
          + rewrite D. field. repeat split; auto. apply Rgt_not_eq, sqrt_lt_R0. lra. }
      destruct Sqq as [Sqq Rqq]. rewrite Sqq, Rqq. f_equal.
      * rewrite <- Heq. apply Coef1.
      * apply Diag; auto.
    + assert (Sc : sign (q * cos qq) = sign yi) by (rewrite Rmult_comm, sign_scale by auto; exact Hs).
      assert (At : atan (q * sin qq / (q * cos qq)) = qq).
      { replace (q * sin qq / (q * cos qq)) with (tan qq) by (unfold tan; field; split; lra). apply atan_tan.
        unfold Rabs in Hqq. destruct (Rcase_abs qq); lra. }
      rewrite Sc, At. f_equal; [apply Coef; auto|apply Coef1].
  - assert (Hle' : Rabs yi <= Rabs xi) by lra. assert (Hl : Rabs yi < Rabs xi) by lra.
    assert (Hxi : xi <> 0) by (intros ->; rewrite Rabs_R0 in Hl; pose proof (Rabs_pos yi); lra).
    destruct (branch yi xi Sx Hxi Hle') as (Hz & Hq & Hqq & Hlt & Hs & Hsq).
    set (q := 2 * xi * sqrt (PI - xi * xi) / PI) in *. set (qq := yi * PI * (1 / 4) / xi) in *. cbn [vx vy vz].
    specialize (Hlt Hl). destruct (eighth qq Hqq) as (C1 & C2 & C3). specialize (C3 Hlt).
    destruct (Req_EM_T (Rabs (1 - 2 * (xi * xi) / PI)) 1) as [|_]; [contradiction|]. rewrite Hsq.
    destruct (Rle_dec (Rabs (q * sin qq)) (Rabs (q * cos qq))) as [Hd|Hd].
    + assert (Sc : sign (q * cos qq) = sign xi) by (rewrite Rmult_comm, sign_scale by auto; exact Hs).
      assert (At : atan (q * sin qq / (q * cos qq)) = qq).
      { replace (q * sin qq / (q * cos qq)) with (tan qq) by (unfold tan; field; split; lra). apply atan_tan.
        unfold Rabs in Hqq. destruct (Rcase_abs qq); lra. }
      rewrite Sc, At. f_equal; [apply Coef1|apply Coef; auto].
    + exfalso. apply Hd. rewrite !Rabs_mult. apply Rmult_le_compat_l; [apply Rabs_pos|]. rewrite (Rabs_pos_eq (cos qq)); lra.
Qed.

(** ** The other round trip: the direction is recovered, folded onto the upper hemisphere *)
Lemma vec_ext u v : vx u = vx v -> vy u = vy v -> vz u = vz v -> u = v.
Proof. destruct u as [a b c], v as [a' b' c']. cbn. intros -> -> ->. reflexivity. Qed.

(** The larger coordinate b of a unit vector (a, b, z): what the projection gives for it, and what the
    inverse makes of that. *)
Lemma back a b z : a * a + b * b + z * z = 1 -> Rabs a <= Rabs b -> Rabs z <> 1 ->
  let s := sqrt (2 * (1 - Rabs z)) in
  let B := sign b * s * (sqrt PI / 2) in
  let A := sign b * s * (2 / sqrt PI) * atan (a / b) in
  let q := 2 * B * sqrt (PI - B * B) / PI in
  let qq := A * PI * (1 / 4) / B in
  b <> 0 /\ B <> 0 /\ (Rabs a < Rabs b -> Rabs A < Rabs B) /\ Rabs A <= Rabs B /\ (Rabs a = Rabs b -> Rabs A = Rabs B)
  /\ q * sin qq = a /\ q * cos qq = b /\ 1 - 2 * (B * B) / PI = Rabs z.
Proof.
  intros Hu Hab Hz s B A q qq. pose proof PI_RGT_0 as HP. destruct sqrt_PI as [P1 P2].
  assert (Hb : b <> 0).
  { intros ->. rewrite Rabs_R0 in Hab. assert (a = 0) by (pose proof (Rabs_pos a); destruct (Req_dec a 0) as [|N]; [auto|apply Rabs_pos_lt in N; lra]).
    subst a. apply Hz. apply Rsqr_inj; [apply Rabs_pos|lra|]. rewrite <- Rsqr_abs. unfold Rsqr. lra. }
  assert (Hz0 : 0 <= Rabs z) by apply Rabs_pos.
  assert (Hzz : Rabs z * Rabs z = z * z) by (rewrite <- Rabs_mult; apply Rabs_pos_eq, Rle_0_sqr).
  assert (Hbb : 0 < b * b) by (apply Rlt_0_sqr in Hb; exact Hb).
  assert (Hz1 : Rabs z < 1) by (pose proof (Rle_0_sqr a); unfold Rsqr in *; nra).
  assert (Hs : 0 < s) by (apply sqrt_lt_R0; lra).
  assert (Hss : s * s = 2 * (1 - Rabs z)) by (apply sqrt_sqrt; lra).
  assert (Sb : sign b * sign b = 1) by now apply sign_sq.
  assert (Sb0 : sign b <> 0) by nra.
  assert (BB : B * B = (1 - Rabs z) * (PI / 2)).
  { unfold B. replace (sign b * s * (sqrt PI / 2) * (sign b * s * (sqrt PI / 2))) with (sign b * sign b * (s * s) * (sqrt PI * sqrt PI) / 4) by field.
    rewrite Sb, Hss, P2. field. }
  assert (HB : B <> 0) by (intros E; rewrite E in BB; nra).
  assert (EA : A = B * (atan (a / b) / (PI / 4))).
  { unfold A, B. replace (PI / 4) with (sqrt PI * sqrt PI / 4) by (rewrite P2; reflexivity). field. lra. }
  assert (Eqq : qq = atan (a / b)) by (unfold qq; rewrite EA; field; split; lra).
  assert (Hat : Rabs (atan (a / b)) <= PI / 4) by (apply atan_quarter, div_abs_le; auto).
  assert (AbsA : Rabs A = Rabs B * (Rabs (atan (a / b)) / (PI / 4))).
  { rewrite EA, Rabs_mult. f_equal. unfold Rdiv at 1. rewrite Rabs_mult, (Rabs_pos_eq (/ (PI / 4))); [reflexivity|].
    left. apply Rinv_0_lt_compat. lra. }
  assert (HBp : 0 < Rabs B) by now apply Rabs_pos_lt.
  assert (Fr : forall t, t / (PI / 4) * (PI / 4) = t) by (intros; field; lra).
  split; [auto|]. split; [auto|]. split; [|split; [|split; [|split; [|split]]]].
  - intros Hlt. rewrite AbsA.
    assert (Rabs (atan (a / b)) < PI / 4).
    { assert (Hr : Rabs (a / b) < 1).
      { unfold Rdiv. rewrite Rabs_mult, Rabs_inv. apply Rmult_lt_reg_r with (Rabs b); [now apply Rabs_pos_lt|].
        rewrite Rmult_assoc, Rinv_l by now apply Rabs_no_R0. lra. }
      apply Rabs_def2 in Hr. apply Rabs_def1.
      - rewrite <- atan_1. apply atan_increasing. lra.
      - rewrite <- atan_1, <- atan_opp. apply atan_increasing. lra. }
    assert (Rabs (atan (a / b)) / (PI / 4) < 1) by (apply Rmult_lt_reg_r with (PI / 4); [lra|]; rewrite Fr; lra). nra.
  - rewrite AbsA. assert (Rabs (atan (a / b)) / (PI / 4) <= 1) by (apply Rmult_le_reg_r with (PI / 4); [lra|]; rewrite Fr; lra). nra.
  - intros Heq. rewrite AbsA. assert (D : a = b \/ a = - b) by (unfold Rabs in Heq; destruct (Rcase_abs a), (Rcase_abs b); lra).
    destruct D as [-> | ->].
    + replace (b / b) with 1 by (field; auto). rewrite atan_1, (Rabs_pos_eq (PI / 4)) by lra. field. lra.
    + replace (- b / b) with (-(1)) by (field; auto). rewrite atan_opp, atan_1, Rabs_Ropp, (Rabs_pos_eq (PI / 4)) by lra. field. lra.
  - (* q sin qq = a *)
    rewrite Eqq, sin_atan. set (t := a / b).
    assert (Hq : q = sign b * sqrt (1 - z * z)).
    { unfold q. rewrite BB. replace (PI - (1 - Rabs z) * (PI / 2)) with (PI / 2 * (1 + Rabs z)) by field.
      assert (E : B * sqrt (PI / 2 * (1 + Rabs z)) = sign b * (PI / 2) * sqrt (1 - z * z)).
      { unfold B, s. rewrite <- P2 at 3. replace (1 - z * z) with ((1 - Rabs z) * (1 + Rabs z)) by (rewrite <- Hzz; ring).
        rewrite (sqrt_mult 2 (1 - Rabs z)) by lra. rewrite (sqrt_mult (PI / 2) (1 + Rabs z)) by lra. rewrite (sqrt_mult (1 - Rabs z) (1 + Rabs z)) by lra.
        assert (E2 : sqrt (PI / 2) = sqrt PI / sqrt 2) by (apply sqrt_div_alt; lra). rewrite E2.
        assert (0 < sqrt 2) by (apply sqrt_lt_R0; lra). field. lra. }
      rewrite Rmult_assoc, E. field. lra. }
    assert (Ht : sqrt (1 + t * t) * Rabs b = sqrt (1 - z * z)).
    { replace (1 - z * z) with ((1 + t * t) * (b * b)) by (unfold t; transitivity (b * b + a * a); [field; auto|lra]).
      rewrite sqrt_mult by (try lra; pose proof (Rle_0_sqr t); unfold Rsqr in *; lra). f_equal. symmetry. apply sqrt_Rsqr_abs. }
    assert (Hp : 0 < sqrt (1 + t * t)) by (apply sqrt_lt_R0; pose proof (Rle_0_sqr t); unfold Rsqr in *; lra).
    unfold Rsqr. rewrite Hq, <- Ht. transitivity (sign b * Rabs b * t); [field; lra|]. rewrite sign_abs. unfold t. field. auto.
  - rewrite Eqq, cos_atan. set (t := a / b).
    assert (Hq : q = sign b * sqrt (1 - z * z)).
    { unfold q. rewrite BB. replace (PI - (1 - Rabs z) * (PI / 2)) with (PI / 2 * (1 + Rabs z)) by field.
      assert (E : B * sqrt (PI / 2 * (1 + Rabs z)) = sign b * (PI / 2) * sqrt (1 - z * z)).
      { unfold B, s. rewrite <- P2 at 3. replace (1 - z * z) with ((1 - Rabs z) * (1 + Rabs z)) by (rewrite <- Hzz; ring).
        rewrite (sqrt_mult 2 (1 - Rabs z)) by lra. rewrite (sqrt_mult (PI / 2) (1 + Rabs z)) by lra. rewrite (sqrt_mult (1 - Rabs z) (1 + Rabs z)) by lra.
        assert (E2 : sqrt (PI / 2) = sqrt PI / sqrt 2) by (apply sqrt_div_alt; lra). rewrite E2.
        assert (0 < sqrt 2) by (apply sqrt_lt_R0; lra). field. lra. }
      rewrite Rmult_assoc, E. field. lra. }
    assert (Ht : sqrt (1 + t * t) * Rabs b = sqrt (1 - z * z)).
    { replace (1 - z * z) with ((1 + t * t) * (b * b)) by (unfold t; transitivity (b * b + a * a); [field; auto|lra]).
      rewrite sqrt_mult by (try lra; pose proof (Rle_0_sqr t); unfold Rsqr in *; lra). f_equal. symmetry. apply sqrt_Rsqr_abs. }
    assert (Hp : 0 < sqrt (1 + t * t)) by (apply sqrt_lt_R0; pose proof (Rle_0_sqr t); unfold Rsqr in *; lra).
    unfold Rsqr. rewrite Hq, <- Ht. transitivity (sign b * Rabs b); [field; lra|]. apply sign_abs.
  - rewrite BB. field. lra.
Qed.

Lemma l2v_v2l v : nonzero v ->
  let (X, Y) := vector2lambert v in
  lambert2vector (X / sqrt (PI / 2)) (Y / sqrt (PI / 2))
  = Vec (vx v / norm v) (vy v / norm v) (Rabs (vz v / norm v))
  \/ vx v = 0 /\ vy v = 0 /\ X = 0 /\ Y = 0.
Proof.
  intros Hv. pose proof (normalise_unit v Hv) as Hu. pose proof (norm_pos v Hv) as Hn. unfold vector2lambert.
  destruct sqrt_PI2 as [Q1 Q2].
  assert (C : forall t, t / sqrt (PI / 2) * sqrt (PI / 2) = t) by (intros; field; lra).
  unfold normalise in *. cbn [vx vy vz] in *. set (a := vx v / norm v) in *. set (b := vy v / norm v) in *. set (z := vz v / norm v) in *.
  destruct (Req_EM_T (Rabs z) 1) as [E|E].
  - right. assert (z * z = 1). { rewrite <- (Rabs_pos_eq (z * z)) by apply Rle_0_sqr. rewrite Rabs_mult, E. lra. }
    assert (Za : a = 0 /\ b = 0).
    { pose proof (Rle_0_sqr a). pose proof (Rle_0_sqr b). unfold Rsqr in *. split; apply Rsqr_0_uniq; unfold Rsqr; lra. }
    assert (D : forall t, t / norm v = 0 -> t = 0).
    { intros t Ht. replace t with (t / norm v * norm v) by (field; lra). rewrite Ht. ring. }
    destruct Za as [Za Zb]. unfold a, b in *. repeat split; auto.
  - destruct (Rle_dec (Rabs b) (Rabs a)) as [Hle|Hle]; left.
    + destruct (back b a z) as (Ha & HB & Hlt & Hle' & Heq & Es & Ec & Ez); [lra|auto|auto|].
      set (X := sign a * sqrt (2 * (1 - Rabs z)) * (sqrt PI / 2)) in *.
      set (Y := sign a * sqrt (2 * (1 - Rabs z)) * (2 / sqrt PI) * atan (b / a)) in *.
      unfold lambert2vector. cbv zeta. rewrite !C.
      destruct (Req_EM_T _ 0) as [Em|_]; [exfalso; apply (Rabs_no_R0 X HB); pose proof (Rmax_l (Rabs X) (Rabs Y)); pose proof (Rabs_pos X); lra|].
      destruct (Rle_dec (Rabs X) (Rabs Y)) as [Hd|Hd].
      * (* |b| = |a| : the inverse takes the other branch *)
        destruct (Rle_lt_or_eq_dec _ _ Hle) as [Hl|Hab]; [specialize (Hlt Hl); lra|].
        assert (HX : Rabs X = Rabs Y) by lra.
        assert (D : X = Y \/ X = - Y) by (unfold Rabs in HX; destruct (Rcase_abs X), (Rcase_abs Y); lra).
        assert (HY : Y <> 0) by (destruct D as [D|D]; intros E0; apply HB; rewrite D, E0; ring).
        assert (P4 : PI * (1 / 4) = PI / 4) by lra.
        assert (R2 : sin (PI / 4) = cos (PI / 4)) by now rewrite sin_PI4, cos_PI4.
        destruct D as [D|D].
        -- rewrite D in Es, Ec, Ez |- *.
           apply vec_ext; cbn [vx vy vz]; [| |exact Ez].
           ++ rewrite <- Ec. replace (Y * PI * (1 / 4) / Y) with (PI / 4) by (field; auto). now rewrite R2.
           ++ rewrite <- Es. replace (Y * PI * (1 / 4) / Y) with (PI / 4) by (field; auto). now rewrite R2.
        -- rewrite D in Es, Ec, Ez |- *.
           replace (Y * PI * (1 / 4) / - Y) with (- (PI / 4)) in Es, Ec by (field; auto).
           replace (- Y * PI * (1 / 4) / Y) with (- (PI / 4)) by (field; auto).
           replace (- Y * - Y) with (Y * Y) in Es, Ec, Ez by ring.
           replace (2 * - Y) with (- (2 * Y)) in Es, Ec by ring.
           rewrite sin_neg, cos_neg in *. apply vec_ext; cbn [vx vy vz]; [| |exact Ez].
           ++ rewrite <- Ec, R2. unfold Rdiv. ring.
           ++ rewrite <- Es, R2. unfold Rdiv. ring.
      * apply vec_ext; cbn [vx vy vz]; assumption.
    + assert (Hle2 : Rabs a <= Rabs b) by lra. assert (Hl : Rabs a < Rabs b) by lra.
      destruct (back a b z) as (Ha & HB & Hlt & Hle' & Heq & Es & Ec & Ez); [lra|auto|auto|].
      set (Y := sign b * sqrt (2 * (1 - Rabs z)) * (sqrt PI / 2)) in *.
      set (X := sign b * sqrt (2 * (1 - Rabs z)) * (2 / sqrt PI) * atan (a / b)) in *.
      unfold lambert2vector. cbv zeta. rewrite !C.
      destruct (Req_EM_T _ 0) as [Em|_]; [exfalso; apply (Rabs_no_R0 Y HB); pose proof (Rmax_r (Rabs X) (Rabs Y)); pose proof (Rabs_pos Y); lra|].
      destruct (Rle_dec (Rabs X) (Rabs Y)) as [Hd|Hd]; [|contradiction].
      apply vec_ext; cbn [vx vy vz]; assumption.
Qed.

Lemma l2v_v2l_all v : nonzero v ->
  let (X, Y) := vector2lambert v in
  lambert2vector (X / sqrt (PI / 2)) (Y / sqrt (PI / 2)) = Vec (vx v / norm v) (vy v / norm v) (Rabs (vz v / norm v)).
Proof.
  intros Hv. pose proof (l2v_v2l v Hv) as H. pose proof (norm_pos v Hv) as Hn. pose proof (normalise_unit v Hv) as Hu.
  destruct (vector2lambert v) as [X Y]. destruct H as [H|(Hx & Hy & -> & ->)]; [exact H|].
  replace (0 / sqrt (PI / 2)) with 0 by (unfold Rdiv; ring). unfold lambert2vector. rewrite Rmult_0_l, Rabs_R0.
  rewrite Rmax_left by lra. destruct (Req_EM_T 0 0); [|lra]. unfold normalise in Hu. cbn [vx vy vz] in Hu.
  rewrite Hx, Hy in *. replace (0 / norm v) with 0 in * by (unfold Rdiv; ring).
  apply vec_ext; cbn [vx vy vz]; try reflexivity. symmetry. apply Rsqr_inj; [apply Rabs_pos|lra|]. rewrite <- Rsqr_abs. unfold Rsqr. lra.
Qed.

Lemma normalise_scale k v : 0 < k -> nonzero v -> normalise (Vec (k * vx v) (k * vy v) (k * vz v)) = normalise v.
Proof.
  intros Hk Hv. pose proof (norm_pos v Hv) as Hn.
  assert (E : norm (Vec (k * vx v) (k * vy v) (k * vz v)) = k * norm v).
  { unfold norm. cbn [vx vy vz]. replace (k * vx v * (k * vx v) + k * vy v * (k * vy v) + k * vz v * (k * vz v))
      with ((k * k) * (vx v * vx v + vy v * vy v + vz v * vz v)) by ring.
    rewrite sqrt_mult_alt by nra. f_equal. apply sqrt_square. lra. }
  unfold normalise. rewrite E. cbn [vx vy vz]. apply vec_ext; cbn [vx vy vz]; field; lra.
Qed.
Lemma v2l_scale k v : 0 < k -> nonzero v -> vector2lambert (Vec (k * vx v) (k * vy v) (k * vz v)) = vector2lambert v.
Proof. intros. unfold vector2lambert. now rewrite normalise_scale. Qed.
Lemma v2l_mirror v : vector2lambert (Vec (vx v) (vy v) (- vz v)) = vector2lambert v.
Proof.
  assert (E : norm (Vec (vx v) (vy v) (- vz v)) = norm v) by (unfold norm; cbn [vx vy vz]; f_equal; ring).
  unfold vector2lambert, normalise. rewrite E. cbn [vx vy vz].
  replace (- vz v / norm v) with (- (vz v / norm v)) by (unfold Rdiv; ring). rewrite Rabs_Ropp. reflexivity.
Qed.
