(** Projective transformations of map positions and the plane of projection centers. *)
From Coq Require Import List Arith ZArith Reals Lra Lia Psatz Permutation.
From Verif Require Import Model.Detector Model.Rotations Model.PlaneFit.
From Verif Require Import Spec.PlaneSpec Proofs.PlaneFitProofs.
Import ListNotations.
Local Open Scope R_scope.

Definition hom (a : R * R) : vec := Vec (fst a) (snd a) 1.

Lemma det_kernel : forall m v, det3 m <> 0 -> dot (r0 m) v = 0 -> dot (r1 m) v = 0 -> dot (r2 m) v = 0 -> v = Vec 0 0 0.
Proof.
  intros [[a b c] [d e f] [g h i]] [x y z] D H0 H1 H2. unfold det3, dot, cross in *. cbn in *.
  set (D0 := a * (e * i - f * h) + b * (f * g - d * i) + c * (d * h - e * g)) in *.
  f_equal; apply Rmult_eq_reg_l with D0; try assumption; rewrite Rmult_0_r.
  - transitivity ((a * x + b * y + c * z) * (e * i - f * h) + (d * x + e * y + f * z) * (c * h - b * i) + (g * x + h * y + i * z) * (b * f - c * e));
      [unfold D0; ring|]. rewrite H0, H1, H2. ring.
  - transitivity ((a * x + b * y + c * z) * (f * g - d * i) + (d * x + e * y + f * z) * (a * i - c * g) + (g * x + h * y + i * z) * (c * d - a * f));
      [unfold D0; ring|]. rewrite H0, H1, H2. ring.
  - transitivity ((a * x + b * y + c * z) * (d * h - e * g) + (d * x + e * y + f * z) * (b * g - a * h) + (g * x + h * y + i * z) * (a * e - b * d));
      [unfold D0; ring|]. rewrite H0, H1, H2. ring.
Qed.

Lemma det_hom : forall a b c,
  det3 (Mat (hom a) (hom b) (hom c)) = (fst b - fst a) * (snd c - snd a) - (fst c - fst a) * (snd b - snd a).
Proof. intros [a1 a2] [b1 b2] [c1 c2]. unfold det3, dot, cross, hom. cbn. ring. Qed.

Lemma independent : forall a b c x y z, not_on_a_line a b c ->
  x * fst a + y * fst b + z * fst c = 0 -> x * snd a + y * snd b + z * snd c = 0 -> x + y + z = 0 ->
  x = 0 /\ y = 0 /\ z = 0.
Proof.
  intros [a1 a2] [b1 b2] [c1 c2] x y z N H1 H2 H3. unfold not_on_a_line in N. cbn in *.
  assert (x = - y - z) by lra. subst x.
  assert (E1 : y * (b1 - a1) + z * (c1 - a1) = 0) by lra.
  assert (E2 : y * (b2 - a2) + z * (c2 - a2) = 0) by lra.
  set (p := b1 - a1) in *. set (q := c1 - a1) in *. set (r := b2 - a2) in *. set (s := c2 - a2) in *.
  assert (y = 0).
  { apply Rmult_eq_reg_r with (p * s - q * r); [|assumption].
    transitivity (s * (y * p + z * q) - q * (y * r + z * s)); [ring|]. rewrite E1, E2. ring. }
  assert (z = 0).
  { apply Rmult_eq_reg_r with (p * s - q * r); [|assumption].
    transitivity (p * (y * r + z * s) - r * (y * p + z * q)); [ring|]. rewrite E1, E2. ring. }
  lra.
Qed.

Lemma barycentric : forall a b c d, not_on_a_line a b c -> not_on_a_line a b d -> not_on_a_line a c d -> not_on_a_line b c d ->
  exists x y z, x <> 0 /\ y <> 0 /\ z <> 0 /\ x + y + z = 1 /\
    fst d = x * fst a + y * fst b + z * fst c /\ snd d = x * snd a + y * snd b + z * snd c.
Proof.
  intros [a1 a2] [b1 b2] [c1 c2] [d1 d2] N1 N2 N3 N4. unfold not_on_a_line in *. cbn in *.
  set (D := (b1 - a1) * (c2 - a2) - (c1 - a1) * (b2 - a2)) in *.
  exists (((c1 - b1) * (d2 - b2) - (d1 - b1) * (c2 - b2)) / D),
    (- ((c1 - a1) * (d2 - a2) - (d1 - a1) * (c2 - a2)) / D),
    (((b1 - a1) * (d2 - a2) - (d1 - a1) * (b2 - a2)) / D).
  assert (I : / D <> 0) by (apply Rinv_neq_0_compat; assumption).
  repeat split.
  - unfold Rdiv. apply Rmult_integral_contrapositive. split; assumption.
  - unfold Rdiv. apply Rmult_integral_contrapositive. split; [lra|assumption].
  - unfold Rdiv. apply Rmult_integral_contrapositive. split; assumption.
  - unfold D in *. field. assumption.
  - unfold D in *. field. assumption.
  - unfold D in *. field. assumption.
Qed.

(** two transformations with the same effect on a point *)
Lemma same_point : forall m t a b, sends m a b -> sends t a b ->
  exists k, k <> 0 /\ dot (r0 m) (hom a) = k * dot (r0 t) (hom a) /\ dot (r1 m) (hom a) = k * dot (r1 t) (hom a) /\
    dot (r2 m) (hom a) = k * dot (r2 t) (hom a).
Proof.
  intros m t a b (W & X & Y) (W' & X' & Y'). change (Vec (fst a) (snd a) 1) with (hom a) in *.
  exists (dot (r2 m) (hom a) / dot (r2 t) (hom a)). split; [|split; [|split]].
  - unfold Rdiv. apply Rmult_integral_contrapositive. split; [assumption|]. apply Rinv_neq_0_compat. assumption.
  - rewrite <- X, <- X'. field. assumption.
  - rewrite <- Y, <- Y'. field. assumption.
  - field. assumption.
Qed.

Lemma dot_lin : forall r x y z a b c, dot r (Vec (x * fst a + y * fst b + z * fst c) (x * snd a + y * snd b + z * snd c) (x + y + z))
  = x * dot r (hom a) + y * dot r (hom b) + z * dot r (hom c).
Proof. intros [p q s] x y z [a1 a2] [b1 b2] [c1 c2]. unfold dot, hom. cbn. ring. Qed.

Definition row_multiple (k : R) (m t : mat) : Prop :=
  r0 m = scaled k (r0 t) /\ r1 m = scaled k (r1 t) /\ r2 m = scaled k (r2 t).

Lemma row_eq : forall a b c (u v : vec) k, not_on_a_line a b c ->
  dot u (hom a) = k * dot v (hom a) -> dot u (hom b) = k * dot v (hom b) -> dot u (hom c) = k * dot v (hom c) -> u = scaled k v.
Proof.
  intros a b c u v k N A B C.
  assert (E : minus u (scaled k v) = Vec 0 0 0).
  { apply det_kernel with (Mat (hom a) (hom b) (hom c)).
    - rewrite det_hom. exact N.
    - cbn [r0]. rewrite dot_minus, !(dot_comm (hom a)), A. destruct v; unfold dot; cbn; ring.
    - cbn [r1]. rewrite dot_minus, !(dot_comm (hom b)), B. destruct v; unfold dot; cbn; ring.
    - cbn [r2]. rewrite dot_minus, !(dot_comm (hom c)), C. destruct v; unfold dot; cbn; ring. }
  destruct u, v. unfold minus, scaled in *. cbn in *. injection E as E1 E2 E3. f_equal; lra.
Qed.

(** A projective transformation is determined by four points. *)
Lemma determined : forall src dst m t, quadrangle src -> det3 t <> 0 ->
  Forall2 (sends m) src dst -> Forall2 (sends t) src dst -> exists k, k <> 0 /\ row_multiple k m t.
Proof.
  intros src dst m t (a & b & c & d & Ha & Hb & Hc & Hd & N1 & N2 & N3 & N4) Ht Hm Hs.
  assert (P : forall p, In p src -> exists k, k <> 0 /\ dot (r0 m) (hom p) = k * dot (r0 t) (hom p) /\
     dot (r1 m) (hom p) = k * dot (r1 t) (hom p) /\ dot (r2 m) (hom p) = k * dot (r2 t) (hom p)).
  { clear - Hm Hs. revert dst Hm Hs. induction src as [|s src IH]; intros dst Hm Hs p Hp; [destruct Hp|].
    inversion Hm; subst. inversion Hs; subst. destruct Hp as [<-|Hp]; [eapply same_point; eassumption|eapply IH; eassumption]. }
  destruct (P a Ha) as (ka & Ka & A0 & A1 & A2). destruct (P b Hb) as (kb & Kb & B0 & B1 & B2).
  destruct (P c Hc) as (kc & Kc & C0 & C1 & C2). destruct (P d Hd) as (kd & Kd & D0 & D1 & D2).
  destruct (barycentric a b c d N1 N2 N3 N4) as (x & y & z & X & Y & Z & S & E1 & E2).
  assert (Hhd : hom d = Vec (x * fst a + y * fst b + z * fst c) (x * snd a + y * snd b + z * snd c) (x + y + z)).
  { unfold hom. rewrite E1, E2, S. reflexivity. }
  assert (Q : forall r, dot r (hom d) = x * dot r (hom a) + y * dot r (hom b) + z * dot r (hom c)) by (intro; rewrite Hhd; apply dot_lin).
  rewrite !Q in D0, D1, D2. rewrite A0, B0, C0 in D0. rewrite A1, B1, C1 in D1. rewrite A2, B2, C2 in D2.
  set (v := Vec (x * (ka - kd) * fst a + y * (kb - kd) * fst b + z * (kc - kd) * fst c)
                (x * (ka - kd) * snd a + y * (kb - kd) * snd b + z * (kc - kd) * snd c)
                (x * (ka - kd) + y * (kb - kd) + z * (kc - kd))).
  assert (V : v = Vec 0 0 0).
  { apply det_kernel with t; [exact Ht|..]; unfold v; rewrite dot_lin; lra. }
  unfold v in V. injection V as V1 V2 V3.
  destruct (independent a b c _ _ _ N1 V1 V2 V3) as (F1 & F2 & F3).
  apply Rmult_integral in F1. apply Rmult_integral in F2. apply Rmult_integral in F3.
  assert (ka = kd) by (destruct F1; [exfalso; auto|lra]). assert (kb = kd) by (destruct F2; [contradiction|lra]).
  assert (kc = kd) by (destruct F3; [exfalso; auto|lra]). subst ka kb kc.
  exists kd. split; [exact Kd|]. repeat split; apply row_eq with a b c; assumption.
Qed.

Lemma scaled_sends : forall k m t a b, k <> 0 -> row_multiple k m t -> sends t a b -> sends m a b.
Proof.
  intros k m t a b K (E0 & E1 & E2) (W & X & Y). unfold sends. rewrite E0, E1, E2.
  change (Vec (fst a) (snd a) 1) with (hom a) in *.
  assert (D : forall r, dot (scaled k r) (hom a) = k * dot r (hom a)) by (intros [p q s]; unfold dot; cbn; ring).
  rewrite !D. split; [apply Rmult_integral_contrapositive; auto|]. split.
  - rewrite <- X. ring.
  - rewrite <- Y. ring.
Qed.
Lemma sends_project : forall m a b, sends m a b -> project m a = Some b.
Proof.
  intros m [a1 a2] [b1 b2] (W & X & Y). unfold project. cbn [fst snd] in *.
  change (dot3 (r2 m) (Vec a1 a2 1)) with (dot (r2 m) (Vec a1 a2 1)).
  change (dot3 (r0 m) (Vec a1 a2 1)) with (dot (r0 m) (Vec a1 a2 1)).
  change (dot3 (r1 m) (Vec a1 a2 1)) with (dot (r1 m) (Vec a1 a2 1)).
  destruct (Req_EM_T (dot (r2 m) (Vec a1 a2 1)) 0) as [E|E]; [contradiction|].
  rewrite <- X, <- Y. do 2 f_equal; field; assumption.
Qed.

(** images of points which are not on a line are not on a line *)
Lemma image_not_on_a_line : forall t a b c a' b' c', det3 t <> 0 -> not_on_a_line a b c ->
  sends t a a' -> sends t b b' -> sends t c c' -> not_on_a_line a' b' c'.
Proof.
  intros t a b c a' b' c' D N (Wa & Xa & Ya) (Wb & Xb & Yb) (Wc & Xc & Yc) E.
  change (Vec (fst a) (snd a) 1) with (hom a) in *. change (Vec (fst b) (snd b) 1) with (hom b) in *. change (Vec (fst c) (snd c) 1) with (hom c) in *.
  assert (P : det3 t * det3 (Mat (hom a) (hom b) (hom c)) =
     dot (r2 t) (hom a) * dot (r2 t) (hom b) * dot (r2 t) (hom c) * det3 (Mat (hom a') (hom b') (hom c'))).
  { transitivity (det3 (Mat (Vec (dot (r0 t) (hom a)) (dot (r1 t) (hom a)) (dot (r2 t) (hom a)))
                            (Vec (dot (r0 t) (hom b)) (dot (r1 t) (hom b)) (dot (r2 t) (hom b)))
                            (Vec (dot (r0 t) (hom c)) (dot (r1 t) (hom c)) (dot (r2 t) (hom c))))).
    - clear. destruct t as [[t1 t2 t3] [t4 t5 t6] [t7 t8 t9]], a, b, c. unfold det3, dot, cross, hom. cbn. ring.
    - rewrite <- Xa, <- Xb, <- Xc, <- Ya, <- Yb, <- Yc. clear.
      generalize (dot (r2 t) (hom a)) (dot (r2 t) (hom b)) (dot (r2 t) (hom c)). intros.
      destruct a', b', c'. unfold det3, dot, cross, hom. cbn. ring. }
  rewrite (det_hom a' b' c') in P. rewrite E, Rmult_0_r in P.
  apply Rmult_integral in P. destruct P as [P|P]; [contradiction|]. rewrite det_hom in P. contradiction.
Qed.
