(** A direction in which a set of points has the smallest sum of squares exists, so that the statements
    about the singular value decomposition are not empty. *)
From Coq Require Import List Arith Reals Lra Lia Psatz ClassicalEpsilon.
From Verif Require Import Model.Detector Model.PlaneFit Spec.PlaneSpec Proofs.PlaneFitProofs.
Import ListNotations.
Local Open Scope R_scope.

(** ** In a plane *)

Definition form2 (A B C c s : R) : R := A * c * c + 2 * B * c * s + C * s * s.
Definition low2 (A B C : R) : R := (A + C) / 2 - sqrt ((A - C) / 2 * ((A - C) / 2) + B * B).

Lemma form2_low : forall A B C c s, c * c + s * s = 1 -> low2 A B C <= form2 A B C c s.
Proof.
  intros A B C c s H. unfold low2, form2.
  set (g := (A - C) / 2). set (D := sqrt (g * g + B * B)).
  assert (D0 : 0 <= D) by apply sqrt_pos.
  assert (DD : D * D = g * g + B * B) by (apply sqrt_sqrt; nra).
  set (u := c * c - s * s). set (v := 2 * c * s).
  assert (UV : u * u + v * v = 1).
  { unfold u, v. transitivity ((c * c + s * s) * (c * c + s * s)); [ring|rewrite H; ring]. }
  replace (A * c * c + 2 * B * c * s + C * s * s) with ((A + C) / 2 * (c * c + s * s) + (g * u + B * v)) by (unfold g, u, v; field).
  rewrite H.
  assert (G : (g * u + B * v) * (g * u + B * v) <= D * D).
  { rewrite DD. replace (g * g + B * B) with ((g * g + B * B) * (u * u + v * v)) by (rewrite UV; ring).
    pose proof (Rle_0_sqr (g * v - B * u)) as Q. unfold Rsqr in Q.
    replace ((g * g + B * B) * (u * u + v * v)) with ((g * u + B * v) * (g * u + B * v) + (g * v - B * u) * (g * v - B * u)) by ring. lra. }
  assert (- D <= g * u + B * v) by (destruct (Rle_dec (- D) (g * u + B * v)); [assumption|nra]). lra.
Qed.
Lemma form2_reached : forall A B C, exists c s, c * c + s * s = 1 /\ form2 A B C c s = low2 A B C.
Proof.
  intros A B C. unfold low2, form2.
  set (g := (A - C) / 2).
  destruct (Req_EM_T g 0) as [Hg|Hg]; [destruct (Req_EM_T B 0) as [HB|HB]|].
  { exists 1, 0. split; [ring|]. rewrite Hg, HB. replace (0 * 0 + 0 * 0) with 0 by ring. rewrite sqrt_0. unfold g in Hg. lra. }
  all: assert (NZ : - g <> 0 \/ - B <> 0) by (lra || (right; lra) || (left; lra));
    destruct (atan2_polar (- B) (- g) NZ) as [E1 E2];
    replace (- g * - g + - B * - B) with (g * g + B * B) in E1, E2 by ring;
    set (D := sqrt (g * g + B * B)) in *; set (psi := atan2 (- B) (- g)) in *;
    exists (cos (psi / 2)), (sin (psi / 2));
    pose proof (sin2_cos2 (psi / 2)) as U; unfold Rsqr in U;
    (split; [lra|]);
    assert (CP : cos psi = cos (psi / 2) * cos (psi / 2) - sin (psi / 2) * sin (psi / 2)) by (rewrite <- cos_2a; f_equal; field);
    assert (SP : sin psi = 2 * sin (psi / 2) * cos (psi / 2)) by (rewrite <- sin_2a; f_equal; field);
    set (c := cos (psi / 2)) in *; set (s := sin (psi / 2)) in *;
    replace (A * c * c + 2 * B * c * s + C * s * s) with ((A + C) / 2 * (s * s + c * c) + (g * (c * c - s * s) + B * (2 * s * c))) by (unfold g; field);
    rewrite U, <- CP, <- SP;
    assert (DD : D * D = g * g + B * B) by (apply sqrt_sqrt; nra);
    assert (D <> 0) by (intro Z; rewrite Z in DD; destruct NZ; nra);
    assert (g * cos psi + B * sin psi = - D);
    [apply Rmult_eq_reg_l with D; [|assumption];
     transitivity (g * (D * cos psi) + B * (D * sin psi)); [ring|]; rewrite E1, E2; nra|lra].
Qed.

(** ** In space *)

Definition bil (l : list vec) (u v : vec) : R := fold_right Rplus 0 (map (fun a => dot a u * dot a v) l).
Definition ring_vec (t : R) : vec := Vec (cos t) (sin t) 0.
Definition up_vec : vec := Vec 0 0 1.
Definition comb (c s t : R) : vec := Vec (c * cos t) (c * sin t) s.

Lemma square_sum_comb : forall l c s t,
  square_sum l (comb c s t) = form2 (bil l (ring_vec t) (ring_vec t)) (bil l (ring_vec t) up_vec) (bil l up_vec up_vec) c s.
Proof.
  intros l c s t. unfold form2, square_sum, bil. induction l as [|[x y z] l IH]; cbn [map fold_right]; [ring|].
  rewrite IH. unfold comb, ring_vec, up_vec, dot. cbn. ring.
Qed.
Lemma square_sum_comb_low : forall l c s t, c * c + s * s = 1 ->
  low2 (bil l (ring_vec t) (ring_vec t)) (bil l (ring_vec t) up_vec) (bil l up_vec up_vec) <= square_sum l (comb c s t).
Proof. intros. rewrite square_sum_comb. apply form2_low. assumption. Qed.

Lemma comb_all : forall w, unit_length w -> exists c s t, c * c + s * s = 1 /\ w = comb c s t /\ 0 <= t <= 2 * PI.
Proof.
  intros [x y z] H. unfold unit_length, dot in H. cbn in H. pose proof PI_RGT_0 as P.
  assert (T : exists t, 0 <= t <= 2 * PI /\ sqrt (x * x + y * y) * cos t = x /\ sqrt (x * x + y * y) * sin t = y).
  { destruct (Req_EM_T x 0) as [Hx|Hx]; [destruct (Req_EM_T y 0) as [Hy|Hy]|].
    - exists 0. split; [lra|]. subst. replace (0 * 0 + 0 * 0) with 0 by ring. rewrite sqrt_0. split; ring.
    - destruct (atan2_polar y x (or_intror Hy)) as [E1 E2]. 
      assert (B : - PI <= atan2 y x <= PI).
      { unfold atan2. subst. destruct (Rlt_dec 0 0); [lra|]. destruct (Rlt_dec 0 y); [lra|]. destruct (Rlt_dec y 0); lra. }
      destruct (Rle_dec 0 (atan2 y x)).
      + exists (atan2 y x). split; [lra|]. split; assumption.
      + exists (atan2 y x + 2 * PI). split; [lra|]. rewrite cos_plus, sin_plus, cos_2PI, sin_2PI. split; lra.
    - destruct (atan2_polar y x (or_introl Hx)) as [E1 E2].
      assert (B : - PI <= atan2 y x <= PI).
      { pose proof (atan_bound (y / x)). unfold atan2. destruct (Rlt_dec 0 x); [lra|]. destruct (Rlt_dec x 0); [|lra].
        assert (Q : y / x = - (y / - x)) by (field; lra).
        destruct (Rle_dec 0 y).
        - assert (atan (y / x) <= 0); [|lra].
          rewrite <- atan_0. destruct (Req_dec (y / x) 0) as [->|N]; [lra|]. left. apply atan_increasing.
          assert (0 <= y / - x) by (apply Rle_mult_inv_pos; lra). lra.
        - assert (0 <= atan (y / x)); [|lra].
          rewrite <- atan_0. left. apply atan_increasing.
          assert (0 < - y / - x) by (apply Rdiv_lt_0_compat; lra).
          replace (- y / - x) with (y / x) in * by (field; lra). assumption. }
      destruct (Rle_dec 0 (atan2 y x)).
      + exists (atan2 y x). split; [lra|]. split; assumption.
      + exists (atan2 y x + 2 * PI). split; [lra|]. rewrite cos_plus, sin_plus, cos_2PI, sin_2PI. split; lra. }
  destruct T as (t & Ht & E1 & E2). exists (sqrt (x * x + y * y)), z, t. split; [|split].
  - rewrite sqrt_sqrt by nra. lra.
  - unfold comb. rewrite E1, E2. reflexivity.
  - assumption.
Qed.

Lemma bil_continuous : forall l (f g : R -> vec),
  (forall t, continuity_pt (fun t => vx (f t)) t) -> (forall t, continuity_pt (fun t => vy (f t)) t) -> (forall t, continuity_pt (fun t => vz (f t)) t) ->
  (forall t, continuity_pt (fun t => vx (g t)) t) -> (forall t, continuity_pt (fun t => vy (g t)) t) -> (forall t, continuity_pt (fun t => vz (g t)) t) ->
  forall t, continuity_pt (fun t => bil l (f t) (g t)) t.
Proof.
  intros l f g Fx Fy Fz Gx Gy Gz t. unfold bil. induction l as [|a l IH]; cbn.
  - apply continuity_pt_const. intros ? ?. reflexivity.
  - apply (continuity_pt_plus (fun t => dot a (f t) * dot a (g t))); [|exact IH].
    assert (K : forall c (h : R -> R), continuity_pt h t -> continuity_pt (fun t => c * h t) t).
    { intros c h Hh. apply (continuity_pt_scal h c t Hh). }
    apply (continuity_pt_mult (fun t => dot a (f t)) (fun t => dot a (g t))); unfold dot;
      apply (continuity_pt_plus (fun t => _ + _) (fun t => _)); try (apply (continuity_pt_plus (fun t => _) (fun t => _))); apply K; auto.
Qed.

Theorem smallest_exists : forall l, exists v, smallest_singular l v.
Proof.
  intro l.
  set (A := fun t => bil l (ring_vec t) (ring_vec t)). set (B := fun t => bil l (ring_vec t) up_vec).
  set (C := bil l up_vec up_vec).
  set (m := fun t => low2 (A t) (B t) C).
  assert (CA : forall t, continuity_pt A t).
  { intro t. unfold A. apply bil_continuous; intro; unfold ring_vec; cbn;
      try apply continuity_cos; try apply continuity_sin; apply continuity_pt_const; intros ? ?; reflexivity. }
  assert (CB : forall t, continuity_pt B t).
  { intro t. unfold B. apply (bil_continuous l ring_vec (fun _ => up_vec)); intro; unfold ring_vec, up_vec; cbn;
      try apply continuity_cos; try apply continuity_sin; apply continuity_pt_const; intros ? ?; reflexivity. }
  assert (CC : forall t, continuity_pt (fun _ => C) t) by (intro; apply continuity_pt_const; intros ? ?; reflexivity).
  assert (CH : forall t (f g : R -> R), continuity_pt f t -> continuity_pt g t -> continuity_pt (fun t => (f t + g t)) t)
    by (intros t f g; apply continuity_pt_plus).
  assert (CM : forall t (f g : R -> R), continuity_pt f t -> continuity_pt g t -> continuity_pt (fun t => (f t - g t)) t)
    by (intros t f g; apply continuity_pt_minus).
  assert (CP : forall t (f g : R -> R), continuity_pt f t -> continuity_pt g t -> continuity_pt (fun t => (f t * g t)) t)
    by (intros t f g; apply continuity_pt_mult).
  assert (CK : forall t c, continuity_pt (fun _ => c) t) by (intros; apply continuity_pt_const; intros ? ?; reflexivity).
  assert (Cm : forall t, continuity_pt m t).
  { intro t. unfold m, low2, Rdiv. apply CM; [apply CP; [apply CH|apply CK]; auto|].
    apply (continuity_pt_comp (fun t => (A t - C) * / 2 * ((A t - C) * / 2) + B t * B t) sqrt).
    - apply CH; apply CP; auto.
    - apply continuity_pt_sqrt. apply Rplus_le_le_0_compat; apply Rle_0_sqr. }
  pose proof PI_RGT_0 as P.
  destruct (continuity_ab_min m 0 (2 * PI)) as (t & Hmin & Ht); [lra|intros; apply Cm|].
  destruct (form2_reached (A t) (B t) C) as (c & s & U & E).
  exists (comb c s t). split.
  - unfold unit_length, dot, comb. cbn. pose proof (sin2_cos2 t) as T. unfold Rsqr in T.
    transitivity (c * c * (sin t * sin t + cos t * cos t) + s * s); [ring|]. rewrite T. lra.
  - intros w Hw. destruct (comb_all w Hw) as (c' & s' & t' & U' & -> & Ht').
    rewrite square_sum_comb. fold (A t) (B t) C. rewrite E. fold (m t).
    apply Rle_trans with (m t'); [apply Hmin; exact Ht'|]. unfold m, A, B, C. apply square_sum_comb_low. exact U'.
Qed.

(** There is a function as required of numpy.linalg.svd. *)
Theorem svd_exists : exists svd, is_svd svd.
Proof.
  exists (fun l => proj1_sig (constructive_indefinite_description _ (smallest_exists l))).
  intros l _. exact (proj2_sig (constructive_indefinite_description _ (smallest_exists l))).
Qed.
