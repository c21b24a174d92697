(** Lemmas about planes fitted to projection centers. *)
From Coq Require Import List Arith ZArith Reals Lra Lia Psatz Permutation Sorted.
From Verif Require Import Model.Detector Model.Rotations Model.PlaneFit.
From Verif Require Import Spec.PlaneSpec.
Import ListNotations.
Local Open Scope R_scope.

(** ** Angles *)

Lemma norm2_pos : forall x y, x <> 0 \/ y <> 0 -> 0 < x * x + y * y.
Proof. intros x y [H|H]; nra. Qed.

Lemma atan2_polar : forall y x, x <> 0 \/ y <> 0 ->
  sqrt (x * x + y * y) * cos (atan2 y x) = x /\ sqrt (x * x + y * y) * sin (atan2 y x) = y.
Proof.
  intros y x H. pose proof (norm2_pos x y H) as Hp.
  assert (Hs : 0 < sqrt (x * x + y * y)) by (apply sqrt_lt_R0; exact Hp).
  assert (B : forall a, 0 < a -> a = x \/ a = - x -> sqrt (1 + (y / x)²) = sqrt (x * x + y * y) / a).
  { intros a Ha E. assert (x <> 0) by lra.
    replace (1 + (y / x)²) with ((x * x + y * y) / (a * a)).
    - rewrite sqrt_div_alt by nra. rewrite sqrt_square by lra. reflexivity.
    - unfold Rsqr. replace (a * a) with (x * x) by (destruct E; subst; ring). field. assumption. }
  unfold atan2. destruct (Rlt_dec 0 x) as [Hx|Hx].
  - rewrite cos_atan, sin_atan, (B x Hx (or_introl eq_refl)). split; field; lra.
  - destruct (Rlt_dec x 0) as [Hx'|Hx'].
    + assert (C : forall k, (cos (atan (y / x) + k) = - cos (atan (y / x)) /\ sin (atan (y / x) + k) = - sin (atan (y / x))) ->
                sqrt (x * x + y * y) * cos (atan (y / x) + k) = x /\ sqrt (x * x + y * y) * sin (atan (y / x) + k) = y).
      { intros k [-> ->]. rewrite cos_atan, sin_atan, (B (- x)); [|lra|auto]. split; field; lra. }
      destruct (Rle_dec 0 y).
      * apply C. rewrite neg_cos, neg_sin. auto.
      * unfold Rminus. apply C. rewrite cos_plus, sin_plus, cos_neg, sin_neg, cos_PI, sin_PI. split; ring.
    + assert (x = 0) by lra. subst. replace (0 * 0 + y * y) with (y * y) by ring.
      destruct (Rlt_dec 0 y).
      * rewrite cos_PI2, sin_PI2, sqrt_square by lra. split; ring.
      * destruct (Rlt_dec y 0).
        -- rewrite cos_neg, sin_neg, cos_PI2, sin_PI2. replace (y * y) with ((- y) * (- y)) by ring.
           rewrite sqrt_square by lra. split; ring.
        -- exfalso. destruct H; lra.
Qed.

Lemma tilted_normal_eq : forall x z, tilted_normal x z = Vec (sin x * sin z) (sin x * cos z) (cos x).
Proof.
  intros x z. unfold tilted_normal, about_z, about_x. cbn. rewrite !cos_neg, !sin_neg. f_equal; ring.
Qed.

Lemma unit_vz : forall v, unit_length v -> -1 <= vz v <= 1.
Proof. intros [x y z] H. unfold unit_length, dot in H. cbn in *. nra. Qed.

Lemma tilted_normal_inverse : forall v, unit_length v ->
  tilted_normal (acos (vz v)) (PI / 2 - atan2 (vy v) (vx v)) = v.
Proof.
  intros v Hu. pose proof (unit_vz v Hu) as Hz. rewrite tilted_normal_eq.
  rewrite cos_acos by exact Hz. rewrite sin_acos by exact Hz.
  rewrite sin_shift, cos_shift.
  destruct v as [x y z]. unfold unit_length, dot in Hu. cbn in *.
  replace (1 - z²) with (x * x + y * y) by (unfold Rsqr; lra).
  destruct (Req_EM_T x 0) as [Hx|Hx]; [destruct (Req_EM_T y 0) as [Hy|Hy]|].
  - subst. replace (0 * 0 + 0 * 0) with 0 by ring. rewrite sqrt_0. f_equal; ring.
  - destruct (atan2_polar y x (or_intror Hy)) as [-> ->]. reflexivity.
  - destruct (atan2_polar y x (or_introl Hx)) as [-> ->]. reflexivity.
Qed.

Lemma rotate_x : forall a v, rotate_vector (from_axes_angles (Vec 1 0 0) a) v = about_x a v.
Proof.
  intros a [x y z]. unfold about_x. cbn.
  replace (cos a) with (cos (2 * (a / 2))) by (f_equal; field).
  replace (sin a) with (sin (2 * (a / 2))) by (f_equal; field).
  rewrite cos_2a, sin_2a. pose proof (sin2_cos2 (a / 2)) as E. unfold Rsqr in E.
  f_equal; try ring.
  replace x with (x * (sin (a / 2) * sin (a / 2) + cos (a / 2) * cos (a / 2))) at 2 by (rewrite E; ring). ring.
Qed.
Lemma rotate_z : forall a v, rotate_vector (from_axes_angles (Vec 0 0 1) a) v = about_z a v.
Proof.
  intros a [x y z]. unfold about_z. cbn.
  replace (cos a) with (cos (2 * (a / 2))) by (f_equal; field).
  replace (sin a) with (sin (2 * (a / 2))) by (f_equal; field).
  rewrite cos_2a, sin_2a. pose proof (sin2_cos2 (a / 2)) as E. unfold Rsqr in E.
  f_equal; try ring.
  replace z with (z * (sin (a / 2) * sin (a / 2) + cos (a / 2) * cos (a / 2))) at 2 by (rewrite E; ring). ring.
Qed.
Lemma rotate_mul : forall p q v, rotate_vector (qmul p q) v = rotate_vector p (rotate_vector q v).
Proof. intros [a b c d] [a' b' c' d'] [x y z]. cbn. f_equal; ring. Qed.

Definition qnorm (q : quat) : R := qa q * qa q + qb q * qb q + qc q * qc q + qd q * qd q.
Lemma qnorm_mul : forall p q, qnorm (qmul p q) = qnorm p * qnorm q.
Proof. intros [a b c d] [a' b' c' d']. unfold qnorm. cbn. ring. Qed.
Lemma qnorm_axis : forall u a, unit_length u -> qnorm (from_axes_angles u a) = 1.
Proof.
  intros [x y z] a H. unfold qnorm, unit_length, dot in *. cbn in *.
  pose proof (sin2_cos2 (a / 2)) as E. unfold Rsqr in E.
  replace (cos (a / 2) * cos (a / 2) + sin (a / 2) * x * (sin (a / 2) * x) + sin (a / 2) * y * (sin (a / 2) * y) + sin (a / 2) * z * (sin (a / 2) * z))
    with (cos (a / 2) * cos (a / 2) + sin (a / 2) * sin (a / 2) * (x * x + y * y + z * z)) by ring.
  rewrite H. lra.
Qed.
Lemma rotate_inv_l : forall q v, qnorm q = 1 -> rotate_vector (qinv q) (rotate_vector q v) = v.
Proof.
  intros [a b c d] [x y z] H. unfold qnorm in H. cbn in *.
  assert (E : forall t, t * ((a * a + b * b + c * c + d * d) * (a * a + b * b + c * c + d * d)) = t) by (intro; rewrite H; ring).
  f_equal; [transitivity (x * ((a * a + b * b + c * c + d * d) * (a * a + b * b + c * c + d * d)))
           |transitivity (y * ((a * a + b * b + c * c + d * d) * (a * a + b * b + c * c + d * d)))
           |transitivity (z * ((a * a + b * b + c * c + d * d) * (a * a + b * b + c * c + d * d)))]; try apply E; ring.
Qed.
Lemma rotate_inv_r : forall q v, qnorm q = 1 -> rotate_vector q (rotate_vector (qinv q) v) = v.
Proof.
  intros q v H. assert (I : q = qinv (qinv q)) by (destruct q; unfold qinv; cbn; f_equal; ring).
  rewrite I at 1. apply rotate_inv_l. destruct q; unfold qnorm, qinv in *; cbn in *. rewrite <- H. ring.
Qed.
Lemma rotate_dot : forall q u v, qnorm q = 1 -> dot (rotate_vector q u) (rotate_vector q v) = dot u v.
Proof.
  intros [a b c d] [x y z] [x' y' z'] H. unfold qnorm in H. unfold dot. cbn in *.
  transitivity ((x * x' + y * y' + z * z') * ((a * a + b * b + c * c + d * d) * (a * a + b * b + c * c + d * d))).
  - ring.
  - rewrite H. ring.
Qed.

(** ** Means *)

Lemma sumR_app : forall a b, sumR (a ++ b) = sumR a + sumR b.
Proof. induction a as [|x a IH]; intro b; unfold sumR in *; cbn; [ring|]. rewrite IH. ring. Qed.
Lemma sumR_perm : forall a b, Permutation a b -> sumR a = sumR b.
Proof. induction 1; unfold sumR in *; cbn; lra. Qed.
Lemma meanR_perm : forall a b, Permutation a b -> meanR a = meanR b.
Proof. intros a b H. unfold meanR. rewrite (sumR_perm a b H), (Permutation_length H). reflexivity. Qed.
Lemma sumR_lin : forall {A} (f g : A -> R) a b l,
  sumR (map (fun x => a * f x + b * g x) l) = a * sumR (map f l) + b * sumR (map g l).
Proof. induction l as [|x l IH]; unfold sumR in *; cbn; [ring|]. rewrite IH. ring. Qed.
Lemma sumR_const : forall {A} c (l : list A), sumR (map (fun _ => c) l) = c * INR (length l).
Proof. induction l as [|x l IH]; [unfold sumR; cbn; ring|]. cbn [map length]. rewrite S_INR. unfold sumR in *. cbn. rewrite IH. ring. Qed.
Lemma length_pos : forall {A} (l : list A), l <> [] -> INR (length l) <> 0.
Proof. intros A [|x l] H; [congruence|]. apply not_0_INR. cbn. lia. Qed.

Lemma meanR_sub : forall {A} (f : A -> R) c (l : list A), l <> [] ->
  meanR (map (fun x => f x - c) l) = meanR (map f l) - c.
Proof.
  intros A f c l H. pose proof (length_pos l H). unfold meanR. rewrite !map_length.
  replace (sumR (map (fun x => f x - c) l)) with (sumR (map f l) - c * INR (length l)).
  - field. assumption.
  - rewrite <- (sumR_const c l). pose proof (sumR_lin f (fun _ => c) 1 (-1) l) as E.
    transitivity (1 * sumR (map f l) + (-1) * sumR (map (fun _ => c) l)); [ring|]. rewrite <- E.
    f_equal. apply map_ext. intro. ring.
Qed.

(** the mean of the centered points is 0 *)
Lemma mean_centered : forall l, l <> [] -> mean3 (centered l) = Vec 0 0 0.
Proof.
  intros l H. unfold mean3, centered. rewrite !map_map. cbn.
  rewrite !meanR_sub by assumption. f_equal; ring.
Qed.

(** ** Trimmed means *)

Lemma insert_perm : forall x l, Permutation (insert x l) (x :: l).
Proof.
  induction l as [|y l IH]; cbn; [reflexivity|]. destruct (Rle_dec x y); [reflexivity|].
  rewrite IH. apply perm_swap.
Qed.
Lemma sort_perm : forall l, Permutation (sort l) l.
Proof. induction l as [|x l IH]; cbn; [reflexivity|]. rewrite insert_perm, IH. reflexivity. Qed.
Lemma sort_length : forall l, length (sort l) = length l.
Proof. intro. apply Permutation_length, sort_perm. Qed.
Lemma insert_sorted : forall x l, StronglySorted Rle l -> StronglySorted Rle (insert x l).
Proof.
  intros x l. induction 1 as [|y l S IH F]; cbn; [repeat constructor|].
  destruct (Rle_dec x y) as [L|L].
  - constructor; [constructor; assumption|]. constructor; [assumption|].
    eapply Forall_impl; [|exact F]. intros; lra.
  - constructor; [assumption|]. rewrite Forall_forall in *. intros z Hz.
    apply (Permutation_in z (insert_perm x l)) in Hz. destruct Hz as [<-|Hz]; [lra|auto].
Qed.
Lemma sort_sorted : forall l, StronglySorted Rle (sort l).
Proof. induction l; cbn; [constructor|]. apply insert_sorted. assumption. Qed.
Lemma sorted_unique : forall a b, StronglySorted Rle a -> StronglySorted Rle b -> Permutation a b -> a = b.
Proof.
  induction a as [|x a IH]; intros b Sa Sb P.
  - apply Permutation_nil in P. auto.
  - destruct b as [|y b]; [apply Permutation_sym, Permutation_nil in P; discriminate|].
    inversion Sa as [|? ? Sa' Fa]; inversion Sb as [|? ? Sb' Fb]; subst.
    assert (E : x = y).
    { rewrite Forall_forall in Fa, Fb.
      assert (Hx : In x (y :: b)) by (eapply Permutation_in; [exact P|left; reflexivity]).
      assert (Hy : In y (x :: a)) by (eapply Permutation_in; [apply Permutation_sym; exact P|left; reflexivity]).
      destruct Hx as [->|Hx]; [reflexivity|]. destruct Hy as [->|Hy]; [reflexivity|].
      specialize (Fa y Hy). specialize (Fb x Hx). lra. }
    subst. f_equal. apply IH; auto. eapply Permutation_cons_inv; exact P.
Qed.

Lemma trim_mean_few : forall l, (length l < 10)%nat -> trim_mean l = meanR l.
Proof.
  intros l H. unfold trim_mean. rewrite Nat.div_small by exact H. cbn [skipn]. rewrite Nat.sub_0_r.
  rewrite <- sort_length, firstn_all. apply meanR_perm, sort_perm.
Qed.
Lemma trim_centered_few : forall l, (0 < length l < 10)%nat -> trim_mean3 (centered l) = Vec 0 0 0.
Proof.
  intros l H. rewrite <- (mean_centered l) by (destruct l; [cbn in H; lia|discriminate]).
  unfold trim_mean3, mean3. rewrite !trim_mean_few; [reflexivity|..];
    rewrite map_length; unfold centered; rewrite map_length; lia.
Qed.

Lemma sorted_app : forall a b, StronglySorted Rle a -> StronglySorted Rle b ->
  (forall x y, In x a -> In y b -> x <= y) -> StronglySorted Rle (a ++ b).
Proof.
  induction a as [|x a IH]; intros b Sa Sb H; cbn; [assumption|].
  inversion Sa; subst. constructor.
  - apply IH; auto. intros; apply H; [right|]; assumption.
  - rewrite Forall_forall in *. intros y Hy. apply in_app_or in Hy. destruct Hy; [auto|]. apply H; [left; reflexivity|assumption].
Qed.
Lemma sorted_rev_opp : forall l, StronglySorted Rle l -> StronglySorted Rle (rev (map Ropp l)).
Proof.
  induction 1 as [|x l S IH F]; cbn; [constructor|]. apply sorted_app; [assumption|repeat constructor|].
  intros a b Ha [<-|[]]. apply in_rev, in_map_iff in Ha. destruct Ha as (c & <- & Hc).
  rewrite Forall_forall in F. specialize (F c Hc). lra.
Qed.
Lemma sumR_opp : forall l, sumR (map Ropp l) = - sumR l.
Proof. induction l as [|x l IH]; unfold sumR in *; cbn; [ring|]. rewrite IH. ring. Qed.

Lemma middle_rev : forall {A} k (s : list A), (k + k <= length s)%nat ->
  rev (skipn k (firstn (length s - k) s)) = skipn k (firstn (length s - k) (rev s)).
Proof.
  intros A k s H. rewrite (skipn_firstn_comm k (length s - k) (rev s)), skipn_rev.
  rewrite firstn_rev. do 2 f_equal. rewrite firstn_length. lia.
Qed.
(** values placed symmetrically about 0 have the trimmed mean 0 *)
Lemma trim_mean_symmetric : forall l, Permutation (map Ropp l) l -> trim_mean l = 0.
Proof.
  intros l H. unfold trim_mean, meanR.
  set (n := length l). set (k := (n / 10)%nat).
  assert (E : rev (map Ropp (sort l)) = sort l).
  { apply sorted_unique; [apply sorted_rev_opp, sort_sorted|apply sort_sorted|].
    rewrite <- Permutation_rev, (Permutation_map Ropp (sort_perm l)), H. symmetry. apply sort_perm. }
  assert (L : length (sort l) = n) by (unfold n; apply sort_length).
  assert (K : (k + k <= n)%nat).
  { unfold k. pose proof (Nat.mul_div_le n 10). lia. }
  set (m := skipn k (firstn (n - k) (sort l))).
  assert (M : map Ropp (rev m) = m).
  { unfold m. rewrite <- E at 2. rewrite <- L in *. rewrite middle_rev by exact K.
    rewrite <- skipn_map, <- firstn_map, map_rev. reflexivity. }
  assert (S : sumR m = - sumR m).
  { rewrite <- sumR_opp. rewrite <- M at 1. rewrite map_rev. apply sumR_perm. symmetry. apply Permutation_rev. }
  replace (sumR m) with 0 by lra. unfold Rdiv. ring.
Qed.

(** ** The direction of the plane *)

Lemma dot_minus : forall n u v, dot n (minus u v) = dot n u - dot n v.
Proof. intros [a b c] [x y z] [x' y' z']. unfold dot. cbn. ring. Qed.
Lemma dot_comm : forall u v, dot u v = dot v u.
Proof. intros [a b c] [x y z]. unfold dot. cbn. ring. Qed.
Lemma vsub_minus : forall u v, vsub u v = minus u v.
Proof. reflexivity. Qed.
Lemma vec_of_point : forall p, vec_of p = point p.
Proof. reflexivity. Qed.

Lemma dot_mean : forall n l, l <> [] -> dot n (mean3 l) = meanR (map (dot n) l).
Proof.
  intros n l H. pose proof (length_pos l H). unfold mean3, dot, meanR. cbn. rewrite !map_length.
  replace (sumR (map (fun v => vx n * vx v + vy n * vy v + vz n * vz v) l))
    with (vx n * sumR (map vx l) + vy n * sumR (map vy l) + vz n * sumR (map vz l)); [field; assumption|].
  clear. induction l as [|v l IH]; unfold sumR in *; cbn; [ring|]. rewrite <- IH. ring.
Qed.
Lemma meanR_const : forall c (l : list R), l <> [] -> (forall x, In x l -> x = c) -> meanR l = c.
Proof.
  intros c l H E. unfold meanR. replace (sumR l) with (c * INR (length l)).
  - field. apply length_pos. assumption.
  - rewrite <- (sumR_const c l). f_equal. rewrite <- (map_id l) at 2. apply map_ext_in. intros x Hx. symmetry. auto.
Qed.

Lemma square_sum_nonneg : forall l v, 0 <= square_sum l v.
Proof. induction l as [|a l IH]; intro v; unfold square_sum; cbn; [lra|]. specialize (IH v). unfold square_sum in IH. nra. Qed.
Lemma square_sum_0 : forall l v, square_sum l v = 0 <-> forall a, In a l -> dot a v = 0.
Proof.
  intros l v. split.
  - induction l as [|b l IH]; intros H a Ha; [destruct Ha|].
    unfold square_sum in *. cbn in H. pose proof (square_sum_nonneg l v) as P. unfold square_sum in P.
    assert (0 <= dot b v * dot b v) by nra.
    destruct Ha as [<-|Ha]; [nra|]. apply IH; [lra|assumption].
  - induction l as [|b l IH]; intro H; [reflexivity|].
    unfold square_sum in *. cbn. rewrite IH by (intros; apply H; right; assumption). rewrite (H b (or_introl eq_refl)). ring.
Qed.

Lemma cross_collinear : forall n u w, dot n u = 0 -> dot n w = 0 -> cross n (cross u w) = Vec 0 0 0.
Proof.
  intros [a b c] [x y z] [x' y' z'] H1 H2. unfold dot, cross in *. cbn in *. f_equal.
  - replace (b * (x * y' - y * x') - c * (z * x' - x * z')) with (x * (b * y' + c * z') - x' * (b * y + c * z)) by ring.
    replace (b * y' + c * z') with (- (a * x')) by lra. replace (b * y + c * z) with (- (a * x)) by lra. ring.
  - replace (c * (y * z' - z * y') - a * (x * y' - y * x')) with (y * (c * z' + a * x') - y' * (c * z + a * x)) by ring.
    replace (c * z' + a * x') with (- (b * y')) by lra. replace (c * z + a * x) with (- (b * y)) by lra. ring.
  - replace (a * (z * x' - x * z') - b * (y * z' - z * y')) with (z * (a * x' + b * y') - z' * (a * x + b * y)) by ring.
    replace (a * x' + b * y') with (- (c * z')) by lra. replace (a * x + b * y) with (- (c * z)) by lra. ring.
Qed.

(** unit vectors perpendicular to two directions are equal or opposite *)
Lemma two_normals : forall n v u w, unit_length n -> unit_length v -> cross u w <> Vec 0 0 0 ->
  dot n u = 0 -> dot n w = 0 -> dot v u = 0 -> dot v w = 0 -> v = n \/ v = vneg n.
Proof.
  intros n v u w Hn Hv Hk H1 H2 H3 H4.
  pose proof (cross_collinear n u w H1 H2) as En. pose proof (cross_collinear v u w H3 H4) as Ev.
  set (k := cross u w) in *. destruct k as [x y z], n as [a b c], v as [a' b' c'].
  unfold unit_length, dot, cross, vneg in *. cbn in *. injection En as E1 E2 E3. injection Ev as F1 F2 F3.
  assert (K : x * x + y * y + z * z <> 0).
  { intro K. apply Hk. f_equal; nra. }
  (* k k.n = n k.k *)
  set (K2 := x * x + y * y + z * z) in *.
  set (s := a * x + b * y + c * z). set (t := a' * x + b' * y + c' * z).
  assert (A : a * K2 = s * x /\ b * K2 = s * y /\ c * K2 = s * z).
  { unfold K2, s. repeat split.
    - transitivity ((a * x + b * y + c * z) * x + y * (a * y - b * x) - z * (c * x - a * z)); [ring|]. rewrite E3, E2. ring.
    - transitivity ((a * x + b * y + c * z) * y - x * (a * y - b * x) + z * (b * z - c * y)); [ring|]. rewrite E3, E1. ring.
    - transitivity ((a * x + b * y + c * z) * z + x * (c * x - a * z) - y * (b * z - c * y)); [ring|]. rewrite E2, E1. ring. }
  assert (B : a' * K2 = t * x /\ b' * K2 = t * y /\ c' * K2 = t * z).
  { unfold K2, t. repeat split.
    - transitivity ((a' * x + b' * y + c' * z) * x + y * (a' * y - b' * x) - z * (c' * x - a' * z)); [ring|]. rewrite F3, F2. ring.
    - transitivity ((a' * x + b' * y + c' * z) * y - x * (a' * y - b' * x) + z * (b' * z - c' * y)); [ring|]. rewrite F3, F1. ring.
    - transitivity ((a' * x + b' * y + c' * z) * z + x * (c' * x - a' * z) - y * (b' * z - c' * y)); [ring|]. rewrite F2, F1. ring. }
  destruct A as (A1 & A2 & A3), B as (B1 & B2 & B3).
  assert (S : s * s = K2).
  { apply Rmult_eq_reg_r with K2; [|assumption].
    transitivity ((s * x) * (s * x) + (s * y) * (s * y) + (s * z) * (s * z)); [unfold K2; ring|].
    rewrite <- A1, <- A2, <- A3. transitivity ((a * a + b * b + c * c) * (K2 * K2)); [ring|]. rewrite Hn. ring. }
  assert (T : t * t = K2).
  { apply Rmult_eq_reg_r with K2; [|assumption].
    transitivity ((t * x) * (t * x) + (t * y) * (t * y) + (t * z) * (t * z)); [unfold K2; ring|].
    rewrite <- B1, <- B2, <- B3. transitivity ((a' * a' + b' * b' + c' * c') * (K2 * K2)); [ring|]. rewrite Hv. ring. }
  assert (ST : t = s \/ t = - s).
  { assert ((t - s) * (t + s) = 0) by nra. destruct (Rmult_integral _ _ H); [left|right]; lra. }
  destruct ST as [E|E]; rewrite E in *; [left|right]; f_equal; apply Rmult_eq_reg_r with K2; try assumption; lra.
Qed.

Lemma in_trimmed : forall c p, In p c -> In (vsub p (trim_mean3 c)) (trimmed c).
Proof. intros c p H. unfold trimmed. apply in_map_iff. eauto. Qed.

(** The direction found is the normal of the plane of the points, up to sign. *)
Lemma direction_found : forall n pcs v,
  in_plane n pcs -> spread pcs ->
  dot n (trim_mean3 (centered (map vec_of pcs))) = 0 ->
  smallest_singular (trimmed (centered (map vec_of pcs))) v -> v = n \/ v = vneg n.
Proof.
  intros n l v (Hn & c & Hc) (p & q & r & Hp & Hq & Hr & Hs) Ht (Hv & Hmin).
  set (L := map vec_of l) in *.
  assert (NE : L <> []) by (unfold L; destruct l; [destruct Hp|discriminate]).
  assert (Em : dot n (mean3 L) = c).
  { rewrite dot_mean by exact NE. apply meanR_const; [destruct L; [congruence|discriminate]|].
    intros x Hx. apply in_map_iff in Hx. destruct Hx as (u & <- & Hu). unfold L in Hu. apply in_map_iff in Hu.
    destruct Hu as (s & <- & Hs'). apply Hc. exact Hs'. }
  assert (Z : square_sum (trimmed (centered L)) n = 0).
  { apply square_sum_0. intros a Ha. unfold trimmed in Ha. apply in_map_iff in Ha. destruct Ha as (b & <- & Hb).
    unfold centered at 1 in Hb. apply in_map_iff in Hb. destruct Hb as (s & <- & Hs').
    rewrite dot_comm, !vsub_minus, !dot_minus. rewrite Ht, Em. unfold L in Hs'. apply in_map_iff in Hs'.
    destruct Hs' as (x & <- & Hx). rewrite vec_of_point, Hc by exact Hx. ring. }
  assert (V : square_sum (trimmed (centered L)) v = 0).
  { pose proof (square_sum_nonneg (trimmed (centered L)) v). specialize (Hmin n Hn). lra. }
  rewrite square_sum_0 in V.
  assert (D : forall x, In x l -> dot v (minus (minus (point x) (mean3 L)) (trim_mean3 (centered L))) = 0).
  { intros x Hx. rewrite dot_comm. apply V. rewrite <- !vsub_minus, <- vec_of_point. apply in_trimmed.
    unfold centered. apply in_map_iff. exists (vec_of x). split; [reflexivity|]. unfold L. apply in_map. exact Hx. }
  apply two_normals with (minus (point q) (point p)) (minus (point r) (point p)); auto;
    rewrite ?dot_minus; rewrite ?(Hc _ Hp), ?(Hc _ Hq), ?(Hc _ Hr); try ring.
  - pose proof (D p Hp) as P. pose proof (D q Hq) as Q. rewrite !dot_minus in P, Q. lra.
  - pose proof (D p Hp) as P. pose proof (D r Hr) as Q. rewrite !dot_minus in P, Q. lra.
Qed.

Lemma norm_unit : forall v, unit_length v -> norm v = 1.
Proof. intros v H. unfold norm. unfold unit_length, dot in H. rewrite H. apply sqrt_1. Qed.
Lemma sample_normal_unit : forall v, unit_length v ->
  sample_normal v = (if Rlt_dec (vz v) 0 then vneg v else v).
Proof.
  intros v H. unfold sample_normal. rewrite (norm_unit v H). cbn. unfold Rdiv. rewrite !Rinv_1, !Rmult_1_r.
  destruct v as [x y z]. cbn. reflexivity.
Qed.
