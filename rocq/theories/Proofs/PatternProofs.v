(** Vector algebra on lists of reals. *)
From Coq Require Import List Reals Lra Lia.
From Verif Require Import Spec.Correlation Model.Pattern.
Import ListNotations.
Local Open Scope R_scope.

Lemma dot_comm p q : dot p q = dot q p.
Proof. revert q. induction p as [|x p IH]; intros [|y q]; simpl; try reflexivity. rewrite IH. ring. Qed.
Lemma dot_scale_l a p q : dot (map (fun x => a * x) p) q = a * dot p q.
Proof. revert q. induction p as [|x p IH]; intros [|y q]; simpl; try ring. rewrite IH. ring. Qed.
Lemma dot_scale_r a p q : dot p (map (fun x => a * x) q) = a * dot p q.
Proof. rewrite dot_comm, dot_scale_l, dot_comm. reflexivity. Qed.
Lemma dot_self_nonneg p : 0 <= dot p p.
Proof. induction p as [|x p IH]; simpl; [lra|]. nra. Qed.
Lemma dot_self_zero p : dot p p = 0 -> Forall (fun x => x = 0) p.
Proof.
  induction p as [|x p IH]; simpl; intros H; [constructor|].
  pose proof (dot_self_nonneg p). assert (x * x = 0) by nra. assert (dot p p = 0) by nra.
  constructor; [nra|]. apply IH. assumption.
Qed.
Lemma dot_zero_l p q : Forall (fun x => x = 0) p -> dot p q = 0.
Proof.
  intros H. revert q. induction H as [|x p Hx Hp IH]; intros [|y q]; simpl; try reflexivity.
  rewrite IH. subst. ring.
Qed.

(** c * p - b * q, pixel by pixel (shorter length). *)
Fixpoint comb (c b : R) (p q : pattern) : pattern :=
  match p, q with
  | x :: p', y :: q' => (c * x - b * y) :: comb c b p' q'
  | _, _ => []
  end.
Lemma comb_dot c b p q : length p = length q ->
  dot (comb c b p q) (comb c b p q) = c * c * dot p p - 2 * c * b * dot p q + b * b * dot q q.
Proof.
  revert q. induction p as [|x p IH]; intros [|y q] H; simpl in *; try lia; [ring|].
  rewrite IH by lia. ring.
Qed.
Lemma cauchy_schwarz p q : length p = length q -> dot p q * dot p q <= dot p p * dot q q.
Proof.
  intros H. pose proof (dot_self_nonneg (comb (dot q q) (dot p q) p q)) as Hc.
  rewrite comb_dot in Hc by exact H.
  destruct (Req_dec (dot q q) 0) as [E|E].
  - rewrite (dot_comm p q). rewrite (dot_zero_l q p) by (apply dot_self_zero; exact E). rewrite E. lra.
  - pose proof (dot_self_nonneg q).
    assert (0 < dot q q) by lra.
    assert (0 <= dot q q * (dot p p * dot q q - dot p q * dot p q)) by nra.
    assert (0 <= dot p p * dot q q - dot p q * dot p q); [|lra].
    apply (Rmult_le_reg_l (dot q q)); lra.
Qed.

(** Normalization. *)
Lemma normalize_length p : length (normalize p) = length p.
Proof. apply map_length. Qed.
Lemma zero_mean_length p : length (zero_mean p) = length p.
Proof. apply map_length. Qed.

Lemma normalize_as_scale p : normalize p = map (fun x => / sqrt (dot p p) * x) p.
Proof. apply map_ext. intros x. unfold Rdiv. ring. Qed.
Lemma dot_normalize p q : dot (normalize p) (normalize q) = dot p q / (sqrt (dot p p) * sqrt (dot q q)).
Proof.
  rewrite !normalize_as_scale, dot_scale_l, dot_scale_r. unfold Rdiv. rewrite Rinv_mult. ring.
Qed.
Lemma abs_le_prod_sqrt p q : length p = length q -> Rabs (dot p q) <= sqrt (dot p p) * sqrt (dot q q).
Proof.
  intros H. rewrite <- sqrt_mult by apply dot_self_nonneg.
  rewrite <- (sqrt_Rsqr_abs (dot p q)). apply sqrt_le_1_alt. unfold Rsqr. apply cauchy_schwarz. exact H.
Qed.
Lemma dot_normalize_bounded p q :
  length p = length q -> 0 < dot p p -> 0 < dot q q -> -1 <= dot (normalize p) (normalize q) <= 1.
Proof.
  intros H Hp Hq. rewrite dot_normalize.
  pose proof (abs_le_prod_sqrt p q H) as Ha.
  pose proof (sqrt_lt_R0 _ Hp). pose proof (sqrt_lt_R0 _ Hq).
  set (n := sqrt (dot p p) * sqrt (dot q q)) in *.
  assert (0 < n) by (unfold n; apply Rmult_lt_0_compat; assumption).
  apply Rabs_le in Ha || idtac.
  assert (-n <= dot p q <= n) by (unfold Rabs in Ha; destruct (Rcase_abs (dot p q)); lra).
  split.
  - apply (Rmult_le_reg_r n); [assumption|]. unfold Rdiv. rewrite Rmult_assoc, Rinv_l by lra. lra.
  - apply (Rmult_le_reg_r n); [assumption|]. unfold Rdiv. rewrite Rmult_assoc, Rinv_l by lra. lra.
Qed.
Lemma dot_nonneg p q : Forall (fun x => 0 <= x) p -> Forall (fun x => 0 <= x) q -> 0 <= dot p q.
Proof.
  intros Hp. revert q. induction Hp as [|x p Hx Hp IH]; intros [|y q] Hq; simpl; try lra.
  inversion Hq; subst. pose proof (IH q ltac:(assumption)). nra.
Qed.

(** Mean, centring. *)
Lemma vsum_affine a b p : vsum (map (fun x => a * x + b) p) = a * vsum p + b * INR (length p).
Proof.
  induction p as [|x p IH].
  - simpl. ring.
  - simpl map. simpl vsum. fold (vsum (map (fun x => a * x + b) p)) (vsum p) in *.
    rewrite IH. simpl length. rewrite S_INR. ring.
Qed.
Lemma vmean_affine a b p : p <> [] -> vmean (map (fun x => a * x + b) p) = a * vmean p + b.
Proof.
  intros H. unfold vmean. rewrite vsum_affine, map_length. field.
  apply not_0_INR. destruct p; [congruence|simpl; lia].
Qed.
Lemma zero_mean_affine a b p : zero_mean (map (fun x => a * x + b) p) = map (fun x => a * x) (zero_mean p).
Proof.
  destruct p as [|x0 p]; [reflexivity|].
  unfold zero_mean. rewrite vmean_affine by discriminate. rewrite !map_map.
  apply map_ext. intros x. ring.
Qed.
Lemma dot_self_scale a p : dot (map (fun x => a * x) p) (map (fun x => a * x) p) = a * a * dot p p.
Proof. rewrite dot_scale_l, dot_scale_r. ring. Qed.

(** A pattern is constant when all its pixels are equal. *)
Definition constant (p : pattern) : Prop := forall x y, In x p -> In y p -> x = y.

Lemma zero_mean_pos p : ~ constant p -> 0 < dot (zero_mean p) (zero_mean p).
Proof.
  intros H. pose proof (dot_self_nonneg (zero_mean p)) as [Hp|Hp]; [exact Hp|].
  exfalso. apply H. symmetry in Hp. apply dot_self_zero in Hp. rewrite Forall_forall in Hp.
  assert (Hx : forall x, In x p -> x = vmean p).
  { intros x Hx. assert (E : x - vmean p = 0); [|lra]. apply Hp. unfold zero_mean.
    apply in_map_iff. exists x. split; [reflexivity|exact Hx]. }
  intros x y H1 H2. rewrite (Hx x H1), (Hx y H2). reflexivity.
Qed.
Lemma vsum_const c p : (forall x, In x p -> x = c) -> vsum p = c * INR (length p).
Proof.
  induction p as [|x p IH]; intros H.
  - simpl. ring.
  - simpl vsum. fold (vsum p). rewrite IH by (intros; apply H; right; assumption).
    rewrite (H x (or_introl eq_refl)). simpl length. rewrite S_INR. ring.
Qed.
Lemma zero_mean_constant p : constant p -> dot (zero_mean p) (zero_mean p) = 0.
Proof.
  intros H. destruct p as [|x0 p]; [reflexivity|].
  apply dot_zero_l. unfold zero_mean. apply Forall_forall. intros v Hv.
  apply in_map_iff in Hv as (x & <- & Hx).
  assert (Hm : vmean (x0 :: p) = x0).
  { unfold vmean. rewrite (vsum_const x0).
    - field. apply not_0_INR. simpl. lia.
    - intros y Hy. apply H; [exact Hy|left; reflexivity]. }
  rewrite Hm. rewrite (H x x0 Hx (or_introl eq_refl)). ring.
Qed.

(** Minimum and maximum. *)
Lemma fold_Rmin_le x r y : In y (x :: r) -> fold_right Rmin x r <= y.
Proof.
  induction r as [|z r IH]; simpl; intros H.
  - destruct H as [->|[]]. lra.
  - destruct H as [->|[->|H]].
    + eapply Rle_trans; [apply Rmin_r|]. apply IH. left. reflexivity.
    + apply Rmin_l.
    + eapply Rle_trans; [apply Rmin_r|]. apply IH. right. exact H.
Qed.
Lemma fold_Rmin_in x r : In (fold_right Rmin x r) (x :: r).
Proof.
  induction r as [|z r IH]; simpl; [left; reflexivity|].
  destruct (Rle_dec z (fold_right Rmin x r)); [rewrite Rmin_left by assumption; right; left; reflexivity|].
  rewrite Rmin_right by lra.
  destruct IH as [E|IH]; [left; exact E|right; right; exact IH].
Qed.
Lemma fold_Rmax_ge x r y : In y (x :: r) -> y <= fold_right Rmax x r.
Proof.
  induction r as [|z r IH]; simpl; intros H.
  - destruct H as [->|[]]. lra.
  - destruct H as [->|[->|H]].
    + eapply Rle_trans; [|apply Rmax_r]. apply IH. left. reflexivity.
    + apply Rmax_l.
    + eapply Rle_trans; [|apply Rmax_r]. apply IH. right. exact H.
Qed.
Lemma fold_Rmax_in x r : In (fold_right Rmax x r) (x :: r).
Proof.
  induction r as [|z r IH]; simpl; [left; reflexivity|].
  destruct (Rle_dec z (fold_right Rmax x r)); [|rewrite Rmax_left by lra; right; left; reflexivity].
  rewrite Rmax_right by assumption.
  destruct IH as [E|IH]; [left; exact E|right; right; exact IH].
Qed.
Lemma vmin_le p x : In x p -> vmin p <= x.
Proof. destruct p as [|y p]; [intros []|]. apply fold_Rmin_le. Qed.
Lemma vmax_ge p x : In x p -> x <= vmax p.
Proof. destruct p as [|y p]; [intros []|]. apply fold_Rmax_ge. Qed.
Lemma vmin_in p : p <> [] -> In (vmin p) p.
Proof. destruct p as [|y p]; [congruence|]. intros _. apply fold_Rmin_in. Qed.
Lemma vmax_in p : p <> [] -> In (vmax p) p.
Proof. destruct p as [|y p]; [congruence|]. intros _. apply fold_Rmax_in. Qed.
Lemma vmin_lt_vmax p : ~ constant p -> vmin p < vmax p.
Proof.
  intros H. destruct (Rlt_le_dec (vmin p) (vmax p)) as [Hl|Hl]; [exact Hl|].
  exfalso. apply H. intros x y Hx Hy.
  pose proof (vmin_le p x Hx). pose proof (vmin_le p y Hy).
  pose proof (vmax_ge p x Hx). pose proof (vmax_ge p y Hy). lra.
Qed.
Lemma not_constant_nonempty p : ~ constant p -> p <> [].
Proof. intros H E. apply H. subst. intros x y []. Qed.
Lemma not_constant_pair p x y : In x p -> In y p -> x <> y -> ~ constant p.
Proof. intros Hx Hy Hn Hc. apply Hn. apply Hc; assumption. Qed.

(** Rescaling is affine. *)
Lemma rescale_affine imin imax omin omax p : imin <> imax ->
  rescale_with_min_max imin imax omin omax p
  = map (fun x => (omax - omin) / (imax - imin) * x
                  + (omin - imin * (omax - omin) / (imax - imin))) p.
Proof. intros H. apply map_ext. intros x. field. lra. Qed.

(** Sums over lists and over indices. *)
Lemma Sum_ext n f g : (forall i, (i < n)%nat -> f i = g i) -> Sum n f = Sum n g.
Proof.
  induction n as [|n IH]; intros H; simpl; [reflexivity|].
  rewrite IH by (intros; apply H; lia). rewrite (H n) by lia. reflexivity.
Qed.
Lemma Sum_shift n f : Sum (S n) f = f O + Sum n (fun i => f (S i)).
Proof.
  induction n as [|n IH]; [simpl; ring|].
  change (Sum (S (S n)) f) with (Sum (S n) f + f (S n)). rewrite IH. simpl. ring.
Qed.
Lemma vsum_Sum p : vsum p = Sum (length p) (fun i => nth i p 0).
Proof.
  induction p as [|x p IH]; [reflexivity|].
  simpl length. rewrite Sum_shift. simpl vsum. fold (vsum p). rewrite IH. reflexivity.
Qed.
Lemma dot_Sum p q : length p = length q ->
  dot p q = Sum (length p) (fun i => nth i p 0 * nth i q 0).
Proof.
  revert q. induction p as [|x p IH]; intros [|y q] H; simpl in H; try lia; [reflexivity|].
  simpl length. rewrite Sum_shift. simpl dot. rewrite IH by lia. reflexivity.
Qed.
Lemma vmean_average p : vmean p = average (length p) (fun i => nth i p 0).
Proof. unfold vmean, average. rewrite vsum_Sum. reflexivity. Qed.
Lemma zero_mean_nth p i : (i < length p)%nat -> nth i (zero_mean p) 0 = nth i p 0 - vmean p.
Proof.
  intros H. unfold zero_mean.
  rewrite (nth_indep (map _ p) 0 ((fun x => x - vmean p) 0)) by (rewrite map_length; exact H).
  apply (map_nth (fun x => x - vmean p)).
Qed.
