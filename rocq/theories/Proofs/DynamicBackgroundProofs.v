(** Weighted means with Gaussian weights. *)
From Coq Require Import List Reals Arith ZArith Lia Lra.
From Verif Require Import Model.Pattern Model.Intensity Model.FftBarnes Model.Binary Model.DynamicBackground.
From Verif Require Import Proofs.IntensityProofs Props.FftBarnes Spec.FilterSpec Spec.BackgroundSpec.
From Verif Require Model.Detector.
Import ListNotations.
Local Open Scope R_scope.

Lemma sum_total : forall n f, sum_below n f = total n f.
Proof. induction n as [|n IH]; intro f; cbn; [reflexivity|]. rewrite IH. reflexivity. Qed.
Lemma total_mul : forall n c f, total n (fun i => c * f i) = c * total n f.
Proof. induction n as [|n IH]; intros; cbn; [ring|]. rewrite IH. ring. Qed.
Lemma total_plus : forall n f g, total n (fun i => f i + g i) = total n f + total n g.
Proof. induction n as [|n IH]; intros; cbn; [ring|]. rewrite IH. ring. Qed.
Lemma total_le : forall n f g, (forall i, (i < n)%nat -> f i <= g i) -> total n f <= total n g.
Proof. induction n as [|n IH]; intros f g H; cbn; [lra|]. apply Rplus_le_compat; [apply IH; intros; apply H|apply H]; lia. Qed.
Lemma total_lt : forall n f g k, (forall i, (i < n)%nat -> f i <= g i) -> (k < n)%nat -> f k < g k -> total n f < total n g.
Proof.
  induction n as [|n IH]; intros f g k H K L; [lia|]. cbn. destruct (Nat.eq_dec k n) as [->|N].
  - apply Rplus_le_lt_compat; [|exact L]. apply total_le. intros. apply H. lia.
  - apply Rplus_lt_le_compat; [|apply H; lia]. apply (IH f g k); [intros; apply H; lia|lia|exact L].
Qed.
Lemma total_positive : forall n f, (0 < n)%nat -> (forall i, (i < n)%nat -> 0 < f i) -> 0 < total n f.
Proof.
  intros n f N H. rewrite <- (total_zero n). apply (total_lt n _ _ 0%nat); [intros i I; left; apply H; exact I|exact N|apply H; exact N].
Qed.

(** Means over one axis. *)
Definition mean1 (n : nat) (w f : nat -> R) : R := total n (fun i => w i * f i) / total n w.
Section M1.
Variables (n : nat) (w : nat -> R).
Hypothesis N : (0 < n)%nat.
Hypothesis W : forall i, 0 < w i.
Let T : 0 < total n w. Proof. apply total_positive; auto. Qed.
Lemma mean1_ext : forall f g, (forall i, (i < n)%nat -> f i = g i) -> mean1 n w f = mean1 n w g.
Proof. intros f g H. unfold mean1. f_equal. apply total_ext. intros i I. rewrite H by exact I. reflexivity. Qed.
Lemma mean1_const : forall c, mean1 n w (fun _ => c) = c.
Proof.
  intro c. unfold mean1. rewrite (total_ext n _ (fun i => c * w i)) by (intros; ring). rewrite total_mul. field. apply Rgt_not_eq, T.
Qed.
Lemma mean1_affine : forall a b f, mean1 n w (fun i => a * f i + b) = a * mean1 n w f + b.
Proof.
  intros a b f. unfold mean1. rewrite (total_ext n _ (fun i => a * (w i * f i) + b * w i)) by (intros; ring).
  rewrite total_plus, !total_mul. field. apply Rgt_not_eq, T.
Qed.
Lemma mean1_le : forall f g, (forall i, (i < n)%nat -> f i <= g i) -> mean1 n w f <= mean1 n w g.
Proof.
  intros f g H. unfold mean1, Rdiv. apply Rmult_le_compat_r; [left; apply Rinv_0_lt_compat, T|].
  apply total_le. intros i I. apply Rmult_le_compat_l; [left; apply W|apply H; exact I].
Qed.
Lemma mean1_lt : forall f g k, (forall i, (i < n)%nat -> f i <= g i) -> (k < n)%nat -> f k < g k -> mean1 n w f < mean1 n w g.
Proof.
  intros f g k H K L. unfold mean1, Rdiv. apply Rmult_lt_compat_r; [apply Rinv_0_lt_compat, T|].
  apply (total_lt n _ _ k); [|exact K|apply Rmult_lt_compat_l; [apply W|exact L]].
  intros i I. apply Rmult_le_compat_l; [left; apply W|apply H; exact I].
Qed.
Lemma mean1_between : forall lo hi f, (forall i, (i < n)%nat -> lo <= f i <= hi) -> lo <= mean1 n w f <= hi.
Proof.
  intros lo hi f H. split.
  - rewrite <- (mean1_const lo). apply mean1_le. intros. apply H. assumption.
  - rewrite <- (mean1_const hi). apply mean1_le. intros. apply H. assumption.
Qed.
(** Symmetric weights: the reversed values have the same mean. *)
Lemma mean1_reverse : forall f, (forall i, (i < n)%nat -> w (n - 1 - i)%nat = w i) -> mean1 n w (fun i => f (n - 1 - i)%nat) = mean1 n w f.
Proof.
  intros f S. unfold mean1. f_equal. rewrite (total_rev n (fun i => w i * f i)). apply total_ext. intros i I. rewrite S by exact I. reflexivity.
Qed.
End M1.

(** The weights over two axes are products of weights over one axis. *)
Definition gauss (n : nat) (std : R) (i : nat) : R := exp (- ((INR i - (INR n - 1) / 2) ^ 2) / (2 * std ^ 2)).
Lemma gauss_positive : forall n std i, 0 < gauss n std i.
Proof. intros. apply exp_pos. Qed.
Lemma gauss_symmetric : forall n std i, (i < n)%nat -> gauss n std (n - 1 - i) = gauss n std i.
Proof.
  intros n std i I. unfold gauss. f_equal. f_equal. f_equal. replace (n - 1 - i)%nat with (n - (1 + i))%nat by lia.
  rewrite minus_INR, plus_INR by lia. cbn [INR]. replace (INR n - (1 + INR i) - (INR n - 1) / 2) with (- (INR i - (INR n - 1) / 2)) by field. ring.
Qed.
Lemma weight_product : forall n std u v, std <> 0 -> weight std (INR u - (INR n - 1) / 2) (INR v - (INR n - 1) / 2) = gauss n std u * gauss n std v.
Proof. intros n std u v S. unfold weight, gauss. rewrite <- exp_plus. f_equal. field. exact S. Qed.
Lemma blurred_means : forall ny nx n std image y x, std <> 0 -> (0 < n)%nat ->
  blurred ny nx n std image y x =
  mean1 n (gauss n std) (fun u => mean1 n (gauss n std) (fun v =>
    extended ny nx image (Z.of_nat y + Z.of_nat u - Z.of_nat (n / 2)) (Z.of_nat x + Z.of_nat v - Z.of_nat (n / 2)))).
Proof.
  intros ny nx n std image y x S N. unfold blurred, mean1.
  assert (T : total n (gauss n std) <> 0) by (apply Rgt_not_eq, total_positive; [exact N|intros; apply gauss_positive]).
  rewrite (total_ext n (fun u => total n (fun v => weight _ _ _)) (fun u => total n (gauss n std) * gauss n std u)).
  2: { intros u _. rewrite <- (Rmult_comm (gauss n std u)), <- total_mul. apply total_ext. intros v _. apply weight_product. exact S. }
  rewrite total_mul.
  rewrite (total_ext n (fun u => gauss n std u * _) (fun u => / total n (gauss n std) * total n (fun v =>
     weight std (INR u - (INR n - 1) / 2) (INR v - (INR n - 1) / 2) * extended ny nx image (Z.of_nat y + Z.of_nat u - Z.of_nat (n / 2)) (Z.of_nat x + Z.of_nat v - Z.of_nat (n / 2))))).
  2: { intros u _. match goal with |- _ * (?X / _) = _ => transitivity (/ total n (gauss n std) * (gauss n std u * X)); [unfold Rdiv; ring|] end.
       f_equal. rewrite <- total_mul. apply total_ext. intros v _. rewrite weight_product by exact S. ring. }
  rewrite total_mul. field. exact T.
Qed.

Lemma normalized : forall n std u v, (0 < n)%nat -> std <> 0 ->
  normalized_window n std u v =
  weight std (INR u - (INR n - 1) / 2) (INR v - (INR n - 1) / 2) /
  total n (fun u => total n (fun v => weight std (INR u - (INR n - 1) / 2) (INR v - (INR n - 1) / 2))).
Proof.
  intros n std u v N S. unfold normalized_window.
  assert (E : forall u v, gaussian_window n std u v = weight std (INR u - (INR n - 1) / 2) (INR v - (INR n - 1) / 2)).
  { intros. rewrite weight_product by exact S. reflexivity. }
  rewrite sum_total. rewrite (total_ext n _ (fun u => / (2 * PI * std ^ 2) * total n (fun v => weight std (INR u - (INR n - 1) / 2) (INR v - (INR n - 1) / 2)))).
  2: { intros i _. rewrite sum_total, <- total_mul. apply total_ext. intros j _. rewrite E. unfold Rdiv. ring. }
  rewrite total_mul, E. pose proof PI_RGT_0. assert (0 < total n (fun u => total n (fun v => weight std (INR u - (INR n - 1) / 2) (INR v - (INR n - 1) / 2)))).
  { apply total_positive; [exact N|]. intros. apply total_positive; [exact N|]. intros. apply exp_pos. }
  field. repeat split; [apply Rgt_not_eq; assumption|exact S|apply Rgt_not_eq; assumption].
Qed.

Lemma window_size_spec : forall truncate std n, window_size truncate std = Some n <->
  (0 < n)%nat /\ INR n <= truncate * std < INR n + 1.
Proof.
  intros truncate std n. unfold window_size. destruct (Rlt_le_dec (truncate * std) 0) as [L|L].
  - pose proof (trunc_neg _ L) as [_ Z]. replace (Detector.trunc (truncate * std) <? 1)%Z with true by (symmetry; apply Z.ltb_lt; lia).
    split; [discriminate|]. intros [N H]. pose proof (lt_0_INR n N). lra.
  - pose proof (trunc_nonneg _ L) as [B Z]. destruct (Z.ltb_spec (Detector.trunc (truncate * std)) 1) as [O|O].
    + split; [discriminate|]. intros [N H]. assert (IZR (Detector.trunc (truncate * std)) <= 0) by (apply IZR_le; lia).
      assert (1 <= INR n) by (change 1 with (INR 1); apply le_INR; lia). lra.
    + split; intro H.
      * injection H as <-. rewrite INR_IZR_INZ, Z2Nat.id by lia. split; [lia|lra].
      * destruct H as [N H]. f_equal. apply Nat2Z.inj. rewrite Z2Nat.id by lia. rewrite INR_IZR_INZ in H.
        apply Z.le_antisymm; apply IZR_lt_plus1; lra.
Qed.

(** gaussian_filter as means over the axes *)
Definition sweight (r : nat) (std : R) (i : nat) : R := exp (- (1 / 2) / std ^ 2 * (INR i - INR r) ^ 2).
Lemma sweight_positive : forall r std i, 0 < sweight r std i.
Proof. intros. apply exp_pos. Qed.
Lemma sweight_symmetric : forall r std i, (i < 2 * r + 1)%nat -> sweight r std (2 * r + 1 - 1 - i) = sweight r std i.
Proof.
  intros r std i I. unfold sweight. f_equal. f_equal. replace (2 * r + 1 - 1 - i)%nat with (r + r - i)%nat by lia.
  rewrite minus_INR, plus_INR by lia. ring.
Qed.
Lemma spatial_means : forall store ny nx truncate std image y x, std <> 0 ->
  let r := radius truncate std in
  spatial_filter store ny nx truncate std image y x =
  store (mean1 (2 * r + 1) (sweight r std) (fun v => store (mean1 (2 * r + 1) (sweight r std) (fun u =>
    image (reflect ny (Z.of_nat y + Z.of_nat u - Z.of_nat r)) (reflect nx (Z.of_nat x + Z.of_nat v - Z.of_nat r)))))).
Proof.
  intros store ny nx truncate std image y x S r. unfold spatial_filter. fold r.
  assert (E : forall f, sum_below (2 * r + 1) (fun u => spatial_weight r std u * f u) = mean1 (2 * r + 1) (sweight r std) f).
  { intro f. unfold spatial_weight, mean1. rewrite !sum_total. change (fun i => exp (- (1 / 2) / std ^ 2 * (INR i - INR r) ^ 2)) with (sweight r std).
    unfold Rdiv. rewrite (Rmult_comm (total _ _)), <- total_mul. apply total_ext. intros i _.
    rewrite sum_total. change (fun i => exp (- (1 * / 2) * / std ^ 2 * (INR i - INR r) ^ 2)) with (sweight r std).
    change (exp (- (1 * / 2) * / std ^ 2 * (INR i - INR r) ^ 2)) with (sweight r std i). ring. }
  rewrite (E (fun v => store (sum_below (2 * r + 1) (fun u => spatial_weight r std u *
      image (reflect ny (Z.of_nat y + Z.of_nat u - Z.of_nat r)) (reflect nx (Z.of_nat x + Z.of_nat v - Z.of_nat r)))))).
  f_equal. apply mean1_ext. intros v _. f_equal. apply E.
Qed.

Lemma nearest_lt : forall n i, (0 < n)%nat -> (nearest n i < n)%nat.
Proof. intros n i N. unfold nearest. lia. Qed.
Lemma reflect_lt : forall n i, (0 < n)%nat -> (reflect n i < n)%nat.
Proof.
  intros n i N. unfold reflect. pose proof (Z.mod_pos_bound i (2 * Z.of_nat n) ltac:(lia)).
  destruct (Z.ltb_spec (i mod (2 * Z.of_nat n)) (Z.of_nat n)); lia.
Qed.
Lemma reflect_inside : forall n i, (i < n)%nat -> reflect n (Z.of_nat i) = i.
Proof.
  intros n i I. unfold reflect. rewrite Z.mod_small by lia. destruct (Z.ltb_spec (Z.of_nat i) (Z.of_nat n)); lia.
Qed.
Lemma nearest_flip : forall n i, (0 < n)%nat -> nearest n (Z.of_nat n - 1 - i) = (n - 1 - nearest n i)%nat.
Proof. intros n i N. unfold nearest. lia. Qed.
Lemma reflect_flip : forall n i, (0 < n)%nat -> reflect n (Z.of_nat n - 1 - i) = (n - 1 - reflect n i)%nat.
Proof.
  intros n i N. unfold reflect. set (m := (2 * Z.of_nat n)%Z). assert (M : (0 < m)%Z) by (unfold m; lia).
  pose proof (Z.mod_pos_bound i m M) as B. pose proof (Z.div_mod i m ltac:(lia)) as D. set (q := (i / m)%Z) in *. set (j := (i mod m)%Z) in *.
  destruct (Z.ltb_spec j (Z.of_nat n)) as [J|J].
  - assert (E : ((Z.of_nat n - 1 - i) mod m = Z.of_nat n - 1 - j)%Z).
    { symmetry. apply (Z.mod_unique_pos _ _ (- q)%Z); [unfold m in *; lia|lia]. }
    rewrite E. destruct (Z.ltb_spec (Z.of_nat n - 1 - j) (Z.of_nat n)); lia.
  - assert (E : ((Z.of_nat n - 1 - i) mod m = Z.of_nat n - 1 - j + m)%Z).
    { symmetry. apply (Z.mod_unique_pos _ _ (- q - 1)%Z); [unfold m in *; lia|lia]. }
    rewrite E. destruct (Z.ltb_spec (Z.of_nat n - 1 - j + m) (Z.of_nat n)); unfold m in *; lia.
Qed.
