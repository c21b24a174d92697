(** The image quality as a function of the magnitudes of the spectrum; normalisation of arrays. *)
From Coq Require Import Reals Arith ZArith List Bool Lia Lra.
From Verif Require Import Proofs.AverageNeighboursProofs.
From Verif Require Import Model.FftBarnes Model.Pattern Model.PatternSpectrum Proofs.FourierProofs Proofs.SpectrumProofs Spec.FilterSpec Spec.QualitySpec.
Import ListNotations.
Local Open Scope R_scope.

Lemma rsum_total n f : rsum n f = total n f.
Proof. induction n as [|n IH]; cbn; [reflexivity|]. now rewrite IH. Qed.
Lemma sum2_total2 h w f : sum2 h w f = total2 h w f.
Proof. unfold sum2, total2. rewrite rsum_total. rewrite <- !rsum_total. apply rsum_ext. intros. apply rsum_total. Qed.

(** The weights *)
Lemma line_steps n j : (j < n)%nat -> (IZR (line n j ^ 2) = INR (steps n j) * INR (steps n j)).
Proof.
  intros J. rewrite <- mult_INR, INR_IZR_INZ, Nat2Z.inj_mul. f_equal. unfold line, steps. pose proof (Nat.div_mod n 2 ltac:(lia)) as D. pose proof (Nat.mod_upper_bound n 2 ltac:(lia)) as U.
  destruct (Nat.ltb_spec j (n / 2)), (Nat.leb_spec (2 * (j + 1)) n); try lia.
Qed.
Lemma weights_weight h w k l : (k < h)%nat -> (l < w)%nat -> frequency_vectors h w k l = weight h w k l.
Proof. intros K L. unfold frequency_vectors, weight. rewrite minus_IZR, plus_IZR, !line_steps by assumption. reflexivity. Qed.
Lemma steps_pos n j : (j < n)%nat -> (1 <= steps n j)%nat.
Proof. intros J. unfold steps. destruct (Nat.leb_spec (2 * (j + 1)) n); lia. Qed.
Lemma steps_max n j : (j < n)%nat -> (steps n j <= (n + 1) / 2)%nat.
Proof. intros J. unfold steps. apply Nat.div_le_lower_bound; [lia|]. destruct (Nat.leb_spec (2 * (j + 1)) n); lia. Qed.
Lemma square_le a b : (a <= b)%nat -> INR a * INR a <= INR b * INR b.
Proof. intros H. apply le_INR in H. pose proof (pos_INR a). apply Rmult_le_compat; assumption. Qed.
Lemma weight_low h w k l : (k < h)%nat -> (l < w)%nat -> 1 <= weight h w k l.
Proof.
  intros K L. unfold weight. pose proof (square_le 1 _ (steps_pos h k K)) as A. pose proof (square_le 1 _ (steps_pos w l L)) as B. cbn [INR] in A, B. lra.
Qed.
Lemma positive_sizes h w : (0 < h)%nat -> (0 < w)%nat -> 0 < INR h * INR w.
Proof. intros H W. apply Rmult_lt_0_compat; apply lt_0_INR; assumption. Qed.
Lemma top_mean h w : inertia_max h w (frequency_vectors h w) = mean_weight h w.
Proof. unfold inertia_max, mean_weight. rewrite <- (sum2_total2 h w (weight h w)). f_equal. apply sum2_ext. intros. now apply weights_weight. Qed.
Lemma mean_low h w : (0 < h)%nat -> (0 < w)%nat -> 1 <= mean_weight h w.
Proof.
  intros H W. pose proof (positive_sizes h w H W) as P. unfold mean_weight. rewrite <- (sum2_total2 h w (weight h w)). apply (Rmult_le_reg_r (INR h * INR w)); [exact P|].
  unfold Rdiv. rewrite Rmult_assoc, Rinv_l, Rmult_1_r by lra. rewrite Rmult_1_l. replace (INR h * INR w) with (sum2 h w (fun _ _ => 1)) by (rewrite sum2_const; ring). apply sum2_le. intros. now apply weight_low.
Qed.

(** The quality as a function of two sums *)
Lemma quality_sums h w t u weights top : 
  sum2 h w (fun k l => modulus (t k l)) = sum2 h w (fun k l => modulus (u k l)) ->
  sum2 h w (fun k l => modulus (t k l) * weights k l) = sum2 h w (fun k l => modulus (u k l) * weights k l) ->
  image_quality_of h w t weights top = image_quality_of h w u weights top.
Proof. intros A B. unfold image_quality_of. rewrite A, B. reflexivity. Qed.
Lemma quality_ext h w t u weights top : (forall k l, (k < h)%nat -> (l < w)%nat -> modulus (t k l) = modulus (u k l)) ->
  image_quality_of h w t weights top = image_quality_of h w u weights top.
Proof. intros H. apply quality_sums; apply sum2_ext; intros; now rewrite H. Qed.
Lemma quality_scale h w t u weights top c : 0 < c -> (forall k l, (k < h)%nat -> (l < w)%nat -> modulus (t k l) = c * modulus (u k l)) ->
  image_quality_of h w t weights top = image_quality_of h w u weights top.
Proof.
  intros C H. unfold image_quality_of.
  assert (A : sum2 h w (fun k l => modulus (t k l)) = c * sum2 h w (fun k l => modulus (u k l))) by (rewrite <- sum2_mul; apply sum2_ext; intros; now apply H).
  assert (B : sum2 h w (fun k l => modulus (t k l) * weights k l) = c * sum2 h w (fun k l => modulus (u k l) * weights k l)) by (rewrite <- sum2_mul; apply sum2_ext; intros; rewrite H by assumption; ring).
  rewrite A, B. destruct (Req_EM_T (c * _) 0) as [E|N]; destruct (Req_EM_T (sum2 h w (fun k l => modulus (u k l))) 0) as [E'|N']; try reflexivity.
  - apply Rmult_integral in E. lra.
  - rewrite E' in N. lra.
  - destruct (Req_EM_T top 0); [reflexivity|]. do 3 f_equal. field. split; [exact N'|lra].
Qed.

(** Normalisation *)
Definition mean2 (h w : nat) (p : array) : R := sum2 h w p / (INR h * INR w).
Lemma vsum_seq n f : vsum (map f (seq 0 n)) = rsum n f.
Proof. induction n as [|n IH]; [reflexivity|]. rewrite seq_S, map_app, vsum_app, IH. cbn. ring. Qed.
Lemma vsum_pixels h w p : vsum (pixels h w p) = sum2 h w p.
Proof. unfold pixels. rewrite vsum_flat_map, vsum_seq. apply rsum_ext. intros. apply vsum_seq. Qed.
Lemma pixels_map h w f p : map f (pixels h w p) = pixels h w (fun y x => f (p y x)).
Proof. unfold pixels. rewrite flat_map_concat_map, concat_map, map_map, <- flat_map_concat_map. apply flat_map_ext. intros y. now rewrite map_map. Qed.
Lemma length_pixels h w p : INR (length (pixels h w p)) = INR h * INR w.
Proof.
  rewrite <- mult_INR. f_equal. unfold pixels. generalize 0%nat at 2. induction h as [|h IH]; intros n; [reflexivity|]. cbn. rewrite app_length, map_length, seq_length, IH. lia.
Qed.
Lemma vmean_pixels h w p : vmean (pixels h w p) = mean2 h w p.
Proof. unfold vmean, mean2. now rewrite vsum_pixels, length_pixels. Qed.
Definition deviation (h w : nat) (p : array) : R := sqrt (mean2 h w (fun y x => (p y x - mean2 h w p) * (p y x - mean2 h w p))).
Lemma vstd_pixels h w p : vstd (pixels h w p) = deviation h w p.
Proof. unfold vstd, deviation. rewrite pixels_map, !vmean_pixels. reflexivity. Qed.
Lemma mean2_ext h w a b : (forall y x, (y < h)%nat -> (x < w)%nat -> a y x = b y x) -> mean2 h w a = mean2 h w b.
Proof. intros H. unfold mean2. f_equal. now apply sum2_ext. Qed.
Lemma normalized_moved h w p f g : (forall v, sum2 h w (fun y x => v (p (f y x) (g y x))) = sum2 h w (fun y x => v (p y x))) ->
  normalized h w (fun y x => p (f y x) (g y x)) = option_map (fun n y x => n (f y x) (g y x)) (normalized h w p).
Proof.
  intros H. unfold normalized. rewrite !vstd_pixels, !vmean_pixels.
  assert (M : mean2 h w (fun y x => p (f y x) (g y x)) = mean2 h w p) by (unfold mean2; now rewrite (H (fun v => v))).
  assert (D : deviation h w (fun y x => p (f y x) (g y x)) = deviation h w p).
  { unfold deviation. rewrite M. f_equal. generalize (mean2 h w p). intros m. unfold mean2. f_equal. apply (H (fun v => (v - m) * (v - m))). }
  rewrite D, M. destruct (Req_EM_T _ _); reflexivity.
Qed.
Lemma mean2_affine h w p a b : (0 < h)%nat -> (0 < w)%nat -> mean2 h w (fun y x => a * p y x + b) = a * mean2 h w p + b.
Proof. intros H W. pose proof (positive_sizes h w H W) as P. unfold mean2. rewrite (sum2_add h w (fun y x => a * p y x) (fun _ _ => b)), sum2_mul, sum2_const. field. split; [apply Rgt_not_eq, lt_0_INR, W|apply Rgt_not_eq, lt_0_INR, H]. Qed.
Lemma deviation_affine h w p a b : (0 < h)%nat -> (0 < w)%nat -> deviation h w (fun y x => a * p y x + b) = Rabs a * deviation h w p.
Proof.
  intros H W. unfold deviation. rewrite <- (sqrt_Rsqr_abs a), <- sqrt_mult_alt by apply Rle_0_sqr. f_equal. rewrite mean2_affine by assumption. generalize (mean2 h w p). intros m. unfold mean2.
  unfold Rdiv. rewrite <- Rmult_assoc. f_equal. rewrite <- sum2_mul. apply sum2_ext. intros. unfold Rsqr. ring.
Qed.
Lemma deviation_zero h w p : (0 < h)%nat -> (0 < w)%nat -> (deviation h w p = 0 <-> constant h w p).
Proof.
  intros H W. pose proof (positive_sizes h w H W) as P. split.
  - intros D y x y' x' Y X Y' X'. unfold deviation in D. apply sqrt_eq_0 in D.
    + unfold mean2 at 1 in D. assert (E : sum2 h w (fun y x => (p y x - mean2 h w p) * (p y x - mean2 h w p)) = 0).
      { unfold Rdiv in D. apply Rmult_integral in D. destruct D as [D|D]; [exact D|]. exfalso. apply (Rinv_neq_0_compat (INR h * INR w)); [lra|exact D]. }
      assert (Z : forall y x, (y < h)%nat -> (x < w)%nat -> p y x = mean2 h w p).
      { intros i j I J. pose proof (sum2_zero h w _ (fun y x _ _ => Rle_0_sqr (p y x - mean2 h w p)) E i j I J) as Q. cbn in Q. unfold Rsqr in Q. apply Rmult_integral in Q. lra. }
      now rewrite !Z.
    + unfold mean2 at 1. apply Rmult_le_pos; [|left; apply Rinv_0_lt_compat; exact P]. apply sum2_nonneg. intros. apply Rle_0_sqr.
  - intros C. assert (M : mean2 h w p = p 0%nat 0%nat).
    { unfold mean2. rewrite (sum2_ext h w p (fun _ _ => p 0%nat 0%nat)) by (intros; apply C; assumption). rewrite sum2_const. field. split; [apply Rgt_not_eq, lt_0_INR, W|apply Rgt_not_eq, lt_0_INR, H]. }
    unfold deviation. rewrite M. rewrite <- sqrt_0. f_equal. unfold mean2. rewrite (sum2_ext h w _ (fun _ _ => 0)); [rewrite sum2_const; unfold Rdiv; ring|].
    intros y x Y X. rewrite (C y x 0%nat 0%nat) by assumption. ring.
Qed.
Lemma deviation_nonneg h w p : 0 <= deviation h w p.
Proof. apply sqrt_pos. Qed.
Lemma normalized_some h w p n : normalized h w p = Some n -> deviation h w p <> 0 /\ n = fun y x => (p y x - mean2 h w p) / (1 * deviation h w p).
Proof. unfold normalized. rewrite vstd_pixels, vmean_pixels. destruct (Req_EM_T _ _) as [E|N]; [discriminate|]. intros E. injection E as <-. now split. Qed.
