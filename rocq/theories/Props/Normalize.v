(** Normalizing intensities (property C64). *)
From Coq Require Import List Reals ZArith Lra Lia Psatz.
From Verif Require Import Spec.Correlation Model.Pattern Model.Intensity Proofs.PatternProofs.
Import ListNotations.
Local Open Scope R_scope.

(** ** Specification *)

(** Mean and (population) standard deviation of the pixels of a pattern. *)
Definition mean (p : list R) : R := average (length p) (px p).
Definition variance (p : list R) : R := average (length p) (fun i => (px p i - mean p) ^ 2).
Definition standard_deviation (p : list R) : R := sqrt (variance p).
Definition has_contrast (p : list R) : Prop := exists x y, In x p /\ In y p /\ x <> y.

(** ** Proofs *)

Lemma mean_eq p : mean p = vmean p.
Proof. unfold mean. now rewrite vmean_average. Qed.
Lemma variance_eq p : variance p = dot (zero_mean p) (zero_mean p) / INR (length p).
Proof.
  unfold variance, average. f_equal. rewrite dot_Sum by reflexivity. rewrite zero_mean_length. apply Sum_ext. intros i Hi.
  rewrite zero_mean_nth by exact Hi. rewrite mean_eq. unfold px. ring.
Qed.
Lemma vstd_eq p : vstd p = standard_deviation p.
Proof.
  unfold standard_deviation. rewrite variance_eq. unfold vstd, vmean at 1. rewrite map_length. f_equal. f_equal.
  unfold zero_mean. set (c := vmean p). clearbody c. induction p as [|x p IH]; [reflexivity|]. simpl in *. now rewrite IH.
Qed.
Lemma contrast_iff p : has_contrast p <-> ~ constant p.
Proof.
  split.
  - intros (x & y & Hx & Hy & H) C. apply H. now apply C.
  - intros H. exists (vmin p), (vmax p). pose proof (vmin_lt_vmax p H). pose proof (not_constant_nonempty p H).
    split; [now apply vmin_in|]. split; [now apply vmax_in|lra].
Qed.
Lemma length_pos p : has_contrast p -> 0 < INR (length p).
Proof. intros H. apply contrast_iff, not_constant_nonempty in H. apply lt_0_INR. destruct p; [contradiction|simpl; lia]. Qed.
Lemma std_pos p : has_contrast p -> 0 < standard_deviation p.
Proof.
  intros H. unfold standard_deviation. rewrite variance_eq. apply sqrt_lt_R0. apply Rdiv_lt_0_compat; [|now apply length_pos].
  apply zero_mean_pos. now apply contrast_iff.
Qed.

(** Normalized pattern as an affine map *)
Definition divisor (num_std : R) (by_root : bool) (p : pattern) : R :=
  if by_root then num_std * standard_deviation p * sqrt (INR (length p)) else num_std * standard_deviation p.
Lemma normalize_affine num_std b p : normalize_intensity num_std b p
  = map (fun x => / divisor num_std b p * x + (- vmean p / divisor num_std b p)) p.
Proof.
  unfold normalize_intensity, divisor. rewrite vstd_eq. apply map_ext. intros x. destruct b; unfold Rdiv; ring.
Qed.
Lemma affine_variance a c p : p <> [] -> variance (map (fun x => a * x + c) p) = a * a * variance p.
Proof.
  intros H. rewrite !variance_eq, zero_mean_affine, dot_self_scale, map_length. unfold Rdiv. ring.
Qed.
Lemma affine_std a c p : p <> [] -> 0 <= a -> standard_deviation (map (fun x => a * x + c) p) = a * standard_deviation p.
Proof.
  intros H Ha. unfold standard_deviation. rewrite affine_variance by exact H.
  rewrite sqrt_mult_alt by nra. now rewrite sqrt_square.
Qed.

(** ** C64 *)

(** The mean of every pattern with contrast becomes zero. *)
Theorem C64_mean_zero num_std b p : has_contrast p -> num_std <> 0 -> mean (normalize_intensity num_std b p) = 0.
Proof.
  intros H Hn. rewrite mean_eq, normalize_affine. rewrite vmean_affine by now apply not_constant_nonempty, contrast_iff.
  unfold Rdiv. ring.
Qed.
Print Assumptions C64_mean_zero.

(** Its standard deviation becomes one over "num_std". *)
Theorem C64_standard_deviation num_std p : has_contrast p -> 0 < num_std ->
  standard_deviation (normalize_intensity num_std false p) = 1 / num_std.
Proof.
  intros H Hn. pose proof (std_pos p H) as Hs. rewrite normalize_affine. rewrite affine_std.
  - unfold divisor. field. lra.
  - now apply not_constant_nonempty, contrast_iff.
  - left. apply Rinv_0_lt_compat. unfold divisor. now apply Rmult_lt_0_compat.
Qed.
Print Assumptions C64_standard_deviation.
(** With the division by the square root of the number of pixels, the squares sum up to one over the
    square of "num_std". *)
Theorem C64_standard_deviation_by_root num_std p : has_contrast p -> 0 < num_std ->
  standard_deviation (normalize_intensity num_std true p) = 1 / (num_std * sqrt (INR (length p))).
Proof.
  intros H Hn. pose proof (std_pos p H) as Hs. pose proof (sqrt_lt_R0 _ (length_pos p H)) as Hl. rewrite normalize_affine. rewrite affine_std.
  - unfold divisor. field. repeat split; lra.
  - now apply not_constant_nonempty, contrast_iff.
  - left. apply Rinv_0_lt_compat. unfold divisor. apply Rmult_lt_0_compat; [now apply Rmult_lt_0_compat|exact Hl].
Qed.

(** The documentation says that "num_std" is the number of standard deviations of the output intensities.
    It is not, unless it is 1. *)
Theorem C64_documented_standard_deviation_refuted num_std p : has_contrast p -> 0 < num_std -> num_std <> 1 ->
  standard_deviation (normalize_intensity num_std false p) <> num_std.
Proof.
  intros H Hn H1 E. rewrite C64_standard_deviation in E by assumption.
  assert (num_std * num_std = 1). { rewrite <- E at 1. field. lra. } nra.
Qed.

(** Contrast and brightness do not matter, nor does normalizing before. *)
Theorem C64_ignores_contrast_and_brightness num_std b p a c : has_contrast p -> 0 < num_std -> 0 < a ->
  normalize_intensity num_std b (map (fun x => a * x + c) p) = normalize_intensity num_std b p.
Proof.
  intros H Hn Ha. pose proof (std_pos p H) as Hs. pose proof (not_constant_nonempty p (proj1 (contrast_iff p) H)) as Hp.
  pose proof (sqrt_lt_R0 _ (length_pos p H)) as Hl.
  rewrite !normalize_affine, map_map. apply map_ext. intros x. unfold divisor. rewrite vmean_affine, affine_std, map_length by (auto; lra).
  destruct b; field; repeat split; lra.
Qed.
Theorem C64_idempotent num_std b b' num_std' p : has_contrast p -> 0 < num_std -> 0 < num_std' ->
  normalize_intensity num_std b (normalize_intensity num_std' b' p) = normalize_intensity num_std b p.
Proof.
  intros H Hn Hn'. rewrite (normalize_affine num_std' b' p). apply C64_ignores_contrast_and_brightness; auto.
  apply Rinv_0_lt_compat. pose proof (std_pos p H) as Hs. pose proof (sqrt_lt_R0 _ (length_pos p H)) as Hl.
  unfold divisor. destruct b'; repeat apply Rmult_lt_0_compat; assumption.
Qed.
(** The order of intensities is kept. *)
Theorem C64_order_kept num_std b p i j : has_contrast p -> 0 < num_std -> (i < length p)%nat -> (j < length p)%nat ->
  px p i < px p j -> px (normalize_intensity num_std b p) i < px (normalize_intensity num_std b p) j.
Proof.
  intros H Hn Hi Hj L. pose proof (std_pos p H) as Hs. pose proof (sqrt_lt_R0 _ (length_pos p H)) as Hl.
  assert (D : 0 < / divisor num_std b p).
  { apply Rinv_0_lt_compat. unfold divisor. destruct b; repeat apply Rmult_lt_0_compat; assumption. }
  rewrite normalize_affine. unfold px in *. set (f := fun x => / divisor num_std b p * x + - vmean p / divisor num_std b p).
  rewrite (nth_indep _ 0 (f 0)) by (now rewrite map_length). rewrite (nth_indep (map f p) 0 (f 0)) by (now rewrite map_length).
  rewrite !map_nth. unfold f. nra.
Qed.

(** The hypotheses hold for a pattern. *)
Example contrast_example : has_contrast [3; 7; 5].
Proof. exists 3, 7. simpl. repeat split; auto; lra. Qed.
(** Without contrast the standard deviation is zero: the code divides zero by zero. *)
Example no_contrast_example : standard_deviation [4; 4] = 0.
Proof. unfold standard_deviation. rewrite variance_eq. replace (dot _ _) with 0; [|symmetry; apply zero_mean_constant; intros x y [<-|[<-|[]]] [<-|[<-|[]]]; reflexivity]. unfold Rdiv. rewrite Rmult_0_l. apply sqrt_0. Qed.
