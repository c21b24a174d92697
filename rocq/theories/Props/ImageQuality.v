(** C75: the image quality of a pattern. *)
From Coq Require Import Reals Arith ZArith List Bool Lia Lra.
From Verif Require Import Model.FftBarnes Model.PatternSpectrum Proofs.FourierProofs Proofs.SpectrumProofs Proofs.ImageQualityProofs Spec.FilterSpec Spec.QualitySpec.
Import ListNotations.
Local Open Scope R_scope.

Lemma quality_plain h w p : get_image_quality h w p false = image_quality_of h w (dft2 h w p) (frequency_vectors h w) (mean_weight h w).
Proof. unfold get_image_quality. now rewrite top_mean. Qed.
Lemma quality_normalized h w p : get_image_quality h w p true = match normalized h w p with None => None | Some n => get_image_quality h w n false end.
Proof. reflexivity. Qed.

(** What the number is: one minus the mean weight of the spectrum divided by the mean of all weights. *)
Lemma dft2_parts h w p k l : dft2 h w p k l = (cosine_part h w p k l, - sine_part h w p k l).
Proof.
  unfold dft2, cosine_part, sine_part. rewrite csum_parts. apply Cext; cbn [fst snd].
  - rewrite <- sum2_total2. apply rsum_ext. intros y _. rewrite csum_parts. cbn [fst]. apply rsum_ext. intros x _. unfold Cmul, real, cis. cbn. rewrite cos_neg. ring.
  - set (g := fun y x => p y x * sin (2 * PI * (INR k * INR y / INR h + INR l * INR x / INR w))). transitivity (-1 * rsum h (fun y => rsum w (fun x => g y x))); [|rewrite <- sum2_total2; unfold sum2; ring].
    rewrite <- rsum_mul. apply rsum_ext. intros y _. rewrite csum_parts. cbn [snd]. rewrite <- rsum_mul. apply rsum_ext. intros x _. unfold g, Cmul, real, cis. cbn. rewrite sin_neg. ring.
Qed.
Lemma magnitude_modulus h w p s : magnitude h w p s -> forall k l, (k < h)%nat -> (l < w)%nat -> modulus (dft2 h w p k l) = s k l.
Proof.
  intros M k l K L. destruct (M k l K L) as [P E]. unfold modulus. rewrite dft2_parts. cbn [fst snd]. rewrite <- (sqrt_square (s k l)) by exact P. f_equal. rewrite E. ring.
Qed.
Theorem C75_value h w p s q : (0 < h)%nat -> (0 < w)%nat -> magnitude h w p s ->
  (get_image_quality h w p false = Some q <->
   total2 h w s <> 0 /\ q = 1 - total2 h w (fun k l => s k l * weight h w k l) / total2 h w s / mean_weight h w).
Proof.
  intros H W M. pose proof (mean_low h w H W) as T. rewrite quality_plain. unfold image_quality_of.
  assert (A : sum2 h w (fun k l => modulus (dft2 h w p k l)) = total2 h w s) by (rewrite <- (sum2_total2 h w s); apply sum2_ext; intros; now apply magnitude_modulus).
  assert (B : sum2 h w (fun k l => modulus (dft2 h w p k l) * frequency_vectors h w k l) = total2 h w (fun k l => s k l * weight h w k l)).
  { rewrite <- (sum2_total2 h w (fun k l => s k l * weight h w k l)). apply sum2_ext. intros k l K L. rewrite weights_weight by assumption. f_equal. now apply magnitude_modulus. }
  rewrite A, B. destruct (Req_EM_T (total2 h w s) 0) as [E|N].
  - split; [discriminate|]. intros [N _]. contradiction.
  - destruct (Req_EM_T (mean_weight h w) 0) as [E|N']; [lra|]. split; [intros E; injection E as <-; now split|]. intros [_ ->]. reflexivity.
Qed.

(** Brightness and contrast do not matter. *)
Theorem C75_contrast h w p a : a <> 0 -> get_image_quality h w (fun y x => a * p y x) false = get_image_quality h w p false.
Proof.
  intros A. rewrite !quality_plain. apply (quality_scale _ _ _ _ _ _ (Rabs a)); [now apply Rabs_pos_lt|].
  intros k l _ _. rewrite dft2_scale, modulus_mul, modulus_real. reflexivity.
Qed.
Lemma quality_pixels h w p p' : (forall y x, (y < h)%nat -> (x < w)%nat -> p y x = p' y x) -> get_image_quality h w p false = get_image_quality h w p' false.
Proof. intros E. rewrite !quality_plain. apply quality_ext. intros k l _ _. f_equal. now apply dft2_ext. Qed.
Theorem C75_brightness_and_contrast h w p a b : (0 < h)%nat -> (0 < w)%nat -> a <> 0 ->
  get_image_quality h w (fun y x => a * p y x + b) true = get_image_quality h w p true.
Proof.
  intros H W A. rewrite !quality_normalized. unfold normalized. rewrite !vstd_pixels, !vmean_pixels, mean2_affine, deviation_affine by assumption.
  pose proof (Rabs_pos_lt a A) as P. pose proof (Rabs_no_R0 a A) as N.
  destruct (Req_EM_T (Rabs a * deviation h w p) 0) as [E|E]; destruct (Req_EM_T (deviation h w p) 0) as [E'|E']; try reflexivity.
  - apply Rmult_integral in E. lra.
  - rewrite E' in E. lra.
  - rewrite <- (C75_contrast h w (fun y x => (p y x - mean2 h w p) / (1 * deviation h w p)) (a / Rabs a)).
    + apply quality_pixels. intros. field. split; assumption.
    + unfold Rdiv. apply Rmult_integral_contrapositive_currified; [exact A|now apply Rinv_neq_0_compat].
Qed.

(** Neither does the place of the pattern on the detector (with wrap-around), nor mirroring it. *)
Theorem C75_translation h w p dy dx normalize : (0 < h)%nat -> (0 < w)%nat ->
  get_image_quality h w (fun y x => p ((y + dy) mod h)%nat ((x + dx) mod w)%nat) normalize = get_image_quality h w p normalize.
Proof.
  intros H W. assert (P : forall p, get_image_quality h w (fun y x => p ((y + dy) mod h)%nat ((x + dx) mod w)%nat) false = get_image_quality h w p false).
  { intros a. rewrite !quality_plain. apply quality_ext. intros k l _ _. rewrite dft2_cycle, modulus_mul, modulus_cis by assumption. ring. }
  destruct normalize; [|apply P]. rewrite !quality_normalized.
  rewrite (normalized_moved h w p (fun y x => ((y + dy) mod h)%nat) (fun y x => ((x + dx) mod w)%nat)).
  - destruct (normalized h w p); cbn; [apply P|reflexivity].
  - intros v. apply (sum2_cycle h w dy dx (fun y x => v (p y x))).
Qed.
Lemma mirror_sums h w p f g : (0 < h)%nat -> (0 < w)%nat ->
  sum2 h w (fun k l => modulus (dft2 h w p k ((w - l) mod w)%nat) * (f k + g l)) = sum2 h w (fun k l => modulus (dft2 h w p k l) * (f k + g l)).
Proof.
  intros H W. set (s := fun k l => modulus (dft2 h w p k l)).
  assert (S : forall k l, (k < h)%nat -> (l < w)%nat -> s k l = s ((h - k) mod h)%nat ((w - l) mod w)%nat).
  { intros k l K L. unfold s. rewrite dft2_conj by assumption. now rewrite modulus_conj. }
  rewrite (sum2_ext h w _ (fun k l => s k ((w - l) mod w)%nat * f k + s k ((w - l) mod w)%nat * g l)) by (intros; unfold s; ring).
  rewrite (sum2_ext h w (fun k l => modulus (dft2 h w p k l) * (f k + g l)) (fun k l => s k l * f k + s k l * g l)) by (intros; unfold s; ring).
  rewrite !sum2_add. f_equal.
  - apply rsum_ext. intros k _. apply (rsum_reflect w (fun l => s k l * f k)).
  - rewrite (sum2_transpose h w), (sum2_transpose h w (fun k l => s k l * g l)). apply rsum_ext. intros l L.
    rewrite <- (rsum_reflect h (fun k => s k l * g l)). apply rsum_ext. intros k K.
    destruct (Nat.eq_dec k 0) as [->|NK].
    + rewrite Nat.sub_0_r, Nat.mod_same by lia. f_equal. rewrite (S 0%nat l) by assumption. now rewrite Nat.sub_0_r, Nat.mod_same by lia.
    + rewrite (Nat.mod_small (h - k)) by lia. f_equal. rewrite (S (h - k)%nat l) by lia. do 2 f_equal. rewrite Nat.mod_small; lia.
Qed.
Lemma mirror_plain h w p : (0 < h)%nat -> (0 < w)%nat -> get_image_quality h w (fun y x => p y (w - 1 - x)%nat) false = get_image_quality h w p false.
Proof.
  intros H W. rewrite !quality_plain. apply quality_sums.
  - rewrite (sum2_ext h w _ (fun k l => modulus (dft2 h w p k ((w - l) mod w)%nat))) by (intros; now apply dft2_mirror).
    apply rsum_ext. intros k _. apply (rsum_reflect w (fun l => modulus (dft2 h w p k l))).
  - rewrite (sum2_ext h w _ (fun k l => modulus (dft2 h w p k ((w - l) mod w)%nat) * (IZR (line h k ^ 2) + (IZR (line w l ^ 2) - 1)))).
    + rewrite mirror_sums by assumption. apply sum2_ext. intros. f_equal. unfold frequency_vectors. rewrite minus_IZR, plus_IZR. ring.
    + intros k l K L. rewrite dft2_mirror by assumption. f_equal. unfold frequency_vectors. rewrite minus_IZR, plus_IZR. ring.
Qed.
Theorem C75_mirror h w p normalize : (0 < h)%nat -> (0 < w)%nat ->
  get_image_quality h w (fun y x => p y (w - 1 - x)%nat) normalize = get_image_quality h w p normalize.
Proof.
  intros H W. destruct normalize; [|now apply mirror_plain]. rewrite !quality_normalized.
  rewrite (normalized_moved h w p (fun y x => y) (fun y x => (w - 1 - x)%nat)).
  - destruct (normalized h w p); cbn; [now apply mirror_plain|reflexivity].
  - intros v. apply (sum2_flip h w (fun y x => v (p y x))).
Qed.
(** Transposing pattern and shape together; with the previous theorem, flips and rotations by 90 degrees. *)
Lemma transpose_plain h w p : get_image_quality h w p false = get_image_quality w h (fun x y => p y x) false.
Proof.
  rewrite !quality_plain. assert (T : mean_weight w h = mean_weight h w).
  { unfold mean_weight. rewrite (Rmult_comm (INR w)). f_equal. rewrite <- (sum2_total2 h w), <- (sum2_total2 w h), (sum2_transpose h w). apply sum2_ext. intros. unfold weight. ring. }
  rewrite T. unfold image_quality_of.
  rewrite (sum2_transpose h w (fun k l => modulus (dft2 h w p k l))), (sum2_transpose h w (fun k l => modulus (dft2 h w p k l) * frequency_vectors h w k l)).
  rewrite (sum2_ext w h (fun x y => modulus (dft2 h w p y x)) (fun k l => modulus (dft2 w h (fun x y => p y x) k l))) by (intros; now rewrite dft2_transpose).
  rewrite (sum2_ext w h (fun x y => modulus (dft2 h w p y x) * frequency_vectors h w y x) (fun k l => modulus (dft2 w h (fun x y => p y x) k l) * frequency_vectors w h k l)); [reflexivity|].
  intros. rewrite dft2_transpose. f_equal. unfold frequency_vectors. f_equal. ring.
Qed.
Lemma deviation_transpose h w p : deviation w h (fun x y => p y x) = deviation h w p /\ mean2 w h (fun x y => p y x) = mean2 h w p.
Proof.
  assert (M : forall p, mean2 w h (fun x y => p y x) = mean2 h w p) by (intros a; unfold mean2; rewrite (sum2_transpose h w a), (Rmult_comm (INR w)); reflexivity).
  split; [|apply M]. unfold deviation. rewrite (M p). f_equal. apply (M (fun y x => (p y x - mean2 h w p) * (p y x - mean2 h w p))).
Qed.
Theorem C75_transpose h w p normalize : get_image_quality w h (fun x y => p y x) normalize = get_image_quality h w p normalize.
Proof.
  destruct normalize; [|symmetry; apply transpose_plain]. rewrite !quality_normalized. unfold normalized. rewrite !vstd_pixels, !vmean_pixels.
  destruct (deviation_transpose h w p) as [-> ->]. destruct (Req_EM_T _ _); [reflexivity|]. symmetry. apply (transpose_plain h w (fun y x => (p y x - mean2 h w p) / (1 * deviation h w p))).
Qed.

(** When there is no number *)
Theorem C75_undefined_exactly_for_zero h w p : (0 < h)%nat -> (0 < w)%nat ->
  (get_image_quality h w p false = None <-> forall y x, (y < h)%nat -> (x < w)%nat -> p y x = 0).
Proof.
  intros H W. pose proof (mean_low h w H W) as T. rewrite quality_plain. unfold image_quality_of.
  destruct (Req_EM_T (sum2 h w (fun k l => modulus (dft2 h w p k l))) 0) as [E|N].
  - split; [intros _|reflexivity]. intros y x Y X. assert (Z : forall k l, (k < h)%nat -> (l < w)%nat -> dft2 h w p k l = (0, 0)).
    { intros k l K L. apply modulus_0. apply (sum2_zero h w _ (fun k l _ _ => modulus_nonneg (dft2 h w p k l)) E k l K L). }
    pose proof (inversion h w p y x Y X) as I. rewrite (idft2_ext h w _ (fun _ _ => C0)) in I by exact Z. apply (f_equal fst) in I. cbn in I. rewrite <- I. unfold idft2.
    rewrite (csum_ext h _ (fun _ => C0)), csum_0; [cbn; ring|]. intros k _. rewrite (csum_ext w _ (fun _ => C0)), csum_0; [reflexivity|]. intros l _. apply Cext; unfold Cmul, C0; cbn; ring.
  - destruct (Req_EM_T (mean_weight h w) 0); [lra|]. split; [discriminate|]. intros Z. exfalso. apply N. rewrite (sum2_ext h w _ (fun _ _ => 0)); [rewrite sum2_const; ring|].
    intros k l _ _. rewrite (dft2_ext h w p (fun y x => 0 * 0)) by (intros; rewrite Z by assumption; ring). rewrite dft2_scale, modulus_mul, modulus_real, Rabs_R0. ring.
Qed.
Theorem C75_undefined_exactly_for_constant h w p : (0 < h)%nat -> (0 < w)%nat -> (get_image_quality h w p true = None <-> constant h w p).
Proof.
  intros H W. rewrite quality_normalized. unfold normalized. rewrite vstd_pixels, vmean_pixels. rewrite <- deviation_zero by assumption.
  destruct (Req_EM_T (deviation h w p) 0) as [E|N]; [tauto|]. split; [|intros E; contradiction]. rewrite C75_undefined_exactly_for_zero by assumption.
  intros Z. exfalso. apply N. apply deviation_zero; [assumption|assumption|]. assert (M : forall y x, (y < h)%nat -> (x < w)%nat -> p y x = mean2 h w p).
  { intros y x Y X. specialize (Z y x Y X). unfold Rdiv in Z. apply Rmult_integral in Z. destruct Z as [Z|Z]; [lra|]. exfalso. apply (Rinv_neq_0_compat (1 * deviation h w p)); [lra|exact Z]. }
  intros y x y' x' Y X Y' X'. now rewrite !M.
Qed.

(** The range of values *)
Lemma range_plain h w p q B : (0 < h)%nat -> (0 < w)%nat -> (forall k l, (k < h)%nat -> (l < w)%nat -> weight h w k l <= B) ->
  get_image_quality h w p false = Some q -> 1 - B / mean_weight h w <= q <= 1 - 1 / mean_weight h w.
Proof.
  intros H W U Q. pose proof (mean_low h w H W) as T. rewrite quality_plain in Q. unfold image_quality_of in Q.
  destruct (Req_EM_T _ 0) as [E|N] in Q; [discriminate|]. destruct (Req_EM_T _ 0) as [E'|N'] in Q; [discriminate|]. injection Q as <-.
  set (S := sum2 h w (fun k l => modulus (dft2 h w p k l))) in *. set (V := sum2 h w (fun k l => modulus (dft2 h w p k l) * frequency_vectors h w k l)).
  assert (P : 0 < S) by (destruct (Rle_lt_or_eq_dec 0 S) as [G|G]; [apply sum2_nonneg; intros; apply modulus_nonneg|exact G|congruence]).
  assert (L : S <= V).
  { apply sum2_le. intros k l K L. rewrite weights_weight by assumption. rewrite <- (Rmult_1_r (modulus _)) at 1. apply Rmult_le_compat_l; [apply modulus_nonneg|now apply weight_low]. }
  assert (G : V <= B * S).
  { unfold S. rewrite <- sum2_mul. apply sum2_le. intros k l K L'. rewrite weights_weight by assumption. rewrite Rmult_comm. apply Rmult_le_compat_r; [apply modulus_nonneg|now apply U]. }
  assert (I : 1 <= V / S <= B).
  { split; [apply (Rmult_le_reg_r S); [exact P|]; unfold Rdiv; rewrite Rmult_assoc, Rinv_l by lra; lra|].
    apply (Rmult_le_reg_r S); [exact P|]. unfold Rdiv. rewrite Rmult_assoc, Rinv_l by lra. lra. }
  assert (Rp : 0 <= / mean_weight h w) by (left; apply Rinv_0_lt_compat; lra). unfold Rdiv at 1 3 4. 
  split; apply Rplus_le_compat_l, Ropp_le_contravar, Rmult_le_compat_r; tauto.
Qed.
Theorem C75_range h w p normalize q : (0 < h)%nat -> (0 < w)%nat -> get_image_quality h w p normalize = Some q ->
  1 - (INR ((h + 1) / 2) * INR ((h + 1) / 2) + INR ((w + 1) / 2) * INR ((w + 1) / 2) - 1) / mean_weight h w <= q <= 1 - 1 / mean_weight h w /\ q < 1.
Proof.
  intros H W Q. assert (B : 1 - (INR ((h + 1) / 2) * INR ((h + 1) / 2) + INR ((w + 1) / 2) * INR ((w + 1) / 2) - 1) / mean_weight h w <= q <= 1 - 1 / mean_weight h w).
  { destruct normalize; [rewrite quality_normalized in Q; destruct (normalized h w p) as [n|]; [|discriminate]|].
    all: refine (range_plain _ _ _ _ _ H W _ Q); intros k l K L; unfold weight; pose proof (square_le _ _ (steps_max h k K)); pose proof (square_le _ _ (steps_max w l L)); lra. }
  split; [exact B|]. pose proof (mean_low h w H W) as T. assert (0 < 1 / mean_weight h w) by (apply Rdiv_lt_0_compat; lra). lra.
Qed.
(** A single bright pixel has quality zero; an even, non-zero pattern has the greatest quality possible for its shape. *)
Theorem C75_single_pixel h w y0 x0 a : (y0 < h)%nat -> (x0 < w)%nat -> a <> 0 ->
  get_image_quality h w (fun y x => if (y =? y0)%nat && (x =? x0)%nat then a else 0) false = Some 0.
Proof.
  intros Y X A. assert (H : (0 < h)%nat) by lia. assert (W : (0 < w)%nat) by lia. pose proof (mean_low h w H W) as T. pose proof (positive_sizes h w H W) as P.
  transitivity (get_image_quality h w unit_array false).
  - rewrite <- (C75_contrast h w unit_array a A). rewrite <- (C75_translation h w _ y0 x0 false H W). apply quality_pixels. intros y x Hy Hx.
    unfold unit_array. assert (Ey : (((y + y0) mod h =? y0) = (y =? 0))%nat).
    { destruct (Nat.eqb_spec y 0) as [->|N]; [rewrite Nat.add_0_l, Nat.mod_small by lia; apply Nat.eqb_refl|]. apply Nat.eqb_neq. destruct (Nat.lt_ge_cases (y + y0) h); [rewrite Nat.mod_small by lia; lia|].
      replace (y + y0)%nat with ((y + y0 - h) + 1 * h)%nat by lia. rewrite Nat.mod_add, Nat.mod_small by lia. lia. }
    assert (Ex : (((x + x0) mod w =? x0) = (x =? 0))%nat).
    { destruct (Nat.eqb_spec x 0) as [->|N]; [rewrite Nat.add_0_l, Nat.mod_small by lia; apply Nat.eqb_refl|]. apply Nat.eqb_neq. destruct (Nat.lt_ge_cases (x + x0) w); [rewrite Nat.mod_small by lia; lia|].
      replace (x + x0)%nat with ((x + x0 - w) + 1 * w)%nat by lia. rewrite Nat.mod_add, Nat.mod_small by lia. lia. }
    rewrite Ey, Ex. destruct (_ && _); ring.
  - rewrite quality_plain. unfold image_quality_of.
    assert (F : forall k l, modulus (dft2 h w unit_array k l) = 1) by (intros; rewrite dft2_unit by assumption; unfold modulus, C1; cbn; replace (1 * 1 + 0 * 0) with 1 by ring; apply sqrt_1).
    rewrite (sum2_ext h w (fun k l => modulus (dft2 h w unit_array k l)) (fun _ _ => 1)) by (intros; apply F).
    rewrite (sum2_ext h w (fun k l => modulus (dft2 h w unit_array k l) * frequency_vectors h w k l) (weight h w)) by (intros; rewrite F, weights_weight by assumption; ring).
    rewrite sum2_const. destruct (Req_EM_T _ 0) as [E|_]; [lra|]. destruct (Req_EM_T _ 0) as [E|_]; [lra|]. f_equal.
    assert (M : sum2 h w (weight h w) / (INR h * INR w * 1) = mean_weight h w) by (unfold mean_weight; rewrite <- (sum2_total2 h w (weight h w)); f_equal; ring). rewrite M. field. lra.
Qed.
Lemma sums_at h w (s : array) k0 l0 c : (k0 < h)%nat -> (l0 < w)%nat -> (forall k l, (k < h)%nat -> (l < w)%nat -> s k l = if (k =? k0)%nat && (l =? l0)%nat then c else 0) -> sum2 h w s = c.
Proof.
  intros K L E. assert (O : forall n i0 (g : nat -> R), (i0 < n)%nat -> rsum n (fun i => if (i =? i0)%nat then g i else 0) = g i0).
  { intros n i0 g. induction n as [|n IH]; intros I; [lia|]. cbn [rsum]. destruct (Nat.eqb_spec n i0) as [->|N].
    - rewrite (rsum_ext i0 _ (fun _ => 0)); [rewrite rsum_const; ring|]. intros i Hi. destruct (Nat.eqb_spec i i0); [lia|reflexivity].
    - rewrite IH by lia. ring. }
  unfold sum2. rewrite (rsum_ext h _ (fun k => if (k =? k0)%nat then c else 0)); [now apply (O h k0 (fun _ => c))|].
  intros k Hk. destruct (Nat.eqb_spec k k0) as [->|N].
  - rewrite (rsum_ext w _ (fun l => if (l =? l0)%nat then c else 0)); [now apply (O w l0 (fun _ => c))|]. intros l Hl. rewrite E by assumption. now rewrite Nat.eqb_refl.
  - rewrite (rsum_ext w _ (fun _ => 0)); [rewrite rsum_const; ring|]. intros l Hl. rewrite E by assumption. destruct (Nat.eqb_spec k k0); [contradiction|reflexivity].
Qed.
(** A transform with a single frequency *)
Lemma quality_single h w p k0 l0 c : (k0 < h)%nat -> (l0 < w)%nat -> c <> 0 ->
  (forall k l, (k < h)%nat -> (l < w)%nat -> dft2 h w p k l = if (k =? k0)%nat && (l =? l0)%nat then real c else C0) ->
  get_image_quality h w p false = Some (1 - weight h w k0 l0 / mean_weight h w).
Proof.
  intros K L C E. pose proof (mean_low h w ltac:(lia) ltac:(lia)) as T. pose proof (Rabs_pos_lt c C) as A. rewrite quality_plain. unfold image_quality_of.
  assert (F : forall k l, (k < h)%nat -> (l < w)%nat -> modulus (dft2 h w p k l) = if (k =? k0)%nat && (l =? l0)%nat then Rabs c else 0).
  { intros k l Hk Hl. rewrite E by assumption. destruct (_ && _); [apply modulus_real|]. unfold modulus, C0. cbn. replace (0 * 0 + 0 * 0) with 0 by ring. apply sqrt_0. }
  rewrite (sums_at h w _ k0 l0 (Rabs c) K L F). rewrite (sums_at h w _ k0 l0 (Rabs c * weight h w k0 l0) K L).
  - destruct (Req_EM_T _ 0) as [Z|_]; [lra|]. destruct (Req_EM_T _ 0) as [Z|_]; [lra|]. f_equal. field. lra.
  - intros k l Hk Hl. rewrite F by assumption. destruct (Nat.eqb_spec k k0) as [->|N]; destruct (Nat.eqb_spec l l0) as [->|N']; cbn [andb]; try ring. now rewrite weights_weight.
Qed.
Theorem C75_even_pattern_has_greatest_quality h w c : (0 < h)%nat -> (0 < w)%nat -> c <> 0 -> get_image_quality h w (fun _ _ => c) false = Some (1 - 1 / mean_weight h w).
Proof.
  intros H W C. pose proof (positive_sizes h w H W) as P.
  assert (S0 : forall n, (0 < n)%nat -> steps n 0 = 1%nat) by (intros n N; unfold steps; destruct (Nat.leb_spec (2 * (0 + 1)) n); lia).
  rewrite (quality_single h w _ 0 0 (c * (INR h * INR w)) H W).
  - unfold weight. rewrite !S0 by assumption. do 2 f_equal. cbn [INR]. f_equal. ring.
  - apply Rmult_integral_contrapositive_currified; [exact C|lra].
  - intros k l K L. unfold dft2.
    assert (Z : forall n j, (j < n)%nat -> csum n (fun x => cis (- (2 * PI * (INR j * INR x / INR n)))) = if (j =? 0)%nat then real (INR n) else C0).
    { intros n j J. rewrite (csum_ext n _ (fun x => cis (2 * PI * (INR x * IZR (- Z.of_nat j) / INR n)))) by (intros x _; f_equal; rewrite opp_IZR, <- INR_IZR_INZ; unfold Rdiv; ring).
      rewrite roots by lia. destruct (Nat.eqb_spec j 0) as [->|N]; [cbn; reflexivity|]. destruct (Z.eqb_spec (- Z.of_nat j mod Z.of_nat n) 0) as [E|_]; [|reflexivity].
      exfalso. apply Z.mod_divide in E; [|lia]. destruct E as [d E]. assert (d <= -1 \/ d = 0 \/ 1 <= d)%Z as [?|[?|?]] by lia; nia. }
    rewrite (csum_ext h _ (fun y => Cmul (cis (- (2 * PI * (INR k * INR y / INR h)))) (Cmul (real c) (csum w (fun x => cis (- (2 * PI * (INR l * INR x / INR w)))))))).
    + rewrite <- csum_mul_r. rewrite !Z by assumption. destruct (k =? 0)%nat, (l =? 0)%nat; cbn [andb]; apply Cext; unfold Cmul, real, C0; cbn; ring.
    + intros y _. rewrite !csum_mul. apply csum_ext. intros x _. rewrite split_cis. apply Cext; unfold Cmul; cbn; ring.
Qed.

(** The "maximum possible inertia" is not: every checkerboard exceeds it, and has negative quality. *)
Definition checkerboard : array := fun y x => (-1) ^ (y + x).
Lemma cis_alternating n : cis (PI * INR n) = real ((-1) ^ n).
Proof.
  induction n as [|n IH]; [cbn [INR pow]; rewrite Rmult_0_r; apply cis_0|]. rewrite S_INR. replace (PI * (INR n + 1)) with (PI * INR n + PI) by ring. rewrite cis_add, IH.
  unfold cis. rewrite cos_PI, sin_PI. cbn [pow]. apply Cext; unfold Cmul, real; cbn; ring.
Qed.
Lemma dft2_checkerboard m n k l : (0 < m)%nat -> (0 < n)%nat -> (k < 2 * m)%nat -> (l < 2 * n)%nat ->
  dft2 (2 * m) (2 * n) checkerboard k l = if (k =? m)%nat && (l =? n)%nat then real (INR (2 * m) * INR (2 * n)) else C0.
Proof.
  intros M N K L.
  assert (Z : forall n j, (0 < n)%nat -> (j < 2 * n)%nat -> csum (2 * n) (fun x => Cmul (cis (PI * INR x)) (cis (- (2 * PI * (INR j * INR x / INR (2 * n)))))) = if (j =? n)%nat then real (INR (2 * n)) else C0).
  { clear. intros n j N J. assert (P : 0 < INR n) by (apply lt_0_INR; lia).
    rewrite (csum_ext _ _ (fun x => cis (2 * PI * (INR x * IZR (Z.of_nat n - Z.of_nat j) / INR (2 * n))))).
    - rewrite roots by lia. destruct (Nat.eqb_spec j n) as [->|NE]; [rewrite Z.sub_diag; reflexivity|]. destruct (Z.eqb_spec ((Z.of_nat n - Z.of_nat j) mod Z.of_nat (2 * n)) 0) as [E|_]; [|reflexivity].
      exfalso. apply Z.mod_divide in E; [|lia]. destruct E as [d E]. assert (d <= -1 \/ d = 0 \/ 1 <= d)%Z as [?|[?|?]] by lia; nia.
    - intros x _. rewrite <- cis_add. f_equal. rewrite minus_IZR, <- !INR_IZR_INZ, mult_INR. replace (INR 2) with 2 by reflexivity. field. lra. }
  unfold dft2. rewrite (csum_ext (2 * m) _ (fun y => Cmul (Cmul (cis (PI * INR y)) (cis (- (2 * PI * (INR k * INR y / INR (2 * m)))))) (csum (2 * n) (fun x => Cmul (cis (PI * INR x)) (cis (- (2 * PI * (INR l * INR x / INR (2 * n))))))))).
  - rewrite <- csum_mul_r, !Z by assumption. destruct (k =? m)%nat, (l =? n)%nat; cbn [andb]; apply Cext; unfold Cmul, real, C0; cbn [fst snd]; ring.
  - intros y _. rewrite csum_mul. apply csum_ext. intros x _. unfold checkerboard. rewrite pow_add. rewrite split_cis, !cis_alternating. apply Cext; unfold Cmul, real; cbn [fst snd]; ring.
Qed.
Lemma steps_middle n : (0 < n)%nat -> steps (2 * n) n = n.
Proof. intros N. unfold steps. destruct (Nat.leb_spec (2 * (n + 1)) (2 * n)); lia. Qed.
Lemma mean_below_corner m n : (0 < m)%nat -> (0 < n)%nat -> (1 < m \/ 1 < n)%nat -> mean_weight (2 * m) (2 * n) < weight (2 * m) (2 * n) m n.
Proof.
  intros M N MN. pose proof (positive_sizes (2 * m) (2 * n) ltac:(lia) ltac:(lia)) as P. set (c := weight (2 * m) (2 * n) m n).
  assert (U : forall k l, (k < 2 * m)%nat -> (l < 2 * n)%nat -> weight (2 * m) (2 * n) k l <= c).
  { intros k l K L. unfold c, weight. rewrite !steps_middle by assumption. pose proof (steps_max _ _ K) as A. pose proof (steps_max _ _ L) as B.
    assert (HALF : forall j, ((2 * j + 1) / 2 = j)%nat) by (intros j; symmetry; apply (Nat.div_unique _ _ _ 1); lia). rewrite HALF in A, B.
    apply square_le in A, B. lra. }
  assert (Z : weight (2 * m) (2 * n) 0 0 = 1) by (unfold weight; assert (S0 : forall n, (0 < n)%nat -> steps (2 * n) 0 = 1%nat) by (intros j J; unfold steps; destruct (Nat.leb_spec (2 * (0 + 1)) (2 * j)); lia); rewrite !S0 by assumption; cbn [INR]; ring).
  assert (C : 1 < c).
  { unfold c, weight. rewrite !steps_middle by assumption. assert (1 <= m)%nat as A by lia. assert (1 <= n)%nat as B by lia. destruct MN as [D|D]; pose proof (square_le _ _ A) as A'; pose proof (square_le _ _ B) as B'; pose proof (square_le _ _ D) as D'; cbn [INR] in *; lra. }
  unfold mean_weight. rewrite <- (sum2_total2 (2 * m) (2 * n) (weight (2 * m) (2 * n))). apply (Rmult_lt_reg_r (INR (2 * m) * INR (2 * n))); [exact P|]. unfold Rdiv. rewrite Rmult_assoc, Rinv_l, Rmult_1_r by lra.
  assert (D : 0 <= sum2 (2 * m) (2 * n) (fun k l => c - weight (2 * m) (2 * n) k l)) by (apply sum2_nonneg; intros k l K L; pose proof (U k l K L); lra).
  assert (E : sum2 (2 * m) (2 * n) (fun k l => c - weight (2 * m) (2 * n) k l) = c * (INR (2 * m) * INR (2 * n)) - sum2 (2 * m) (2 * n) (weight (2 * m) (2 * n))).
  { rewrite (sum2_ext _ _ _ (fun k l => c + -1 * weight (2 * m) (2 * n) k l)) by (intros; ring). rewrite (sum2_add _ _ (fun _ _ => c)), sum2_mul, sum2_const. ring. }
  destruct (Rle_lt_or_eq_dec _ _ D) as [G|G]; [rewrite E in G; lra|]. exfalso.
  assert (V : c - weight (2 * m) (2 * n) 0 0 = 0) by (apply (sum2_zero (2 * m) (2 * n) (fun k l => c - weight (2 * m) (2 * n) k l)); [intros k l K L; pose proof (U k l K L); lra|now symmetry|lia|lia]). lra.
Qed.
Theorem C75_inertia_max_is_not_a_maximum_refuted m n a b : (0 < m)%nat -> (0 < n)%nat -> (1 < m \/ 1 < n)%nat -> a <> 0 ->
  exists q, get_image_quality (2 * m) (2 * n) (fun y x => a * checkerboard y x + b) true = Some q /\ q < 0.
Proof.
  intros M N MN A. assert (H : (0 < 2 * m)%nat) by lia. assert (W : (0 < 2 * n)%nat) by lia. rewrite C75_brightness_and_contrast by assumption.
  pose proof (mean_low (2 * m) (2 * n) H W) as T. pose proof (mean_below_corner m n M N MN) as B. pose proof (positive_sizes _ _ H W) as P.
  assert (Q : get_image_quality (2 * m) (2 * n) checkerboard false = Some (1 - weight (2 * m) (2 * n) m n / mean_weight (2 * m) (2 * n))).
  { apply (quality_single _ _ _ m n (INR (2 * m) * INR (2 * n))); [lia|lia|apply Rgt_not_eq, P|]. intros k l K L. now apply dft2_checkerboard. }
  exists (1 - weight (2 * m) (2 * n) m n / mean_weight (2 * m) (2 * n)). split.
  - rewrite quality_normalized. unfold normalized. rewrite vstd_pixels, vmean_pixels.
    assert (Z : mean2 (2 * m) (2 * n) checkerboard = 0).
    { pose proof (dft2_checkerboard m n 0 0 M N ltac:(lia) ltac:(lia)) as D. rewrite dft2_parts in D. destruct (Nat.eqb_spec 0 m); [lia|]. cbn [andb] in D. apply (f_equal fst) in D. cbn [fst C0] in D.
      unfold mean2. replace (sum2 (2 * m) (2 * n) checkerboard) with 0; [unfold Rdiv; ring|]. change (fst C0) with 0 in D. rewrite <- D. unfold cosine_part. rewrite <- sum2_total2. apply sum2_ext. intros y x _ _.
      cbn [INR]. unfold Rdiv. rewrite !Rmult_0_l, Rplus_0_r, Rmult_0_r, cos_0. ring. }
    destruct (Req_EM_T (deviation (2 * m) (2 * n) checkerboard) 0) as [E|NE].
    + exfalso. apply deviation_zero in E; [|assumption|assumption]. specialize (E 0%nat 0%nat 0%nat 1%nat ltac:(lia) ltac:(lia) ltac:(lia) ltac:(lia)). unfold checkerboard in E. cbn in E. lra.
    + rewrite Z, <- Q. rewrite <- (C75_contrast (2 * m) (2 * n) checkerboard (/ deviation (2 * m) (2 * n) checkerboard)) by (now apply Rinv_neq_0_compat).
      apply quality_pixels. intros. field. exact NE.
  - assert (1 < weight (2 * m) (2 * n) m n / mean_weight (2 * m) (2 * n)); [|lra]. apply (Rmult_lt_reg_r (mean_weight (2 * m) (2 * n))); [lra|]. unfold Rdiv. rewrite Rmult_assoc, Rinv_l by lra. lra.
Qed.

(** In a map each point has the quality of its own pattern. *)
Theorem C75_map sx sy patterns normalize : image_quality_map sx sy patterns normalize = map (fun p => get_image_quality sy sx p normalize) patterns.
Proof. reflexivity. Qed.

(** A bright pixel in a corner, and a checkerboard with values 0 and 200 *)
Example C75_example : get_image_quality 3 5 (fun y x => if (y =? 2)%nat && (x =? 4)%nat then 255 else 0) false = Some 0.
Proof. apply C75_single_pixel; [lia|lia|lra]. Qed.
Example C75_checkerboard_example : exists q, get_image_quality 60 60 (fun y x => 100 * checkerboard y x + 100) true = Some q /\ q < 0.
Proof. apply (C75_inertia_max_is_not_a_maximum_refuted 30 30 100 100); try lia. lra. Qed.
Print Assumptions C75_inertia_max_is_not_a_maximum_refuted.
Print Assumptions C75_mirror.
