(** C82: the dynamic background of patterns. *)
From Coq Require Import List Reals Arith ZArith Bool Lia Lra.
From Verif Require Import Model.Pattern Model.Intensity Model.FftBarnes Model.Binary Model.DynamicBackground.
From Verif Require Import Spec.DataTypes Proofs.PatternProofs Proofs.IntensityProofs Proofs.DataTypesProofs Props.FftBarnes Props.Intensity.
From Verif Require Import Proofs.DynamicBackgroundProofs Spec.FilterSpec Spec.Intensity Spec.BackgroundSpec.
From Verif Require Model.Detector.
Import ListNotations.
Local Open Scope R_scope.

Section C.
Variable fast : nat -> nat.
Hypothesis F : forall m, (m <= fast m)%nat.

(** The background obtained in the frequency domain is the Gaussian mean of int(truncate * std) x int(truncate * std)
    pixels. *)
Theorem C82_frequency_background : forall t ny nx truncate std image n,
  0 < std -> (0 < n)%nat -> INR n <= truncate * std < INR n + 1 ->
  exists a, background fast Frequency t ny nx truncate std image = Some a /\
  forall y x, (y < ny)%nat -> (x < nx)%nat -> a y x = cast t (blurred ny nx n std image y x).
Proof.
  intros t ny nx truncate std image n S N H. unfold background, background_of_block, frequency_filter.
  rewrite (proj2 (window_size_spec truncate std n) (conj N H)). cbn [bind]. eexists. split; [reflexivity|].
  intros y x Y X. cbv beta. f_equal. rewrite C44_frequency_filter_is_the_weighted_sum; auto.
  unfold weighted, blurred.
  rewrite (total_ext n _ (fun u => / total n (fun u => total n (fun v => weight std (INR u - (INR n - 1) / 2) (INR v - (INR n - 1) / 2))) *
     total n (fun v => weight std (INR u - (INR n - 1) / 2) (INR v - (INR n - 1) / 2) * extended ny nx image (Z.of_nat y + Z.of_nat u - Z.of_nat (n / 2)) (Z.of_nat x + Z.of_nat v - Z.of_nat (n / 2))))).
  - rewrite total_mul. unfold Rdiv. ring.
  - intros u U. rewrite <- total_mul. apply total_ext. intros v V. rewrite normalized; [unfold Rdiv; ring|exact N|apply Rgt_not_eq; exact S].
Qed.
(** There is none if this number is zero. *)
Theorem C82_no_window : forall t ny nx truncate std image, truncate * std < 1 -> background fast Frequency t ny nx truncate std image = None.
Proof.
  intros t ny nx truncate std image H. unfold background, background_of_block, frequency_filter.
  destruct (window_size truncate std) as [n|] eqn:E; [|reflexivity]. apply window_size_spec in E. destruct E as [N E].
  assert (1 <= INR n) by (change 1 with (INR 1); apply le_INR; lia). lra.
Qed.

(** As means over the two axes, in either domain. *)
Lemma cases : forall d t ny nx truncate std image a, 0 < std -> background fast d t ny nx truncate std image = Some a ->
  (exists n, d = Frequency /\ (0 < n)%nat /\ INR n <= truncate * std < INR n + 1 /\
     forall y x, (y < ny)%nat -> (x < nx)%nat -> a y x = cast t (blurred ny nx n std image y x)) \/
  (d = Spatial /\ a = spatial_filter (cast t) ny nx truncate std image).
Proof.
  intros d t ny nx truncate std image a S H. destruct d.
  - left. unfold background, background_of_block, frequency_filter in H. destruct (window_size truncate std) as [n|] eqn:E; [|discriminate].
    apply window_size_spec in E. destruct E as [N E]. destruct (C82_frequency_background t ny nx truncate std image n S N E) as (b & Hb & Hv).
    exists n. repeat split; try apply E; try assumption. intros y x Y X. rewrite <- Hv by assumption.
    unfold background, background_of_block, frequency_filter in Hb. rewrite (proj2 (window_size_spec truncate std n) (conj N E)) in Hb. congruence.
  - right. split; [reflexivity|]. injection H as <-. reflexivity.
Qed.

(** Backgrounds are within the intensities of their patterns, so storing them in the data type of the patterns is safe. *)
Theorem C82_background_within_pattern : forall d t ny nx truncate std image a lo hi,
  0 < std -> background fast d t ny nx truncate std image = Some a ->
  representable t lo -> representable t hi -> pixels_between ny nx lo hi image -> pixels_between ny nx lo hi a.
Proof.
  intros d t ny nx truncate std image a lo hi S H RL RH P y x Y X.
  destruct (cases _ _ _ _ _ _ _ _ S H) as [(n & _ & N & _ & E)|[_ ->]].
  - rewrite E by assumption. apply cast_between; try assumption. rewrite blurred_means by (lra || lia).
    apply mean1_between; [exact N|intro; apply gauss_positive|]. intros u U.
    apply mean1_between; [exact N|intro; apply gauss_positive|]. intros v V. apply P; apply nearest_lt; lia.
  - rewrite spatial_means by lra. apply cast_between; try assumption.
    apply mean1_between; [lia|intro; apply sweight_positive|]. intros v V. apply cast_between; try assumption.
    apply mean1_between; [lia|intro; apply sweight_positive|]. intros u U. apply P; apply reflect_lt; lia.
Qed.
Corollary C82_background_fits_data_type : forall d t ny nx truncate std image a,
  0 < std -> background fast d t ny nx truncate std image = Some a ->
  pixels_between ny nx (lowest t) (highest t) image -> pixels_between ny nx (lowest t) (highest t) a.
Proof.
  intros d t ny nx truncate std image a S H P. rewrite lowest_eq, highest_eq in *.
  apply (C82_background_within_pattern d t ny nx truncate std image); try assumption; apply representable_IZR.
Qed.

(** Contrast and brightness of a pattern are those of its background. *)
Theorem C82_contrast_and_brightness : forall d ny nx truncate std image a a' k b y x,
  0 < std -> background fast d Float32 ny nx truncate std image = Some a ->
  background fast d Float32 ny nx truncate std (fun y x => k * image y x + b) = Some a' ->
  (y < ny)%nat -> (x < nx)%nat -> a' y x = k * a y x + b.
Proof.
  intros d ny nx truncate std image a a' k b y x S H H' Y X.
  destruct (cases _ _ _ _ _ _ _ _ S H) as [(n & -> & N & B & E)|[-> ->]].
  - destruct (cases _ _ _ _ _ _ _ _ S H') as [(n' & _ & N' & B' & E')|[Q _]]; [|discriminate].
    assert (n' = n) as ->.
    { apply Nat.le_antisymm; apply Nat.lt_succ_r; apply INR_lt; rewrite S_INR; lra. }
    rewrite E, E' by assumption. unfold cast. cbn [is_float]. rewrite !blurred_means by (lra || lia).
    rewrite <- mean1_affine by (try exact N; intro; apply gauss_positive). apply mean1_ext. intros u U.
    rewrite <- mean1_affine by (try exact N; intro; apply gauss_positive). reflexivity.
  - destruct (cases _ _ _ _ _ _ _ _ S H') as [(n' & Q & _)|[_ ->]]; [discriminate|].
    rewrite !spatial_means by lra. unfold cast. cbn [is_float].
    rewrite <- mean1_affine by (try lia; intro; apply sweight_positive). apply mean1_ext. intros u U.
    rewrite <- mean1_affine by (try lia; intro; apply sweight_positive). reflexivity.
Qed.
(** The background of a constant pattern is the pattern. *)
Theorem C82_constant_pattern : forall d ny nx truncate std c a y x,
  0 < std -> background fast d Float32 ny nx truncate std (fun _ _ => c) = Some a -> (y < ny)%nat -> (x < nx)%nat -> a y x = c.
Proof.
  intros d ny nx truncate std c a y x S H Y X.
  assert (P : pixels_between ny nx c c a); [|destruct (P y x Y X); lra].
  apply (C82_background_within_pattern d Float32 ny nx truncate std (fun _ _ => c)); try assumption; try discriminate.
  intros ? ? _ _. lra.
Qed.

(** Only pixels of the pattern count. *)
Lemma background_ext : forall d t ny nx truncate std image image' a, 0 < std ->
  (forall y x, (y < ny)%nat -> (x < nx)%nat -> image y x = image' y x) ->
  background fast d t ny nx truncate std image = Some a ->
  exists a', background fast d t ny nx truncate std image' = Some a' /\ forall y x, (y < ny)%nat -> (x < nx)%nat -> a y x = a' y x.
Proof.
  intros d t ny nx truncate std image image' a S Q H. destruct (cases _ _ _ _ _ _ _ _ S H) as [(n & -> & N & B & E)|[-> ->]].
  - destruct (C82_frequency_background t ny nx truncate std image' n S N B) as (a' & H' & E'). exists a'. split; [exact H'|].
    intros y x Y X. rewrite E, E' by assumption. f_equal. rewrite !blurred_means by (lra || lia).
    apply mean1_ext. intros u U. apply mean1_ext. intros v V. apply Q; apply nearest_lt; lia.
  - eexists. split; [reflexivity|]. intros y x Y X. rewrite !spatial_means by lra. f_equal.
    apply mean1_ext. intros u U. f_equal. apply mean1_ext. intros v V. apply Q; apply reflect_lt; lia.
Qed.
Lemma background_some : forall d t t' ny nx truncate std image image' a,
  background fast d t ny nx truncate std image = Some a -> exists a', background fast d t' ny nx truncate std image' = Some a'.
Proof.
  intros d t t' ny nx truncate std image image' a H. destruct d; [|eexists; reflexivity].
  unfold background, background_of_block, frequency_filter in *. destruct (window_size truncate std); [eexists; reflexivity|discriminate].
Qed.

(** Removal does not depend on the contrast of patterns, and subtraction not on their brightness either. *)
Lemma ravel_map : forall ny nx f (a a' : array), (forall y x, (y < ny)%nat -> (x < nx)%nat -> a' y x = f (a y x)) -> ravel ny nx a' = map f (ravel ny nx a).
Proof.
  intros ny nx f a a' H. unfold ravel. assert (G : forall l, (forall y, In y l -> (y < ny)%nat) ->
    flat_map (fun y => map (a' y) (seq 0 nx)) l = map f (flat_map (fun y => map (a y) (seq 0 nx)) l)).
  { induction l as [|y l IH]; intros L; [reflexivity|]. cbn [flat_map]. rewrite map_app, <- IH by (intros; apply L; right; assumption). f_equal.
    rewrite map_map. apply map_ext_in. intros x X. apply in_seq in X. apply H; [apply L; left; reflexivity|lia]. }
  apply G. intros y Y. apply in_seq in Y. lia.
Qed.
Lemma rescale_scaled : forall k omin omax p, 0 < k -> p <> [] ->
  rescale_with_min_max (vmin (map (fun v => k * v) p)) (vmax (map (fun v => k * v) p)) omin omax (map (fun v => k * v) p) =
  rescale_with_min_max (vmin p) (vmax p) omin omax p.
Proof.
  intros k omin omax p K P. assert (M : forall x y, x <= y -> k * x <= k * y) by (intros; apply Rmult_le_compat_l; lra).
  rewrite vmin_map, vmax_map by assumption. unfold rescale_with_min_max. rewrite map_map. apply map_ext. intro x. f_equal. f_equal. unfold Rdiv.
  replace (k * vmax p - k * vmin p) with (k * (vmax p - vmin p)) by ring. rewrite Rinv_mult.
  replace ((k * x - k * vmin p) * (/ k * / (vmax p - vmin p))) with (k * / k * ((x - vmin p) * / (vmax p - vmin p))) by ring.
  rewrite Rinv_r by lra. ring.
Qed.
Theorem C82_removal_ignores_contrast_and_brightness : forall op d t ny nx std truncate data k b,
  match std with Some s => 0 < s | None => True end -> (0 < ny)%nat -> (0 < nx)%nat -> (forall p, In p data -> length p = (ny * nx)%nat) ->
  0 < k -> (op = Divide -> b = 0) ->
  ebsd_remove_dynamic_background fast op d t ny nx std truncate (map (map (fun v => k * v + b)) data) =
  ebsd_remove_dynamic_background fast op d t ny nx std truncate data.
Proof.
  intros op d t ny nx std truncate data k b S Ny Nx L K B. unfold ebsd_remove_dynamic_background. cbn [signal_shape hd].
  set (s := match std with Some s => s | None => INR nx / 8 end).
  assert (S' : 0 < s) by (unfold s; destruct std; [exact S|pose proof (lt_0_INR nx Nx); lra]). clearbody s.
  destruct (background fast d Float32 ny nx truncate s (fun _ _ => 0)) as [z|] eqn:Ez; [|reflexivity]. f_equal.
  unfold remove_dynamic_background_signal. rewrite map_map. apply map_ext_in. intros p Hp. specialize (L p Hp).
  unfold remove_dynamic_background_1, remove_background. cbn [fst]. f_equal.
  destruct (background_some _ _ Float32 _ _ _ _ _ (unravel nx p) _ Ez) as [a Ea].
  destruct (background_some _ _ Float32 _ _ _ _ _ (fun y x => k * unravel nx p y x + b) _ Ez) as [a1 Ea1].
  destruct (background_ext d Float32 ny nx truncate s (fun y x => k * unravel nx p y x + b) (unravel nx (map (fun v => k * v + b) p)) a1 S') with (2 := Ea1) as (a' & Ea' & V).
  { intros y x Y X. unfold unravel. rewrite (nth_indep (map _ p) 0 (k * 0 + b)) by (rewrite map_length, L; nia).
    rewrite (map_nth (fun v => k * v + b)). reflexivity. }
  rewrite Ea, Ea'.
  assert (Rv : ravel ny nx a' = map (fun v => k * v + b) (ravel ny nx a)).
  { apply ravel_map. intros y x Y X. rewrite <- V by assumption. apply (C82_contrast_and_brightness d ny nx truncate s (unravel nx p)); assumption. }
  rewrite Rv.
  assert (Lr : length (ravel ny nx a) = (ny * nx)%nat).
  { unfold ravel. assert (G : forall l, length (flat_map (fun y => map (a y) (seq 0 nx)) l) = (length l * nx)%nat).
    { induction l as [|y l IH]; cbn; [reflexivity|]. rewrite app_length, map_length, seq_length, IH. reflexivity. }
    rewrite G, seq_length. reflexivity. }
  set (q := ravel ny nx a) in *. clearbody q.
  assert (Cm : forall p q, combine (map (fun v => k * v + b) p) (map (fun v => k * v + b) q) = map (fun xb => (k * fst xb + b, k * snd xb + b)) (combine p q)).
  { clear. induction p as [|x p IH]; intros [|y q]; cbn; try reflexivity. rewrite IH. reflexivity. }
  assert (NE : combine_pixels op p q <> []).
  { intro E. apply (f_equal (@length R)) in E. unfold combine_pixels in E. rewrite map_length, combine_length, L, Lr in E. cbn in E. nia. }
  destruct op.
  - assert (E : combine_pixels Subtract (map (fun v => k * v + b) p) (map (fun v => k * v + b) q) = map (fun v => k * v) (combine_pixels Subtract p q)).
    { unfold combine_pixels. rewrite Cm, !map_map. apply map_ext. intros [x y]. cbn. ring. }
    rewrite E. apply rescale_scaled; assumption.
  - assert (E : combine_pixels Divide (map (fun v => k * v + b) p) (map (fun v => k * v + b) q) = combine_pixels Divide p q).
    { unfold combine_pixels. rewrite Cm, !map_map. apply map_ext. intros [x y]. cbn. rewrite (B eq_refl), !Rplus_0_r. unfold Rdiv. rewrite Rinv_mult.
      replace (k * x * (/ k * / y)) with (k * / k * (x * / y)) by ring. rewrite Rinv_r by lra. ring. }
    rewrite E. reflexivity.
Qed.

(** Mirrored patterns have mirrored backgrounds in the spatial domain, and in the frequency domain if the window has an
    odd number of pixels... *)
Theorem C82_mirrored_columns : forall d t ny nx truncate std image a a' y x,
  0 < std -> (d = Frequency -> Nat.odd (Z.to_nat (Detector.trunc (truncate * std))) = true) ->
  background fast d t ny nx truncate std image = Some a -> background fast d t ny nx truncate std (flipped_columns nx image) = Some a' ->
  (y < ny)%nat -> (x < nx)%nat -> a' y x = flipped_columns nx a y x.
Proof.
  intros d t ny nx truncate std image a a' y x S O H H' Y X. unfold flipped_columns at 1.
  destruct (cases _ _ _ _ _ _ _ _ S H) as [(n & -> & N & B & E)|[-> ->]].
  - destruct (C82_frequency_background t ny nx truncate std (flipped_columns nx image) n S N B) as (a2 & H2 & E2).
    rewrite H2 in H'. injection H' as <-. rewrite E2, E by lia. f_equal.
    pose proof (proj2 (window_size_spec truncate std n) (conj N B)) as W. unfold window_size in W.
    destruct (Z.ltb_spec (Detector.trunc (truncate * std)) 1); [discriminate|]. injection W as W. specialize (O eq_refl). rewrite W in O.
    apply Nat.odd_spec in O. destruct O as [m M]. assert (D : (n / 2 = m)%nat) by (symmetry; apply (Nat.div_unique n 2 m 1); lia).
    rewrite !blurred_means by (lra || lia). apply mean1_ext. intros u U.
    rewrite <- (mean1_reverse n (gauss n std)) by (intros; apply gauss_symmetric; assumption).
    apply mean1_ext. intros v V. unfold extended, flipped_columns. f_equal. rewrite <- nearest_flip by lia. f_equal. lia.
  - injection H' as <-. rewrite !spatial_means by lra. f_equal.
    rewrite <- (mean1_reverse _ (sweight (radius truncate std) std)) by (intros; apply sweight_symmetric; assumption).
    apply mean1_ext. intros v V. f_equal. apply mean1_ext. intros u U. unfold flipped_columns. f_equal.
    rewrite <- reflect_flip by lia. f_equal. lia.
Qed.
Theorem C82_mirrored_rows : forall d t ny nx truncate std image a a' y x,
  0 < std -> (d = Frequency -> Nat.odd (Z.to_nat (Detector.trunc (truncate * std))) = true) ->
  background fast d t ny nx truncate std image = Some a -> background fast d t ny nx truncate std (flipped_rows ny image) = Some a' ->
  (y < ny)%nat -> (x < nx)%nat -> a' y x = flipped_rows ny a y x.
Proof.
  intros d t ny nx truncate std image a a' y x S O H H' Y X. unfold flipped_rows at 1.
  destruct (cases _ _ _ _ _ _ _ _ S H) as [(n & -> & N & B & E)|[-> ->]].
  - destruct (C82_frequency_background t ny nx truncate std (flipped_rows ny image) n S N B) as (a2 & H2 & E2).
    rewrite H2 in H'. injection H' as <-. rewrite E2, E by lia. f_equal.
    pose proof (proj2 (window_size_spec truncate std n) (conj N B)) as W. unfold window_size in W.
    destruct (Z.ltb_spec (Detector.trunc (truncate * std)) 1); [discriminate|]. injection W as W. specialize (O eq_refl). rewrite W in O.
    apply Nat.odd_spec in O. destruct O as [m M]. assert (D : (n / 2 = m)%nat) by (symmetry; apply (Nat.div_unique n 2 m 1); lia).
    rewrite !blurred_means by (lra || lia).
    rewrite <- (mean1_reverse n (gauss n std)) by (intros; apply gauss_symmetric; assumption).
    apply mean1_ext. intros u U. apply mean1_ext. intros v V. unfold extended, flipped_rows. f_equal. rewrite <- nearest_flip by lia. f_equal. lia.
  - injection H' as <-. rewrite !spatial_means by lra. f_equal.
    apply mean1_ext. intros v V. f_equal.
    rewrite <- (mean1_reverse _ (sweight (radius truncate std) std)) by (intros; apply sweight_symmetric; assumption).
    apply mean1_ext. intros u U. unfold flipped_rows. f_equal.
    rewrite <- reflect_flip by lia. f_equal. lia.
Qed.
(** ... but with an even number the background is half a pixel off: where the window is inside of a pattern whose
    intensity increases by one per column, its background is not the pattern. *)
Theorem C82_background_half_a_pixel_off_refuted : forall ny nx truncate std n a y x,
  0 < std -> (0 < n)%nat -> INR n <= truncate * std < INR n + 1 ->
  background fast Frequency Float32 ny nx truncate std (fun _ x => INR x) = Some a ->
  (y < ny)%nat -> (n / 2 <= x)%nat -> (x + n <= nx + n / 2)%nat ->
  a y x = if Nat.even n then INR x - 1 / 2 else INR x.
Proof.
  intros ny nx truncate std n a y x S N B H Y X1 X2.
  destruct (C82_frequency_background Float32 ny nx truncate std (fun _ x => INR x) n S N B) as (a2 & H2 & E2).
  rewrite H2 in H. injection H as <-. assert (X : (x < nx)%nat) by (pose proof (Nat.div_lt n 2 N ltac:(lia)); lia).
  rewrite E2 by assumption. unfold cast. cbn [is_float]. rewrite blurred_means by (lra || lia).
  assert (M : forall u, (u < n)%nat -> mean1 n (gauss n std) (fun v => extended ny nx (fun _ x => INR x) (Z.of_nat y + Z.of_nat u - Z.of_nat (n / 2)) (Z.of_nat x + Z.of_nat v - Z.of_nat (n / 2))) = INR x - INR (n / 2) + (INR n - 1) / 2).
  { intros u U. rewrite (mean1_ext n (gauss n std) _ (fun v => 1 * INR v + (INR x - INR (n / 2)))).
    - rewrite mean1_affine by (try exact N; intro; apply gauss_positive).
      pose proof (mean1_reverse n (gauss n std) (fun v => INR v) ltac:(intros; apply gauss_symmetric; assumption)) as R.
      rewrite (mean1_ext n (gauss n std) _ (fun v => -1 * INR v + (INR n - 1))) in R.
      + rewrite (mean1_affine n _ N (gauss_positive n std) (-1) (INR n - 1) (fun v => INR v)) in R.
        cbv beta in *. change (fun v : nat => INR v) with INR in *. lra.
      + intros i I. replace (n - 1 - i)%nat with (n - (1 + i))%nat by lia. rewrite minus_INR, plus_INR by lia. cbn [INR]. ring.
    - intros v V. unfold extended, nearest. rewrite Z.min_l, Z.max_r by lia.
      replace (Z.of_nat x + Z.of_nat v - Z.of_nat (n / 2))%Z with (Z.of_nat (x + v - n / 2)) by lia.
      rewrite Nat2Z.id, minus_INR, plus_INR by lia. ring. }
  rewrite (mean1_ext n (gauss n std) _ (fun _ => INR x - INR (n / 2) + (INR n - 1) / 2)) by exact M.
  rewrite mean1_const by (try exact N; intro; apply gauss_positive).
  destruct (Nat.even n) eqn:Ev.
  - apply Nat.even_spec in Ev. destruct Ev as [m ->]. replace (2 * m / 2)%nat with m by (apply (Nat.div_unique _ 2 m 0); lia).
    rewrite mult_INR. cbn [INR]. field.
  - assert (O : Nat.odd n = true) by (unfold Nat.odd; rewrite Ev; reflexivity). apply Nat.odd_spec in O. destruct O as [m ->].
    replace ((2 * m + 1) / 2)%nat with m by (apply (Nat.div_unique _ 2 m 1); lia). rewrite plus_INR, mult_INR. cbn [INR]. field.
Qed.

(** The Gaussian should be cut off at truncate * std from its centre, but in the frequency domain no pixel further away
    than half of this counts... *)
Theorem C82_cut_off_at_half_the_distance_refuted : forall t ny nx truncate std image image' a a' y x,
  0 < std -> background fast Frequency t ny nx truncate std image = Some a -> background fast Frequency t ny nx truncate std image' = Some a' ->
  (y < ny)%nat -> (x < nx)%nat ->
  (forall y' x', (y' < ny)%nat -> (x' < nx)%nat -> Rabs (INR y' - INR y) <= truncate * std / 2 -> Rabs (INR x' - INR x) <= truncate * std / 2 -> image y' x' = image' y' x') ->
  a y x = a' y x.
Proof.
  intros t ny nx truncate std image image' a a' y x S H H' Y X Q.
  destruct (cases _ _ _ _ _ _ _ _ S H) as [(n & _ & N & B & E)|[Q' _]]; [|discriminate].
  destruct (C82_frequency_background t ny nx truncate std image' n S N B) as (a2 & H2 & E2). rewrite H2 in H'. injection H' as <-.
  rewrite E, E2 by assumption. f_equal. rewrite !blurred_means by (lra || lia).
  assert (D : forall p q, (p <= q + n / 2)%nat -> (q <= p + n / 2)%nat -> Rabs (INR p - INR q) <= truncate * std / 2).
  { intros p q L1 L2. assert (Hn : INR (n / 2) <= INR n / 2).
    { pose proof (Nat.mul_div_le n 2 ltac:(lia)) as L. apply le_INR in L. rewrite mult_INR in L. cbn [INR] in L. lra. }
    apply le_INR in L1, L2. rewrite plus_INR in L1, L2. apply Rabs_le. lra. }
  assert (K : forall m p u, (p < m)%nat -> (u < n)%nat -> (nearest m (Z.of_nat p + Z.of_nat u - Z.of_nat (n / 2)) <= p + n / 2)%nat /\ (p <= nearest m (Z.of_nat p + Z.of_nat u - Z.of_nat (n / 2)) + n / 2)%nat).
  { intros m p u P U. pose proof (Nat.div_mod n 2 ltac:(lia)). pose proof (Nat.mod_upper_bound n 2 ltac:(lia)). unfold nearest. lia. }
  apply mean1_ext. intros u U. apply mean1_ext. intros v V. apply Q; try (apply nearest_lt; lia); apply D; apply K; assumption.
Qed.
(** ... as it does in the spatial domain. *)
Theorem C82_reach_in_the_spatial_domain : forall ny nx truncate std image image' y x d,
  0 < std -> (y < ny)%nat -> (x + d < nx)%nat -> INR d <= truncate * std ->
  (forall y' x', image y' x' <= image' y' x') -> image y (x + d)%nat < image' y (x + d)%nat ->
  exists a a', background fast Spatial Float32 ny nx truncate std image = Some a /\ background fast Spatial Float32 ny nx truncate std image' = Some a' /\
  a y x < a' y x.
Proof.
  intros ny nx truncate std image image' y x d S Y X D L LT. eexists _, _. repeat split; try reflexivity.
  rewrite !spatial_means by lra. unfold cast. cbn [is_float]. set (r := radius truncate std).
  assert (Dr : (d <= r)%nat).
  { unfold r, radius. pose proof (pos_INR d). pose proof (trunc_nonneg (truncate * std + 1 / 2) ltac:(lra)) as [B Z].
    apply Nat2Z.inj_le. rewrite Z2Nat.id by exact Z. apply IZR_lt_plus1. rewrite <- INR_IZR_INZ. lra. }
  apply (mean1_lt (2 * r + 1) (sweight r std) ltac:(lia) (sweight_positive r std) _ _ (r + d)%nat).
  - intros v V. apply mean1_le; [lia|intro; apply sweight_positive|]. intros. apply L.
  - lia.
  - apply (mean1_lt (2 * r + 1) (sweight r std) ltac:(lia) (sweight_positive r std) _ _ r).
    + intros. apply L.
    + lia.
    + replace (Z.of_nat y + Z.of_nat r - Z.of_nat r)%Z with (Z.of_nat y) by lia.
      replace (Z.of_nat x + Z.of_nat (r + d) - Z.of_nat r)%Z with (Z.of_nat (x + d)) by lia. rewrite !reflect_inside by lia. exact LT.
Qed.

(** What get_dynamic_background() returns as 32-bit floats is what remove_dynamic_background() with the same standard
    deviation removes. *)
Theorem C82_got_background_is_removed : forall op d t ny nx std truncate data out i p c lo hi,
  0 < std -> ebsd_remove_dynamic_background fast op d t ny nx (Some std) truncate data = Some out ->
  nth_error data i = Some p -> length p = (ny * nx)%nat ->
  exists a, ebsd_get_dynamic_background fast d Float32 ny nx (Some std) truncate (unravel nx p) = Some a /\
  (corrected op p (ravel ny nx a) c -> is_min c lo -> is_max c hi -> lo < hi ->
   exists q, nth_error out i = Some q /\ spans (lowest t) (highest t) q /\
   pixelwise (fun x => cast t (line_through lo (lowest t) hi (highest t) x)) c q).
Proof.
  intros op d t ny nx std truncate data out i p c lo hi S H Hi Lp. unfold ebsd_remove_dynamic_background in H.
  destruct (background fast d Float32 ny nx truncate std (fun _ _ => 0)) as [z|] eqn:Ez; [|discriminate]. injection H as <-.
  destruct (background_some _ _ Float32 _ _ _ _ _ (unravel nx p) _ Ez) as [a Ea]. exists a. split; [exact Ea|].
  intros Hc Hlo Hhi Hl. apply (C24_dynamic_background_spans_dtype_range op t _ data i p c lo hi Hi); try assumption; rewrite Ea; [|exact Hc].
  unfold ravel. rewrite Lp. assert (G : forall l, length (flat_map (fun y => map (a y) (seq 0 nx)) l) = (length l * nx)%nat).
  { induction l as [|y l IH]; cbn; [reflexivity|]. rewrite app_length, map_length, seq_length, IH. reflexivity. }
  rewrite G, seq_length. reflexivity.
Qed.
(** But without a given one, only remove_dynamic_background() uses an eighth of the width as documented: here the
    background differs from the documented one three pixels away from a single bright pixel in a pattern with 8 rows and
    16 columns. *)
Theorem C82_default_standard_deviation_refuted :
  let image := fun y x => if ((y =? 4) && (x =? 8))%nat then 1 else 0 in
  exists a b, ebsd_get_dynamic_background fast Frequency Float32 8 16 None 4 image = Some a /\
  get_dynamic_background fast Frequency Float32 8 16 None 4 image = Some b /\ a 4%nat 11%nat = 0 /\ 0 < b 4%nat 11%nat.
Proof.
  intro image.
  destruct (C82_frequency_background Float32 8 16 4 (INR 8 / 8) image 4) as (a & Ea & Va); [cbn; lra|lia|cbn; lra|].
  destruct (C82_frequency_background Float32 8 16 4 (INR 16 / 8) image 8) as (b & Eb & Vb); [cbn; lra|lia|cbn; lra|].
  exists a, b. split; [exact Ea|]. split; [exact Eb|]. split.
  - rewrite Va by lia. unfold cast. cbn [is_float]. rewrite blurred_means by (try lia; cbn; lra).
    rewrite (mean1_ext 4 (gauss 4 (INR 8 / 8)) _ (fun _ => 0)); [apply mean1_const; [lia|intro; apply gauss_positive]|].
    intros u U. rewrite (mean1_ext 4 (gauss 4 (INR 8 / 8)) _ (fun _ => 0)); [apply mean1_const; [lia|intro; apply gauss_positive]|].
    intros v V. unfold extended, image. destruct (Nat.eqb_spec (nearest 16 (Z.of_nat 11 + Z.of_nat v - Z.of_nat (4 / 2))) 8) as [E|E].
    + exfalso. revert E. unfold nearest. change (4 / 2)%nat with 2%nat. lia.
    + rewrite andb_false_r. reflexivity.
  - rewrite Vb by lia. unfold cast. cbn [is_float]. rewrite blurred_means by (try lia; cbn; lra).
    rewrite <- (mean1_const 8 (gauss 8 (INR 16 / 8)) ltac:(lia) ltac:(intro; apply gauss_positive) 0).
    assert (I0 : forall y x, 0 <= image y x) by (intros; unfold image; destruct (_ && _)%bool; lra).
    assert (I1 : forall y x, image y x <= 1) by (intros; unfold image; destruct (_ && _)%bool; lra).
    apply (mean1_lt 8 (gauss 8 (INR 16 / 8)) ltac:(lia) ltac:(intro; apply gauss_positive) _ _ 4%nat); [|lia|].
    + intros u U. apply (mean1_between 8 (gauss 8 (INR 16 / 8)) ltac:(lia) ltac:(intro; apply gauss_positive) 0 1). intros v V. split; [apply I0|apply I1].
    + rewrite <- (mean1_const 8 (gauss 8 (INR 16 / 8)) ltac:(lia) ltac:(intro; apply gauss_positive) 0) at 1.
      apply (mean1_lt 8 (gauss 8 (INR 16 / 8)) ltac:(lia) ltac:(intro; apply gauss_positive) _ _ 1%nat); [intros; apply I0|lia|].
      match goal with |- 0 < ?t => change t with (image 4%nat 8%nat) end. unfold image. cbn. lra.
Qed.

(** Whole intensities converted to an integer type are the one number of the type's range which differs from them by a
    multiple of the number of values of the type; those of the range stay as they are. *)
Theorem C82_conversion_wraps t z bits lo : In (t, bits, lo) [(UInt8, 8, 0); (UInt16, 16, 0); (UInt32, 32, 0); (Int8, 8, -128); (Int16, 16, -32768); (Int32, 32, -2147483648)]%Z ->
  exists v k, astype t (IZR z) = IZR v /\ (lo <= v < lo + 2 ^ bits)%Z /\ (z = v + k * 2 ^ bits)%Z /\ ((lo <= z < lo + 2 ^ bits)%Z -> v = z).
Proof.
  intros I.
  assert (E : is_float t = false /\ fst (dtype_range t) = lo /\ (snd (dtype_range t) - fst (dtype_range t) + 1 = 2 ^ bits)%Z /\ (0 < 2 ^ bits)%Z).
  { cbn [In] in I. decompose [or] I; try contradiction; match goal with H : _ = _ |- _ => injection H as <- <- <- end; repeat split. }
  destruct E as (NF & L & W & P). unfold astype. rewrite NF. destruct (dtype_range t) as [l h]. cbn [fst snd] in L, W. subst l. rewrite trunc_IZR, W.
  pose proof (Z.mod_pos_bound (z - lo) (2 ^ bits) P) as B. pose proof (Z.div_mod (z - lo) (2 ^ bits)) as D.
  exists (lo + (z - lo) mod 2 ^ bits)%Z, ((z - lo) / 2 ^ bits)%Z. split; [reflexivity|]. split; [lia|]. split; [lia|].
  intros Z. rewrite Z.mod_small; lia.
Qed.

(** Patterns are converted to the data type of the background before they are blurred: intensities which do not fit wrap
    around although the background does fit. *)
Theorem C82_converted_too_early_refuted :
  let image := fun y x => match x with 1%nat => 300 | _ => 0 end in
  exists a b, ebsd_get_dynamic_background fast Frequency UInt8 1 2 (Some (1 / 2)) 4 image = Some a /\
  background fast Frequency UInt8 1 2 4 (1 / 2) image = Some b /\ b 0%nat 1%nat = 150 /\ a 0%nat 1%nat = 22.
Proof.
  intro image.
  destruct (C82_frequency_background UInt8 1 2 4 (1 / 2) image 2) as (b & Eb & Vb); [lra|lia|cbn; lra|].
  destruct (C82_frequency_background UInt8 1 2 4 (1 / 2) (fun y x => astype UInt8 (image y x)) 2) as (a & Ea & Va); [lra|lia|cbn; lra|].
  exists a, b. split; [exact Ea|]. split; [exact Eb|]. rewrite Va, Vb by lia.
  assert (G : forall v0 v1, mean1 2 (gauss 2 (1 / 2)) (fun i => match i with O => v0 | _ => v1 end) = (v0 + v1) / 2).
  { intros v0 v1. unfold mean1. cbn [total]. rewrite <- (gauss_symmetric 2 (1 / 2) 0) by lia. change (2 - 1 - 0)%nat with 1%nat.
    pose proof (gauss_positive 2 (1 / 2) 1). field. lra. }
  assert (K : forall im, (forall y, im y 0%nat = im 0%nat 0%nat) -> (forall y, im y 1%nat = im 0%nat 1%nat) -> blurred 1 2 2 (1 / 2) im 0 1 = (im 0%nat 0%nat + im 0%nat 1%nat) / 2).
  { intros im K0 K1. rewrite blurred_means by (lra || lia).
    rewrite (mean1_ext 2 (gauss 2 (1 / 2)) _ (fun _ => (im 0%nat 0%nat + im 0%nat 1%nat) / 2)); [apply mean1_const; [lia|intro; apply gauss_positive]|].
    intros u U. rewrite <- G. apply mean1_ext. intros v V. destruct v as [|[|v]]; [| |lia]; unfold extended.
    - change (nearest 2 (Z.of_nat 1 + Z.of_nat 0 - Z.of_nat (2 / 2))) with 0%nat. apply K0.
    - change (nearest 2 (Z.of_nat 1 + Z.of_nat 1 - Z.of_nat (2 / 2))) with 1%nat. apply K1. }
  assert (A0 : astype UInt8 0 = 0). { unfold astype. cbn [is_float dtype_range]. change 0 with (IZR 0) at 1. rewrite trunc_IZR. reflexivity. }
  assert (A1 : astype UInt8 300 = 44). { unfold astype. cbn [is_float dtype_range]. rewrite trunc_IZR. reflexivity. }
  rewrite !K by reflexivity. unfold image. rewrite A0, A1. unfold cast. cbn [is_float]. split.
  - replace ((0 + 300) / 2) with (IZR 150) by lra. rewrite trunc_IZR. reflexivity.
  - replace ((0 + 44) / 2) with (IZR 22) by lra. rewrite trunc_IZR. reflexivity.
Qed.

(** Lazy signals with one chunk per pattern give the same background; with the detector in several chunks they do not. *)
Theorem C82_whole_patterns_in_chunks : forall d t ny nx std truncate image a y x,
  ebsd_get_dynamic_background fast d t ny nx std truncate image = Some a -> (x < nx)%nat ->
  ebsd_get_dynamic_background_chunked fast d t ny nx [nx] std truncate image y x = Some (a y x).
Proof.
  intros d t ny nx std truncate image a y x H X. unfold ebsd_get_dynamic_background_chunked. cbn [block_of].
  rewrite (proj2 (Nat.ltb_lt x (0 + nx)) X). cbn [Nat.add].
  change (fun y x => astype t (image y (0 + x)%nat)) with (fun y x => astype t (image y x)).
  unfold ebsd_get_dynamic_background, background in H. rewrite H. cbn [bind]. rewrite Nat.sub_0_r. reflexivity.
Qed.
Theorem C82_detector_in_several_chunks_refuted :
  let image := fun y x => INR x in
  ebsd_get_dynamic_background_chunked fast Frequency Float32 1 2 [1%nat; 1%nat] (Some (1 / 2)) 4 image 0 1 = Some 1 /\
  exists a, ebsd_get_dynamic_background fast Frequency Float32 1 2 (Some (1 / 2)) 4 image = Some a /\ a 0%nat 1%nat = 1 / 2.
Proof.
  intro image. split.
  - unfold ebsd_get_dynamic_background_chunked. cbn [block_of Nat.add Nat.ltb Nat.leb]. unfold background_of_block, frequency_filter.
    rewrite (proj2 (window_size_spec 4 (1 / 2) 2)) by (split; [lia|cbn; lra]). cbn [bind]. f_equal. unfold cast. cbn [is_float].
    rewrite C44_frequency_filter_is_the_weighted_sum; try lia; [| pose proof (F (1 + 2 - 1)); lia | pose proof (F (2 + 2 - 1)); lia].
    assert (T : total 2 (fun u => total 2 (fun v => normalized_window 2 (1 / 2) u v)) = 1).
    { rewrite (total_ext 2 _ (fun u => / total 2 (fun u => total 2 (fun v => weight (1 / 2) (INR u - (INR 2 - 1) / 2) (INR v - (INR 2 - 1) / 2))) *
         total 2 (fun v => weight (1 / 2) (INR u - (INR 2 - 1) / 2) (INR v - (INR 2 - 1) / 2)))).
      - rewrite total_mul. apply Rinv_l. apply Rgt_not_eq, total_positive; [lia|]. intros. apply total_positive; [lia|]. intros. apply exp_pos.
      - intros u U. rewrite <- total_mul. apply total_ext. intros v V. rewrite normalized; [unfold Rdiv; ring|lia|lra]. }
    rewrite <- T at 2. unfold weighted. apply total_ext. intros u U. apply total_ext. intros v V. unfold extended, image, astype.
    cbn [is_float]. replace (nearest 1 _) with 0%nat by (unfold nearest; lia).
    replace (nearest 1 (Z.of_nat (1 - 1) + Z.of_nat v - Z.of_nat (2 / 2))) with 0%nat by (unfold nearest; lia). cbn [INR Nat.add]. ring.
  - destruct (C82_frequency_background Float32 1 2 4 (1 / 2) (fun y x => astype Float32 (image y x)) 2) as (a & Ea & Va); [lra|lia|cbn; lra|].
    exists a. split; [exact Ea|].
    assert (E : a 0%nat 1%nat = if Nat.even 2 then INR 1 - 1 / 2 else INR 1).
    { apply (C82_background_half_a_pixel_off_refuted 1 2 4 (1 / 2) 2); try lra; try lia; [cbn; lra|exact Ea|cbn; lia|cbn; lia]. }
    rewrite E. cbn. lra.
Qed.
End C.
(** The hypotheses hold: the default for patterns of 60 x 60 pixels, a window of 30 x 30 pixels. *)
Example C82_case : 0 < INR 60 / 8 /\ INR 30 <= 4 * (INR 60 / 8) < INR 30 + 1 /\ Nat.even 30 = true /\
  exists a, get_dynamic_background (fun m => m) Frequency UInt8 60 60 None 4 (fun y x => INR (y + x)) = Some a.
Proof.
  assert (E : INR 60 = 60) by (rewrite INR_IZR_INZ; reflexivity). assert (E' : INR 30 = 30) by (rewrite INR_IZR_INZ; reflexivity).
  rewrite E, E'. repeat split; try lra.
  destruct (C82_frequency_background (fun m => m) (fun m => le_n m) UInt8 60 60 4 (INR 60 / 8) (fun y x => INR (y + x)) 30) as (a & Ha & _);
    [rewrite E; lra|lia|rewrite E, E'; lra|]. exists a. exact Ha.
Qed.
(** An odd window, and a signal from which the background can be removed. *)
Example C82_case_odd : Nat.odd (Z.to_nat (Detector.trunc (3 * 1))) = true /\
  exists out, ebsd_remove_dynamic_background (fun m => m) Subtract Frequency UInt8 2 2 (Some 1) 3 [[0; 1; 2; 4]] = Some out.
Proof.
  split; [replace (3 * 1) with (IZR 3) by lra; rewrite trunc_IZR; reflexivity|]. unfold ebsd_remove_dynamic_background.
  destruct (C82_frequency_background (fun m => m) (fun m => le_n m) Float32 2 2 3 1 (fun _ _ => 0) 3) as (a & Ha & _); [lra|lia|cbn; lra|].
  rewrite Ha. eexists. reflexivity.
Qed.
Print Assumptions C82_frequency_background.
Print Assumptions C82_got_background_is_removed.
