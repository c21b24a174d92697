(** C97: adaptive histogram equalization. *)
From Coq Require Import List Reals ZArith Lra Lia Bool.
From Verif Require Import Spec.Intensity Spec.DataTypes Spec.EqualizationSpec Model.Pattern Model.Intensity Model.Equalization
  Proofs.PatternProofs Proofs.IntensityProofs Proofs.DataTypesProofs Props.Intensity.
From Verif Require Model.Detector.
Import ListNotations.
Local Open Scope R_scope.

Lemma trunc_INR n : Detector.trunc (INR n) = Z.of_nat n.
Proof. rewrite INR_IZR_INZ. apply trunc_IZR. Qed.
Lemma default_kernel nrows ncols : kernel_size nrows ncols Default = Some [Z.of_nat ncols / 4; Z.of_nat nrows / 4]%Z.
Proof.
  cbn [kernel_size signal_shape fst snd option_map map]. rewrite !trunc_INR. now rewrite !Nat2Z.inj_div.
Qed.

(** By default the regions are as documented exactly if a quarter of the height is a quarter of the width: in other
    patterns height and width are exchanged. *)
Theorem C97_default_regions_iff nrows ncols :
  (exists l, kernel_size nrows ncols Default = Some l /\ region_of l = Some (documented_default nrows ncols))
  <-> (nrows / 4 = ncols / 4)%nat.
Proof.
  rewrite default_kernel. split.
  - intros (l & H & E). injection H as <-. cbn in E. injection E as E _. apply Nat2Z.inj. rewrite !Nat2Z.inj_div. symmetry. exact E.
  - intros E. eexists. split; [reflexivity|]. unfold documented_default, region_of. apply (f_equal Z.of_nat) in E. rewrite !Nat2Z.inj_div in E.
    change (Z.of_nat 4) with 4%Z in E. now rewrite E.
Qed.
Theorem C97_default_regions_refuted : exists nrows ncols l,
  kernel_size nrows ncols Default = Some l /\ region_of l = Some (Region 20 15) /\ documented_default nrows ncols = Region 15 20.
Proof. exists 60%nat, 80%nat. eexists. split; [apply default_kernel|]. split; reflexivity. Qed.
Print Assumptions C97_default_regions_iff.

(** Patterns of less than four rows or columns get regions without pixels. *)
Theorem C97_default_regions_of_small_patterns_refuted nrows ncols : (nrows < 4 \/ ncols < 4)%nat ->
  exists l g, kernel_size nrows ncols Default = Some l /\ region_of l = Some g /\ (region_height g * region_width g = 0)%Z.
Proof.
  intros H. rewrite default_kernel. do 2 eexists. split; [reflexivity|]. split; [reflexivity|]. cbn [region_height region_width].
  destruct H; [rewrite (Z.div_small (Z.of_nat nrows)) by lia|rewrite (Z.div_small (Z.of_nat ncols)) by lia]; lia.
Qed.
Example C97_small_case : (3 < 4 \/ 60 < 4)%nat.
Proof. lia. Qed.

(** Regions asked for are used: a height and a width, one number for both, and nothing else; fractions are cut. *)
Theorem C97_requested_regions nrows ncols :
  (forall h w, (0 <= h)%Z -> (0 <= w)%Z -> forall a b, 0 <= a < 1 -> 0 <= b < 1 ->
     exists l, kernel_size nrows ncols (Numbers [IZR h + a; IZR w + b]) = Some l /\ region_of l = Some (Region h w))
  /\ (forall k a, (0 <= k)%Z -> 0 <= a < 1 ->
     exists l, kernel_size nrows ncols (OneNumber (IZR k + a)) = Some l /\ region_of l = Some (Region k k))
  /\ (forall l, length l <> 2%nat <-> kernel_size nrows ncols (Numbers l) = None).
Proof.
  assert (T : forall h a, (0 <= h)%Z -> 0 <= a < 1 -> Detector.trunc (IZR h + a) = h).
  { intros h a H A. apply IZR_le in H. destruct (trunc_nonneg (IZR h + a)) as [[L U] _]; [lra|].
    assert (D1 : (h <= Detector.trunc (IZR h + a))%Z) by (apply IZR_lt_plus1; lra).
    assert (D2 : (Detector.trunc (IZR h + a) <= h)%Z) by (apply IZR_lt_plus1; lra). lia. }
  split; [|split].
  - intros h w Hh Hw a b A B. cbn [kernel_size length Nat.eqb option_map map]. rewrite (T h a), (T w b) by assumption. eexists. split; reflexivity.
  - intros k a Hk A. cbn [kernel_size option_map map]. rewrite (T k a) by assumption. eexists. split; reflexivity.
  - intros l. unfold kernel_size. destruct (Nat.eqb_spec (length l) 2) as [e|n]; cbn [option_map]; split; intros Q; [now destruct Q|discriminate Q|reflexivity|exact n].
Qed.
Print Assumptions C97_requested_regions.

(** A result is given for each pattern; it fills the range of the data type of the patterns, and follows the equalized
    intensities: brighter there is never darker in the result. *)
Theorem C97_result_spans_data_type equalize t shape k clip nbins data out kernel :
  adaptive_histogram_equalization equalize t shape k clip nbins data = Some out -> kernel_size (fst shape) (snd shape) k = Some kernel ->
  length out = length data
  /\ forall i p, nth_error data i = Some p -> ~ constant (equalize kernel clip nbins shape p) ->
     exists q, nth_error out i = Some q /\ spans (lowest t) (highest t) q
     /\ exists f, nondecreasing f /\ pixelwise f (equalize kernel clip nbins shape p) q.
Proof.
  unfold adaptive_histogram_equalization. intros H K. rewrite K in H. cbn in H. injection H as <-. split; [apply map_length|].
  intros i p Hp C. exists (equalize_pattern equalize t shape kernel clip nbins p). split; [now rewrite nth_error_map, Hp|]. unfold equalize_pattern. split.
  - now apply C23_rescale_spans_dtype_range.
  - apply (C23_order_kept None None t); [|exact C]. cbn. rewrite lowest_eq, highest_eq. pose proof (dtype_min_lt_max t). unfold dtype_min, dtype_max in *. lra.
Qed.
Print Assumptions C97_result_spans_data_type.
(** An equalizer that leaves images as they are. *)
Example C97_result_case : exists out, adaptive_histogram_equalization (fun _ _ _ _ p => p) UInt8 (2, 2)%nat (OneNumber 1) 0 128 [[3; 5; 4; 4]; [0; 1; 1; 0]] = Some out
  /\ ~ constant [3; 5; 4; 4].
Proof.
  eexists. split; [reflexivity|]. intros H. assert (3 = 5) by (apply H; cbn; auto). lra.
Qed.

(** Patterns are equalized one by one: the result for a pattern is the same in every signal it is in. *)
Theorem C97_each_pattern_on_its_own equalize t shape k clip nbins data data' out out' i j p :
  adaptive_histogram_equalization equalize t shape k clip nbins data = Some out ->
  adaptive_histogram_equalization equalize t shape k clip nbins data' = Some out' ->
  nth_error data i = Some p -> nth_error data' j = Some p -> nth_error out i = nth_error out' j.
Proof.
  unfold adaptive_histogram_equalization. destruct (kernel_size _ _ _); [|discriminate]. cbn. intros H H' Hi Hj. injection H as <-. injection H' as <-.
  now rewrite !nth_error_map, Hi, Hj.
Qed.
Print Assumptions C97_each_pattern_on_its_own.

(** There is a warning exactly for floating point data (which all data with NaN is), and it names NaN only if the data
    has some. *)
Theorem C97_warnings lazy has_nan t : (has_nan = true -> is_float t = true) ->
  (equalization_warning lazy has_nan t <> None <-> is_float t = true)
  /\ (equalization_warning lazy has_nan t = Some NaNWarning <-> has_nan = true /\ lazy = false).
Proof.
  unfold equalization_warning. intros H. destruct lazy, has_nan; cbn [negb andb]; destruct (is_float t); (split; split; try easy; try (intros [A B]; easy)).
  all: specialize (H eq_refl); discriminate.
Qed.
Example C97_warnings_case : equalization_warning true true Float32 = Some FloatWarning /\ equalization_warning false false UInt8 = None.
Proof. split; reflexivity. Qed.
Print Assumptions C97_warnings.
