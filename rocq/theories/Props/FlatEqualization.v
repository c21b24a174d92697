(** Equalization of patterns without contrast: part of property C97. *)
From Coq Require Import List Reals ZArith Lra Lia.
From Verif Require Import Model.Pattern Model.Intensity Model.Equalization Model.FlatPatterns Model.FlatEqualization Props.FlatPatterns.
Import ListNotations.
Local Open Scope R_scope.

(** The same arguments are accepted as in the theorems on patterns with contrast. A pattern gets the intensities stated
    there, or loses all: the latter exactly if the equalized image is flat. *)
Theorem C97_equalized_iff equalize t shape k clip nbins data :
  (equalized_signal equalize t shape k clip nbins data = None <->
   adaptive_histogram_equalization equalize t shape k clip nbins data = None) /\
  forall lost_or_not numbers kernel i p,
    equalized_signal equalize t shape k clip nbins data = Some lost_or_not ->
    adaptive_histogram_equalization equalize t shape k clip nbins data = Some numbers ->
    kernel_size (fst shape) (snd shape) k = Some kernel -> nth_error data i = Some p -> equalize kernel clip nbins shape p <> [] ->
    exists q, nth_error lost_or_not i = Some q /\ length q = length (equalize kernel clip nbins shape p) /\
      (~ flat (equalize kernel clip nbins shape p) -> option_map (map Some) (nth_error numbers i) = Some q) /\
      (flat (equalize kernel clip nbins shape p) -> lost q).
Proof.
  unfold equalized_signal, adaptive_histogram_equalization. split.
  { destruct (kernel_size _ _ k); cbn; split; congruence. }
  intros ln ns kernel i p E E' K Hi N. rewrite K in E, E'. cbn in E, E'. injection E as <-. injection E' as <-.
  rewrite !nth_error_map, Hi. cbn [option_map]. eexists. split; [reflexivity|]. unfold equalized_pattern, equalize_pattern.
  set (e := equalize kernel clip nbins shape p) in *. unfold rescaled_pattern, rescale_intensity. split; [unfold rescaled; now rewrite !map_length|].
  split; intros F.
  - f_equal. symmetry. apply rescaled_same. rewrite (flat_limits _ N). exact F.
  - apply rescaled_lost. now apply flat_limits.
Qed.
Print Assumptions C97_equalized_iff.

(** So an equalizer that leaves images without contrast without it costs every such pattern its intensities, although
    they are in the range of the data type before. *)
Theorem C97_flat_pattern_refuted equalize t shape k clip nbins data out i p :
  (forall kernel q, flat q -> flat (equalize kernel clip nbins shape q) /\ length (equalize kernel clip nbins shape q) = length q) ->
  equalized_signal equalize t shape k clip nbins data = Some out -> nth_error data i = Some p -> p <> [] -> flat p ->
  exists q, nth_error out i = Some q /\ length q = length p /\ lost q.
Proof.
  intros Hq E Hi N F. pose proof E as E'. unfold equalized_signal in E'. destruct (kernel_size _ _ k) as [kernel|] eqn:K; [|discriminate]. clear E'.
  destruct (Hq kernel p F) as [Fe Le].
  destruct (C97_equalized_iff equalize t shape k clip nbins data) as [_ H].
  destruct (H out (map (equalize_pattern equalize t shape kernel clip nbins) data) kernel i p E) as (q & Q1 & Q2 & _ & Q3).
  - unfold adaptive_histogram_equalization. now rewrite K.
  - exact K.
  - exact Hi.
  - intros C. rewrite C in Le. destruct p; [now apply N|discriminate].
  - exists q. split; [exact Q1|]. split; [congruence|]. now apply Q3.
Qed.
Print Assumptions C97_flat_pattern_refuted.

(** An equalizer that leaves images as they are, and one pattern with and one without contrast. *)
Example C97_flat_case : exists p q, equalized_signal (fun _ _ _ _ p => p) UInt8 (2, 2)%nat (OneNumber 1) 0 128 [[3; 3; 3; 3]; [0; 1; 1; 0]] = Some [p; q]
  /\ lost p /\ intact q.
Proof.
  do 2 eexists. split; [reflexivity|]. split.
  - apply rescaled_lost. apply flat_limits; [discriminate|]. intros x y Hx Hy. cbn in Hx, Hy. intuition lra.
  - unfold equalized_pattern, rescaled_pattern. rewrite rescaled_same.
    + intros v Hv. apply in_map_iff in Hv as (u & <- & _). discriminate.
    + rewrite flat_limits by discriminate. intros F. assert (0 = 1) by (apply F; cbn; auto). lra.
Qed.
