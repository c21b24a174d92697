(** C84: colour images from virtual backscatter electron images. *)
From Coq Require Import List Reals ZArith Lra Lia Bool Permutation.
From Verif Require Import Model.Pattern Model.Intensity Model.RgbImage Proofs.PatternProofs Proofs.IntensityProofs Proofs.DataTypesProofs Proofs.RgbImageProofs Spec.DataTypes Spec.RgbSpec.
Import ListNotations.
Local Open Scope R_scope.

(** Data types of colour images, and the middle of their range. *)
Definition rgb (t : dtype) : Prop := t = UInt8 \/ t = UInt16.
Definition middle (t : dtype) : R := match t with UInt8 => 127 | _ => 32767 end.
Definition varied (p : list R) : Prop := exists x y, In x p /\ In y p /\ x <> y.
(** The level of a value: how bright it is to be in the channel. *)
Definition brightness (t : dtype) (bright contrast z : R) : R := middle t + bright + contrast * (5 / 16) * highest t * z.

Lemma varied_std p : varied p -> vstd p <> 0.
Proof. intros (x & y & X & Y & N). exact (vstd_not_constant p x y X Y N). Qed.
Lemma middle_eq t : rgb t -> IZR (snd (dtype_range t) / 2) = middle t.
Proof. intros [->| ->]; reflexivity. Qed.
Lemma level_score t b c p x z : rgb t -> varied p -> is_score p x z -> level t b c p x = brightness t b c z.
Proof.
  intros T V (m & M & ->). apply median_spec in M. subst m. unfold level, brightness. rewrite middle_eq by assumption. rewrite <- vstd_spec, highest_eq.
  pose proof (varied_std p V). field. assumption.
Qed.
Lemma score_exists p x : varied p -> is_score p x ((x - median p) / sqrt (variance p)).
Proof.
  intros V. exists (median p). split; [now apply median_spec|]. rewrite <- vstd_spec. pose proof (varied_std p V). field. assumption.
Qed.

(** A channel before stretching: brightness by standard scores, limited to the range of the data type. *)
Theorem C84_normalized_channel : forall t bright contrast p i x z, rgb t -> varied p -> nth_error p i = Some x -> is_score p x z ->
  nth_error (normalize_image t bright contrast p) i = Some (Some (Rmin (highest t) (Rmax 0 (brightness t bright contrast z)))).
Proof.
  intros t b c p i x z T V I S. rewrite normalize_varied by now apply varied_std. rewrite !nth_error_map, I. cbn [option_map]. rewrite (level_score t b c p x z) by assumption.
  now rewrite highest_eq.
Qed.
Print Assumptions C84_normalized_channel.
Example C84_normalized_channel_example : varied [0; 2] /\ is_score [0; 2] 2 1.
Proof.
  split; [exists 0, 2; cbn; repeat split; auto; lra|]. exists 1. split.
  - exists [0; 2]. split; [reflexivity|]. split; [|cbn; lra]. intros [|[|i]] [|[|j]] H; cbn in *; try lra; lia.
  - replace (variance [0; 2]) with 1 by (unfold variance, mean; cbn; field). rewrite sqrt_1. lra.
Qed.

(** The image does not depend on the contrast and brightness of the patterns in any region. *)
Theorem C84_contrast_of_regions : forall channels channels' percentiles alpha t bright contrast, Forall2 same_up_to_contrast channels channels' ->
  get_rgb_image channels' percentiles true alpha t bright contrast = get_rgb_image channels percentiles true alpha t bright contrast.
Proof.
  intros chs chs' pct alpha t b c F. unfold get_rgb_image.
  replace (map (fun p => normalize_image t b c p) chs') with (map (fun p => normalize_image t b c p) chs); [reflexivity|].
  induction F as [|p q l l' (a & k & A & ->) F IH]; [reflexivity|]. cbn [map]. now rewrite normalize_affine, IH.
Qed.
Print Assumptions C84_contrast_of_regions.
Example C84_contrast_of_regions_example : Forall2 same_up_to_contrast [[0; 1]; [5; 2]] [[3; 5]; [5; 2]].
Proof.
  constructor; [exists 2, 3; split; [lra|]; cbn; f_equal; [lra|f_equal; lra]|]. constructor; [|constructor]. exists 1, 0. split; [lra|]. cbn. f_equal; [lra|f_equal; lra].
Qed.

(** The documented brightness offset and contrast factor have no effect: whatever they are, the image is the same, as long as no value leaves
    the range of the data type. *)
Definition within_range (t : dtype) (bright contrast : R) (p : list R) : Prop :=
  forall x z, In x p -> is_score p x z -> 0 <= brightness t bright contrast z <= highest t.
Theorem C84_brightness_and_contrast_ignored_refuted : forall channels percentiles t bright bright' contrast contrast', rgb t ->
  Forall varied channels -> good_percentiles percentiles -> 0 < contrast -> 0 < contrast' ->
  Forall (within_range t bright contrast) channels -> Forall (within_range t bright' contrast') channels ->
  get_rgb_image channels percentiles true None t bright' contrast' = get_rgb_image channels percentiles true None t bright contrast.
Proof.
  intros chs pct t b b' c c' T V G C C' W W'. unfold get_rgb_image.
  set (a := c' / c). set (k := middle t + b' - a * (middle t + b)).
  assert (A : 0 < a) by (unfold a; apply Rdiv_lt_0_compat; assumption).
  rewrite Forall_forall in V, W, W'.
  replace (map (fun p => normalize_image t b c p) chs) with (map (map Some) (map (fun p => map (level t b c p) p) chs)).
  - replace (map (fun p => normalize_image t b' c' p) chs) with (map (map Some) (map (map (fun x => a * x + k)) (map (fun p => map (level t b c p) p) chs))); [now apply stretch_affine|].
    rewrite !map_map. apply map_ext_in. intros p P. pose proof (varied_std p (V p P)) as S. rewrite normalize_varied by assumption. rewrite !map_map. apply map_ext_in. intros x X.
    f_equal. pose proof (score_exists p x (V p P)) as Z. rewrite (level_score _ _ _ _ _ _ T (V p P) Z), (level_score t b' c' _ _ _ T (V p P) Z).
    rewrite clip_inside by (rewrite <- highest_eq; exact (W' p P x _ X Z)). unfold brightness, k, a. field. split; [now rewrite <- vstd_spec|now apply Rgt_not_eq].
  - rewrite map_map. apply map_ext_in. intros p P. pose proof (varied_std p (V p P)) as S. rewrite normalize_varied by assumption. f_equal. apply map_ext_in. intros x X.
    pose proof (score_exists p x (V p P)) as Z. rewrite (level_score _ _ _ _ _ _ T (V p P) Z). symmetry. apply clip_inside. rewrite <- highest_eq. exact (W p P x _ X Z).
Qed.
Print Assumptions C84_brightness_and_contrast_ignored_refuted.
(** The hypotheses hold for a channel with scores of -1 and 1: brighter by 30 and with half the contrast, the image is the same. *)
Example C84_brightness_example : varied [0; 2] /\ within_range UInt8 0 1 [0; 2] /\ within_range UInt8 30 (1 / 2) [0; 2].
Proof.
  assert (S : forall x z, In x [0; 2] -> is_score [0; 2] x z -> z = -1 \/ z = 1).
  { intros x z X (m & M & E). apply median_spec in M. assert (median [0; 2] = 1) as Em.
    { symmetry. apply median_spec. exists [0; 2]. split; [reflexivity|]. split; [|cbn; lra]. intros [|[|i]] [|[|j]] H; cbn in *; try lra; lia. }
    replace (variance [0; 2]) with 1 in E by (unfold variance, mean; cbn; field). rewrite sqrt_1 in E. destruct X as [<-|[<-|[]]]; [left|right]; lra. }
  split; [exists 0, 2; cbn; repeat split; auto; lra|]. split; intros x z X Z; destruct (S x z X Z) as [->| ->]; unfold brightness, highest, kind_of, middle; cbn; lra.
Qed.

(** Values of the image are whole numbers in the range of the data type. *)
Lemma rgb_range t : rgb t -> dtype_min t = 0 /\ 0 < dtype_max t /\ exists n, dtype_max t = IZR n.
Proof. intros [->| ->]; unfold dtype_min, dtype_max; cbn; (split; [reflexivity|split; [lra|eexists; reflexivity]]). Qed.
Lemma quotient_range x lo hi q : lo <= x <= hi -> quotient (x - lo) (hi - lo) = Some q -> 0 <= q <= 1.
Proof.
  unfold quotient. intros L H. destruct (Req_EM_T (hi - lo) 0) as [|N]; [discriminate|]. injection H as <-. assert (0 < hi - lo) by lra.
  split; [apply Rmult_le_pos; [lra|left; now apply Rinv_0_lt_compat]|]. apply (Rmult_le_reg_r (hi - lo)); [assumption|]. unfold Rdiv. rewrite Rmult_assoc, Rinv_l by assumption. lra.
Qed.
Lemma in_defined v l : In (Some v) l <-> In v (defined l).
Proof.
  unfold defined. rewrite in_flat_map. split; [intros H; exists (Some v); split; [assumption|now left]|]. intros ([x|] & I & J); [destruct J as [->|[]]; assumption|contradiction].
Qed.
Theorem C84_range : forall channels percentiles normalize alpha t bright contrast, rgb t ->
  match percentiles with None => True | Some (a, b) => 0 <= a <= b /\ b <= 100 end ->
  forall c v, In c (get_rgb_image channels percentiles normalize alpha t bright contrast) -> In (Some v) c -> 0 <= v <= highest t /\ exists n, v = IZR n.
Proof.
  intros chs pct nz alpha t b c T P ch v C V. unfold get_rgb_image in C.
  set (image := match alpha with Some a => _ | None => _ end) in C. clearbody image.
  destruct (rgb_range t T) as (Z & M & n & E). rewrite highest_eq.
  unfold stretch in C. apply in_map_iff in C as (c0 & <- & C0). apply in_map_iff in V as (o & V & O). destruct o as [x|]; [|discriminate]. cbn [bind] in V.
  assert (I : In x (defined (concat image))) by (apply in_defined, in_concat; exists c0; now split).
  assert (N : defined (concat image) <> []) by (intros F; now rewrite F in I).
  assert (K : exists q, 0 <= q <= 1 /\ v = cast t (q * (dtype_max t - dtype_min t) + dtype_min t)).
  { destruct pct as [[p q]|].
    - destruct (all_defined (concat image)); [|discriminate]. cbn [fst snd] in V.
      match type of V with option_map _ ?o = _ => destruct o as [r|] eqn:Q; [|discriminate] end. injection V as <-. exists r. split; [|reflexivity].
      eapply quotient_range; [|exact Q]. apply clip_range. now apply percentile_mono.
    - unfold nan_range in V. destruct (defined (concat image)) as [|y l] eqn:D; [contradiction|]. cbn [bind fst snd] in V.
      match type of V with option_map _ ?o = _ => destruct o as [r|] eqn:Q; [|discriminate] end. injection V as <-. exists r. split; [|reflexivity].
      eapply quotient_range; [|exact Q]. split; [now apply vmin_le|now apply vmax_ge]. }
  destruct K as (q & Q & ->). rewrite Z. rewrite Rminus_0_r, Rplus_0_r. set (u := q * dtype_max t).
  assert (U : 0 <= u <= dtype_max t). { unfold u. split; [apply Rmult_le_pos; lra|]. rewrite <- (Rmult_1_l (dtype_max t)) at 2. apply Rmult_le_compat_r; lra. }
  split; [|unfold cast; destruct T as [->| ->]; cbn [is_float]; eexists; reflexivity].
  apply cast_between; [exact (representable_IZR t 0)|rewrite E; apply representable_IZR|exact U].
Qed.
Print Assumptions C84_range.

(** A region with the same intensity in all patterns: its channel has no defined value. The other channels are as without it. *)
Theorem C84_constant_channel_refuted : forall before p after t bright contrast, p <> [] -> (forall x y, In x p -> In y p -> x = y) ->
  exists b a, length b = length before /\
  get_rgb_image (before ++ p :: after) None true None t bright contrast = b ++ map (fun _ => None) p :: a /\
  get_rgb_image (before ++ after) None true None t bright contrast = b ++ a.
Proof.
  intros before p after t b c N E. unfold get_rgb_image, stretch. set (f := normalize_image t b c).
  assert (S : vstd p = 0). { destruct p as [|x p']; [contradiction|]. apply (vstd_constant _ x). intros y Y. apply E; [assumption|now left]. }
  assert (D : defined (map (fun _ => None) p) = []) by (clear; induction p as [|x p IH]; [reflexivity|exact IH]).
  assert (Dc : defined (concat (map f (before ++ p :: after))) = defined (concat (map f (before ++ after)))).
  { rewrite !map_app. cbn [map]. rewrite !concat_app. cbn [concat]. unfold f at 2. rewrite normalize_constant by assumption. unfold defined in *. rewrite !flat_map_app, D. reflexivity. }
  unfold nan_range. fold f. rewrite Dc. set (g := fun o : option R => bind o _).
  exists (map (map g) (map f before)), (map (map g) (map f after)). split; [now rewrite !map_length|]. split; [|now rewrite !map_app].
  rewrite !map_app. cbn [map]. do 2 f_equal. unfold f. rewrite normalize_constant by assumption. rewrite map_map. reflexivity.
Qed.
Print Assumptions C84_constant_channel_refuted.
(** With percentiles, nothing of the image is defined then. *)
Theorem C84_constant_channel_percentiles_refuted : forall channels p percentiles t bright contrast, In p channels -> p <> [] -> (forall x y, In x p -> In y p -> x = y) ->
  forall c v, In c (get_rgb_image channels (Some percentiles) true None t bright contrast) -> In v c -> v = None.
Proof.
  intros chs p [pa pb] t b c P N E ch v C V. unfold get_rgb_image, stretch in C.
  assert (S : vstd p = 0). { destruct p as [|x p']; [contradiction|]. apply (vstd_constant _ x). intros y Y. apply E; [assumption|now left]. }
  assert (A : all_defined (concat (map (fun c0 => normalize_image t b c c0) chs)) = false).
  { destruct (all_defined _) eqn:A; [|reflexivity]. exfalso. unfold all_defined in A. rewrite forallb_forall in A. specialize (A None). discriminate A.
    apply in_concat. exists (normalize_image t b c p). split; [now apply (in_map (fun c0 => normalize_image t b c c0))|]. rewrite normalize_constant by assumption.
    destruct p; [contradiction|now left]. }
  apply in_map_iff in C as (c0 & <- & _). apply in_map_iff in V as (o & <- & _). rewrite A. destruct o; reflexivity.
Qed.

(** The alpha channel: the image is black where it is lowest. *)
Lemma normalize_nonneg t b c p v : rgb t -> In (Some v) (normalize_image t b c p) -> 0 <= v.
Proof.
  intros T V. unfold normalize_image in V. apply in_map_iff in V as (x & V & _). destruct (quotient _ _); [|discriminate]. injection V as <-.
  destruct (rgb_range t T) as (_ & M & _). apply clip_range. lra.
Qed.
Theorem C84_black_where_alpha_is_lowest : forall channels alpha t bright contrast lo hi i, rgb t -> Forall varied channels ->
  Forall (fun c => length c = length alpha) channels -> In (Some hi) alpha -> lo < hi -> (forall v, In (Some v) alpha -> lo <= v) ->
  nth_error alpha i = Some (Some lo) ->
  (exists c v, In c (get_rgb_image channels None true (Some alpha) t bright contrast) /\ In (Some v) c) ->
  forall c, In c (get_rgb_image channels None true (Some alpha) t bright contrast) -> nth_error c i = Some (Some 0).
Proof.
  intros chs alpha t b k lo hi i T V L HI LH LO I (c1 & v1 & C1 & V1) c C. unfold get_rgb_image in *.
  set (image := map (fun c => multiplied c (rescaled_alpha alpha)) (map (fun c => normalize_image t b k c) chs)) in *.
  destruct (rgb_range t T) as (Zt & M & n & En).
  assert (Da : forall v, In v (defined alpha) <-> In (Some v) alpha) by (intros; symmetry; apply in_defined).
  assert (ILO : In (Some lo) alpha) by (eapply nth_error_In; eassumption).
  assert (Rg : exists m, nan_range alpha = Some (lo, m) /\ lo < m).
  { unfold nan_range. destruct (defined alpha) as [|y l] eqn:D; [apply Da in ILO; rewrite ?D in ILO; contradiction|]. rewrite <- D in Da |- *. exists (vmax (defined alpha)).
    assert (vmin (defined alpha) = lo) as -> by (apply vmin_unique; [now apply Da|intros v Hv; apply LO; now apply Da]).
    split; [reflexivity|]. assert (hi <= vmax (defined alpha)) by (apply vmax_ge; now apply Da). lra. }
  destruct Rg as (m & Rg & Lm).
  assert (Al : nth_error (rescaled_alpha alpha) i = Some (Some 0)).
  { unfold rescaled_alpha. rewrite nth_error_map, I. cbn [option_map bind]. rewrite Rg. cbn [bind fst snd]. unfold quotient. destruct (Req_EM_T (m - lo) 0); [lra|].
    do 2 f_equal. unfold Rdiv. ring. }
  assert (Apos : forall v, In (Some v) (rescaled_alpha alpha) -> 0 <= v).
  { intros v Hv. unfold rescaled_alpha in Hv. apply in_map_iff in Hv as (o & Hv & Ho). destruct o as [x|]; [|discriminate]. cbn [bind] in Hv. rewrite Rg in Hv. cbn [bind fst snd] in Hv.
    unfold quotient in Hv. destruct (Req_EM_T (m - lo) 0); [lra|]. injection Hv as <-. pose proof (LO x Ho). apply Rmult_le_pos; [lra|left; apply Rinv_0_lt_compat; lra]. }
  assert (Zc : forall p, In p image -> nth_error p i = Some (Some 0)).
  { intros p P. unfold image in P. rewrite map_map in P. apply in_map_iff in P as (c0 & <- & Q). rewrite Forall_forall in V, L.
    unfold multiplied. rewrite nth_error_map. assert (i < length alpha)%nat by (apply nth_error_Some; congruence).
    rewrite normalize_varied by now apply varied_std, V. destruct (nth_error c0 i) as [x|] eqn:X; [|apply nth_error_None in X; rewrite (L c0 Q) in X; lia].
    assert (K : nth_error (combine (map Some (map (fun x => clip 0 (dtype_max t) (level t b k c0 x)) c0)) (rescaled_alpha alpha)) i = Some (Some (clip 0 (dtype_max t) (level t b k c0 x)), Some 0)).
    { generalize (rescaled_alpha alpha) Al. clear - X. generalize (level t b k c0). intros f. revert i X. induction c0 as [|y c0 IH]; intros [|i] X a A; destruct a; cbn in *; try discriminate; [congruence|now apply IH]. }
    rewrite K. cbn [option_map fst snd bind]. do 2 f_equal. ring. }
  assert (Pos : forall v, In (Some v) (concat image) -> 0 <= v).
  { intros v Hv. apply in_concat in Hv as (p & P & Hv). unfold image in P. rewrite map_map in P. apply in_map_iff in P as (c0 & <- & Q). unfold multiplied in Hv.
    apply in_map_iff in Hv as ([x a] & Hv & J). cbn [fst snd] in Hv. destruct x as [x|]; [|discriminate]. destruct a as [a|]; [|discriminate]. injection Hv as <-.
    apply Rmult_le_pos; [eapply normalize_nonneg; [exact T|eapply in_combine_l; exact J]|apply Apos; eapply in_combine_r; exact J]. }
  unfold stretch in *. apply in_map_iff in C as (p & <- & P). apply in_map_iff in C1 as (p1 & <- & P1).
  assert (I0 : In 0 (defined (concat image))) by (apply in_defined, in_concat; exists p; split; [assumption|eapply nth_error_In; now apply Zc]).
  assert (Vm : vmin (defined (concat image)) = 0) by (apply vmin_unique; [assumption|intros v Hv; apply Pos; now apply in_defined]).
  rewrite nth_error_map, (Zc p P). cbn [option_map bind].
  apply in_map_iff in V1 as (o & V1 & O1). destruct o as [x1|]; [|discriminate]. cbn [bind] in V1.
  unfold nan_range in *. destruct (defined (concat image)) as [|y l] eqn:D; [contradiction|]. rewrite <- D in *. cbn [bind fst snd] in *. rewrite Vm in *.
  unfold quotient in *. destruct (Req_EM_T (vmax (defined (concat image)) - 0) 0); [discriminate|]. cbn [option_map].
  do 2 f_equal. rewrite Zt. replace ((0 - 0) / (vmax (defined (concat image)) - 0) * (dtype_max t - 0) + 0) with 0 by (unfold Rdiv; ring).
  exact (cast_IZR t 0).
Qed.
Print Assumptions C84_black_where_alpha_is_lowest.
(** An alpha channel with the same value everywhere: nothing of the image is defined. *)
Theorem C84_constant_alpha_refuted : forall channels alpha percentiles normalize t bright contrast, (forall x y, In x alpha -> In y alpha -> x = y) ->
  forall c v, In c (get_rgb_image channels percentiles normalize (Some (map Some alpha)) t bright contrast) -> In v c -> v = None.
Proof.
  intros chs alpha pct nz t b k E c v C V. unfold get_rgb_image, stretch in C.
  assert (A : forall o, In o (rescaled_alpha (map Some alpha)) -> o = None).
  { intros o O. unfold rescaled_alpha in O. apply in_map_iff in O as (x & <- & X). apply in_map_iff in X as (y & <- & Y). cbn [bind]. unfold nan_range. rewrite defined_some.
    destruct alpha as [|z l]; [contradiction|]. set (a := z :: l) in *. assert (Na : a <> []) by discriminate. cbn [bind fst snd].
    rewrite (E (vmax a) (vmin a)); [|now apply vmax_in|now apply vmin_in]. unfold quotient. destruct (Req_EM_T (vmin a - vmin a) 0); [reflexivity|lra]. }
  apply in_map_iff in C as (p & <- & P). apply in_map_iff in P as (p0 & <- & _). apply in_map_iff in V as (o & <- & O).
  unfold multiplied in O. apply in_map_iff in O as ([x a] & <- & J). cbn [fst snd]. rewrite (A a) by (eapply in_combine_r; exact J). destruct x; reflexivity.
Qed.
Print Assumptions C84_constant_alpha_refuted.

(** Axes of the image: those of the map, but for the offset. *)
Theorem C84_axes : forall (T : Type) (new old : list (axis T)) i n o, nth_error new i = Some n -> nth_error old i = Some o ->
  exists a, nth_error (transfer_axes new old) i = Some a /\ size a = size n /\ name a = name o /\ scale a = scale o /\ units a = units o /\ offset a = offset n.
Proof.
  intros T new. induction new as [|n0 new IH]; intros old [|i] n o N O; destruct old as [|o0 old]; try discriminate; cbn in *.
  - injection N as <-. injection O as <-. eexists. split; [reflexivity|]. now repeat split.
  - now apply (IH old i).
Qed.
(** The map point at an index has another coordinate in the image if the axis of the map does not start at zero; a new image starts there. *)
Theorem C84_offset_refuted : forall (T : Type) (n o : axis T) j, offset n = 0 -> offset o <> 0 ->
  let coordinate := fun a : axis T => offset a + INR j * scale a in
  forall a, transfer_axes [n] [o] = [a] -> coordinate a <> coordinate o.
Proof. intros T n o j N O coordinate a H. injection H as <-. unfold coordinate. cbn. rewrite N. lra. Qed.
Example C84_offset_example : transfer_axes [Axis 3 0%nat 1 0 0%nat] [Axis 3 1%nat 2 5 2%nat] = [Axis 3 1%nat 2 0 2%nat].
Proof. reflexivity. Qed.

(** A higher standard score gives a value that is not lower, within a channel and between channels. *)
Lemma quotient_mono x y lo hi u v : lo <= hi -> x <= y -> quotient (x - lo) (hi - lo) = Some u -> quotient (y - lo) (hi - lo) = Some v -> u <= v.
Proof.
  unfold quotient. intros L H. destruct (Req_EM_T (hi - lo) 0); [discriminate|]. intros U V. injection U as <-. injection V as <-.
  apply Rmult_le_compat_r; [left; apply Rinv_0_lt_compat|]; lra.
Qed.
Theorem C84_order : forall channels percentiles t bright contrast a b p q i j x y z w u v, rgb t -> 0 <= contrast ->
  match percentiles with None => True | Some (lo, hi) => 0 <= lo <= hi /\ hi <= 100 end -> Forall varied channels ->
  nth_error channels a = Some p -> nth_error channels b = Some q -> nth_error p i = Some x -> nth_error q j = Some y ->
  is_score p x z -> is_score q y w -> z <= w ->
  let image := get_rgb_image channels percentiles true None t bright contrast in
  forall c d, nth_error image a = Some c -> nth_error image b = Some d -> nth_error c i = Some (Some u) -> nth_error d j = Some (Some v) -> u <= v.
Proof.
  intros chs pct t br k a b p q i j x y z w u v T K G V P Q X Y Z W ZW image c d C D U U'. unfold image, get_rgb_image, stretch in *. clear image.
  set (im := concat _) in *. rewrite !nth_error_map in C, D. rewrite P in C. rewrite Q in D. cbn [option_map] in C, D. injection C as <-. injection D as <-.
  rewrite Forall_forall in V. assert (Vp : varied p) by (eapply V, nth_error_In; exact P). assert (Vq : varied q) by (eapply V, nth_error_In; exact Q).
  rewrite normalize_varied in U by now apply varied_std. rewrite normalize_varied in U' by now apply varied_std.
  rewrite !nth_error_map in U, U'. rewrite X in U. rewrite Y in U'. cbn [option_map bind] in U, U'.
  rewrite (level_score t br k p x z T Vp Z) in U. rewrite (level_score t br k q y w T Vq W) in U'.
  destruct (rgb_range t T) as (Zt & M & _).
  set (f := clip 0 (dtype_max t) (brightness t br k z)) in *. set (g := clip 0 (dtype_max t) (brightness t br k w)) in *.
  assert (FG : f <= g). { unfold f, g. apply clip_mono. unfold brightness. apply Rplus_le_compat_l. apply Rmult_le_compat_l; [|assumption].
    rewrite highest_eq. apply Rmult_le_pos; [|lra]. lra. }
  assert (N : In (Some f) im).
  { unfold im. apply in_concat. exists (normalize_image t br k p). split; [apply (in_map (fun c => normalize_image t br k c)); eapply nth_error_In; exact P|].
    rewrite normalize_varied by now apply varied_std. rewrite map_map. apply in_map_iff. exists x. split; [|eapply nth_error_In; exact X].
    unfold f. now rewrite (level_score t br k p x z T Vp Z). }
  apply in_defined in N. assert (Nd : defined im <> []) by (intros F; now rewrite F in N).
  assert (Fin : forall lo hi f g, lo <= hi -> f <= g -> 
    option_map (fun q => cast t (q * (dtype_max t - dtype_min t) + dtype_min t)) (quotient (f - lo) (hi - lo)) = Some u ->
    option_map (fun q => cast t (q * (dtype_max t - dtype_min t) + dtype_min t)) (quotient (g - lo) (hi - lo)) = Some v -> u <= v).
  { intros lo hi f0 g0 LH L A B. destruct (quotient (f0 - lo) (hi - lo)) as [r|] eqn:E; [|discriminate]. destruct (quotient (g0 - lo) (hi - lo)) as [s|] eqn:F; [|discriminate].
    injection A as <-. injection B as <-. apply cast_le. apply Rplus_le_compat_r, Rmult_le_compat_r; [lra|]. exact (quotient_mono f0 g0 lo hi r s LH L E F). }
  destruct pct as [[lo hi]|].
  - destruct (all_defined im); [|discriminate]. cbn [fst snd] in U, U'. injection U as U. injection U' as U'.
    eapply Fin; [|apply clip_mono; exact FG|exact U|exact U']. now apply percentile_mono.
  - injection U as U. injection U' as U'. unfold nan_range in U, U'. destruct (defined im) as [|e l] eqn:E; [contradiction|]. rewrite <- E in *. cbn [bind fst snd] in U, U'.
    eapply Fin; [|exact FG|exact U|exact U']. apply Rle_trans with f; [now apply vmin_le|now apply vmax_ge].
Qed.
Print Assumptions C84_order.

(** Without percentiles the image reaches from black to full brightness, if any of its values are defined. *)
Theorem C84_full_range : forall channels normalize alpha t bright contrast, rgb t ->
  let image := get_rgb_image channels None normalize alpha t bright contrast in
  (exists c v, In c image /\ In (Some v) c) -> (exists c, In c image /\ In (Some 0) c) /\ (exists c, In c image /\ In (Some (highest t)) c).
Proof.
  intros chs nz alpha t b k T image. unfold image, get_rgb_image. clear image. set (im := match alpha with Some a => _ | None => _ end). clearbody im.
  intros (c & v & C & V). destruct (rgb_range t T) as (Zt & M & n & En). rewrite highest_eq.
  unfold stretch in *. apply in_map_iff in C as (c0 & <- & C0). apply in_map_iff in V as (o & V & O). destruct o as [x|]; [|discriminate]. cbn [bind] in V.
  assert (I : In x (defined (concat im))) by (apply in_defined, in_concat; exists c0; now split).
  assert (N : defined (concat im) <> []) by (intros F; now rewrite F in I).
  assert (Rg : nan_range (concat im) = Some (vmin (defined (concat im)), vmax (defined (concat im)))).
  { unfold nan_range. destruct (defined (concat im)); [contradiction|reflexivity]. }
  rewrite Rg in *. cbn [bind fst snd] in *. set (lo := vmin _) in *. set (hi := vmax _) in *.
  assert (H : hi - lo <> 0). { intros E. unfold quotient in V. destruct (Req_EM_T (hi - lo) 0); [discriminate|contradiction]. }
  assert (K : forall w, In w (defined (concat im)) -> exists c, In c (map (map (fun o => bind o (fun x => option_map (fun q => cast t (q * (dtype_max t - dtype_min t) + dtype_min t)) (quotient (x - lo) (hi - lo))))) im)
     /\ In (Some (cast t ((w - lo) / (hi - lo) * (dtype_max t - dtype_min t) + dtype_min t))) c).
  { intros w Hw. apply in_defined, in_concat in Hw as (c1 & C1 & Hw). eexists. split; [apply in_map; exact C1|]. apply in_map_iff. exists (Some w). split; [|exact Hw].
    cbn [bind]. unfold quotient. destruct (Req_EM_T (hi - lo) 0); [contradiction|reflexivity]. }
  split.
  - destruct (K lo (vmin_in _ N)) as (c1 & C1 & Q). exists c1. split; [exact C1|]. replace ((lo - lo) / (hi - lo) * (dtype_max t - dtype_min t) + dtype_min t) with 0 in Q by (rewrite Zt; field; exact H).
    now rewrite (cast_IZR t 0) in Q.
  - destruct (K hi (vmax_in _ N)) as (c1 & C1 & Q). exists c1. split; [exact C1|].
    replace ((hi - lo) / (hi - lo) * (dtype_max t - dtype_min t) + dtype_min t) with (IZR n) in Q by (rewrite Zt, En; field; exact H). rewrite cast_IZR in Q. now rewrite En.
Qed.
Print Assumptions C84_full_range.
Example C84_image_example : get_rgb_image [[0; 2]; [1; 2]] None false None UInt8 0 1 = [[Some 0; Some 255]; [Some 127; Some 255]].
Proof.
  unfold get_rgb_image. change (map (fun c => map Some c) [[0; 2]; [1; 2]]) with [[Some 0; Some 2]; [Some 1; Some 2]]. unfold stretch. cbn [concat app].
  assert (R0 : nan_range [Some 0; Some 2; Some 1; Some 2] = Some (0, 2)).
  { unfold nan_range. cbn [defined flat_map app]. do 2 f_equal; [apply vmin_unique|apply vmax_unique]; cbn; auto; intros x H; repeat (destruct H as [<-|H]; [lra|]); contradiction. }
  rewrite R0. cbn [bind fst snd map]. unfold quotient. destruct (Req_EM_T (2 - 0) 0); [lra|]. cbn [option_map]. unfold dtype_max, dtype_min. cbn [dtype_range fst snd].
  assert (H0 : cast UInt8 ((0 - 0) / (2 - 0) * (255 - 0) + 0) = 0) by (replace ((0 - 0) / (2 - 0) * (255 - 0) + 0) with 0 by field; exact (cast_IZR UInt8 0)).
  assert (H2 : cast UInt8 ((2 - 0) / (2 - 0) * (255 - 0) + 0) = 255) by (replace ((2 - 0) / (2 - 0) * (255 - 0) + 0) with 255 by field; exact (cast_IZR UInt8 255)).
  assert (H1 : cast UInt8 ((1 - 0) / (2 - 0) * (255 - 0) + 0) = 127).
  { unfold cast. cbn [is_float]. set (x := (1 - 0) / (2 - 0) * (255 - 0) + 0). assert (X : x = 255 / 2) by (unfold x; field). destruct (trunc_nonneg x ltac:(lra)) as ((A & B) & _).
    f_equal. assert (126 < Detector.trunc x)%Z by (apply lt_IZR; lra). assert (Detector.trunc x < 128)%Z by (apply lt_IZR; lra). lia. }
  now rewrite H0, H1, H2.
Qed.

(** With percentiles: values between these are spread evenly over the range of the data type, those outside are black or fully bright. *)
Lemma percentile_spec q l v : q <= 100 -> is_percentile q l v -> v = percentile q l.
Proof.
  intros Q (s & k & f & P & S & K & F & E & ->). assert (Ss : s = sort l).
  { apply sorted_unique; [rewrite P; symmetry; apply sort_permutation|assumption|]. intros; apply increasing_nth; [apply sort_increasing|assumption]. }
  assert (L : length l = length s) by (rewrite Ss; symmetry; apply sort_length).
  unfold percentile. rewrite L, <- E, <- Ss. pose proof (pos_INR k) as Pk.
  assert (T : Detector.trunc (INR k + f) = Z.of_nat k).
  { destruct (trunc_nonneg (INR k + f) ltac:(lra)) as ((A & B) & _). rewrite INR_IZR_INZ in A, B |- *.
    assert (Detector.trunc (IZR (Z.of_nat k) + f) < Z.of_nat k + 1)%Z by (apply lt_IZR; rewrite plus_IZR; lra).
    assert (Z.of_nat k < Detector.trunc (IZR (Z.of_nat k) + f) + 1)%Z by (apply lt_IZR; rewrite plus_IZR; lra). lia. }
  rewrite T, Nat2Z.id. replace (INR k + f - INR k) with f by ring.
  destruct (Nat.eq_dec (k + 1) (length s)) as [Ek|Nk].
  - replace (length s - 1)%nat with k in * by lia. rewrite Nat.min_r by lia.
    assert (q / 100 * INR k <= 1 * INR k) by (apply Rmult_le_compat_r; lra). assert (f = 0) as -> by lra. ring.
  - rewrite Nat.min_l by lia. ring.
Qed.
Theorem C84_percentiles : forall channels a b t bright contrast lo hi i p j x, rgb t -> a <= 100 -> b <= 100 -> lo < hi ->
  is_percentile a (concat channels) lo -> is_percentile b (concat channels) hi -> nth_error channels i = Some p -> nth_error p j = Some x ->
  exists c v, nth_error (get_rgb_image channels (Some (a, b)) false None t bright contrast) i = Some c /\ nth_error c j = Some (Some (IZR v))
  /\ IZR v <= highest t * (Rmin hi (Rmax lo x) - lo) / (hi - lo) < IZR v + 1.
Proof.
  intros chs a b t br k lo hi i p j x T A B LH LO HI P X. apply percentile_spec in LO; [|assumption]. apply percentile_spec in HI; [|assumption].
  unfold get_rgb_image. change (map (fun c => map Some c) chs) with (map (map (@Some R)) chs). unfold stretch. rewrite concat_some, all_defined_some, defined_some, <- LO, <- HI.
  destruct (rgb_range t T) as (Zt & M & n & En). rewrite !nth_error_map, P. cbn [option_map]. eexists. cbn [fst snd].
  set (w := highest t * (Rmin hi (Rmax lo x) - lo) / (hi - lo)). exists (Detector.trunc w).
  assert (C : lo <= Rmin hi (Rmax lo x)) by (apply Rmin_glb; [lra|apply Rmax_l]).
  assert (W : 0 <= w) by (unfold w; rewrite highest_eq; apply Rmult_le_pos; [apply Rmult_le_pos; lra|left; apply Rinv_0_lt_compat; lra]).
  split; [reflexivity|]. split; [|apply (trunc_nonneg w W)].
  rewrite !nth_error_map, X. cbn [option_map bind]. unfold quotient. destruct (Req_EM_T (hi - lo) 0); [lra|]. cbn [option_map]. do 2 f_equal.
  assert (Ew : (clip lo hi x - lo) / (hi - lo) * (dtype_max t - dtype_min t) + dtype_min t = w).
  { unfold w, clip. rewrite highest_eq, Zt. field. assumption. }
  rewrite Ew. unfold cast. destruct T as [->| ->]; reflexivity.
Qed.
Print Assumptions C84_percentiles.
Example C84_percentiles_example : is_percentile 50 [2; 0; 1] 1 /\ is_percentile 75 [2; 0; 1] (3 / 2).
Proof.
  assert (S : forall i j, (i <= j < length [0; 1; 2])%nat -> nth i [0; 1; 2] 0 <= nth j [0; 1; 2] 0) by (intros [|[|[|i]]] [|[|[|j]]] H; cbn in *; try lra; lia).
  assert (P : Permutation [0; 1; 2] [2; 0; 1]) by (apply Permutation_sym; change [0; 1; 2] with ([0; 1] ++ [2]); apply Permutation_cons_append).
  split; [exists [0; 1; 2], 1%nat, 0|exists [0; 1; 2], 1%nat, (1 / 2)]; (split; [exact P|split; [exact S|]]); cbn; repeat split; try lra; lia.
Qed.
