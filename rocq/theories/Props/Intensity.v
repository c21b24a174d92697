(** Intensity rescaling and background removal: properties C23 and C24. *)
From Coq Require Import List Reals ZArith Lra Lia Permutation Sorted.
From Verif Require Import Spec.Intensity Model.Pattern Model.Intensity Spec.DataTypes
  Proofs.PatternProofs Proofs.IntensityProofs Proofs.DataTypesProofs.
Import ListNotations.
Local Open Scope R_scope.

Lemma pixelwise_map f p : pixelwise f p (map f p).
Proof. split; [apply map_length|]. intros i x H. rewrite nth_error_map, H. reflexivity. Qed.
Lemma line_rescale imin imax omin omax x : imin <> imax ->
  line_through imin omin imax omax x = rescale_map imin imax omin omax x.
Proof. intros H. unfold line_through, rescale_map. field. lra. Qed.
Lemma is_min_vmin p m : is_min p m -> vmin p = m.
Proof. intros [H1 H2]. apply vmin_unique; assumption. Qed.
Lemma is_max_vmax p m : is_max p m -> vmax p = m.
Proof. intros [H1 H2]. apply vmax_unique; assumption. Qed.

Definition out_of (out_range : option (R * R)) (t : dtype) : R * R :=
  match out_range with None => (lowest t, highest t) | Some r => r end.

(** ** C23 *)

(** Without in_range: the pixel values go through the straight line that takes the pattern's
    minimum to the lower end of the output range and its maximum to the upper end, and are then
    cast to the data type. *)
Theorem C23_rescale_is_the_line_through_the_extremes :
  forall out_range t p lo hi,
    is_min p lo -> is_max p hi -> lo < hi ->
    pixelwise (fun x => cast t (line_through lo (fst (out_of out_range t)) hi (snd (out_of out_range t)) x))
              p (rescale_intensity None out_range t None p).
Proof.
  intros r t p lo hi H1 H2 H. rewrite rescale_default_eq.
  rewrite (is_min_vmin p lo H1), (is_max_vmax p hi H2). unfold out_of. rewrite lowest_eq, highest_eq.
  destruct r as [[omin omax]|]; simpl; (split; [apply map_length|]); intros i x Hx; rewrite nth_error_map, Hx;
    simpl; rewrite line_rescale by lra; reflexivity.
Qed.
Print Assumptions C23_rescale_is_the_line_through_the_extremes.

(** The result fills the output range exactly: all values in it, both ends reached. *)
Theorem C23_rescale_spans_output_range :
  forall out_range t p,
    ~ constant p -> fst (out_of out_range t) <= snd (out_of out_range t) ->
    representable t (fst (out_of out_range t)) -> representable t (snd (out_of out_range t)) ->
    spans (fst (out_of out_range t)) (snd (out_of out_range t)) (rescale_intensity None out_range t None p).
Proof.
  intros r t p Hc Ho R1 R2. rewrite rescale_default_eq, <- lowest_eq, <- highest_eq. fold (out_of r t).
  destruct (out_of r t) as [omin omax]. simpl in *.
  pose proof (vmin_lt_vmax p Hc) as Hlt. pose proof (not_constant_nonempty p Hc) as Hne.
  split; [|split].
  - intros y Hy. apply in_map_iff in Hy as (x & <- & Hx).
    apply cast_between; [exact R1|exact R2|].
    apply (rescale_map_range (vmin p) (vmax p) omin omax x Hlt Ho
             (conj (vmin_le p x Hx) (vmax_ge p x Hx))).
  - apply in_map_iff. exists (vmin p). split; [|apply vmin_in; exact Hne].
    rewrite rescale_map_min. apply cast_representable. exact R1.
  - apply in_map_iff. exists (vmax p). split; [|apply vmax_in; exact Hne].
    rewrite rescale_map_max by lra. apply cast_representable. exact R2.
Qed.
Print Assumptions C23_rescale_spans_output_range.
(** In particular the whole range of the data type. *)
Corollary C23_rescale_spans_dtype_range :
  forall t p, ~ constant p -> spans (lowest t) (highest t) (rescale_intensity None None t None p).
Proof.
  intros t p H. pose proof (dtype_min_lt_max t). pose proof (lowest_eq t). pose proof (highest_eq t).
  apply (C23_rescale_spans_output_range None t p H); simpl; [lra| |]; [rewrite lowest_eq|rewrite highest_eq]; apply representable_IZR.
Qed.

(** Order of pixels is kept, with or without in_range: brighter pixels never become darker ones. *)
Theorem C23_order_kept :
  forall in_range out_range t p,
    fst (out_of out_range t) <= snd (out_of out_range t) ->
    match in_range with None => ~ constant p | Some (a, b) => a < b end ->
    exists f, nondecreasing f /\ pixelwise f p (rescale_intensity in_range out_range t None p).
Proof.
  intros [[a b]|] r t p Ho Hr.
  - rewrite rescale_in_range_eq, <- lowest_eq, <- highest_eq. fold (out_of r t). destruct (out_of r t) as [omin omax]. simpl in Ho.
    eexists. split; [|apply pixelwise_map].
    intros x y H. simpl. apply cast_le, rescale_map_mono; [exact Hr|exact Ho|apply clip_mono; exact H].
  - rewrite rescale_default_eq, <- lowest_eq, <- highest_eq. fold (out_of r t). destruct (out_of r t) as [omin omax]. simpl in Ho.
    eexists. split; [|apply pixelwise_map]. intros x y H. simpl. apply cast_le, rescale_map_mono; [|exact Ho|exact H].
    apply vmin_lt_vmax. exact Hr.
Qed.
(** For floating point output it is kept strictly. *)
Theorem C23_order_kept_strictly_float :
  forall out_range t p i j x y x' y', is_float t = true ->
    fst (out_of out_range t) < snd (out_of out_range t) -> ~ constant p ->
    nth_error p i = Some x -> nth_error p j = Some y ->
    nth_error (rescale_intensity None out_range t None p) i = Some x' ->
    nth_error (rescale_intensity None out_range t None p) j = Some y' ->
    (x < y <-> x' < y').
Proof.
  intros r t p i j x y x' y' Hf Ho Hc Hi Hj. rewrite rescale_default_eq, <- lowest_eq, <- highest_eq. fold (out_of r t).
  destruct (out_of r t) as [omin omax]. simpl in Ho.
  rewrite !nth_error_map, Hi, Hj. simpl. intros E1 E2. injection E1 as <-. injection E2 as <-.
  unfold cast. rewrite Hf. pose proof (vmin_lt_vmax p Hc) as Hlt. split; intros H.
  - apply rescale_map_strict; assumption.
  - destruct (Rlt_le_dec x y) as [|Hle]; [assumption|].
    pose proof (rescale_map_mono (vmin p) (vmax p) omin omax y x Hlt ltac:(lra) Hle). lra.
Qed.

(** With in_range: values outside are clipped to it, its ends go to the ends of the output range,
    and everything stays in the output range. *)
Theorem C23_in_range_clips_and_maps_ends :
  forall a b out_range t p, a < b ->
    fst (out_of out_range t) <= snd (out_of out_range t) ->
    representable t (fst (out_of out_range t)) -> representable t (snd (out_of out_range t)) ->
    let q := rescale_intensity (Some (a, b)) out_range t None p in
    within (fst (out_of out_range t)) (snd (out_of out_range t)) q
    /\ length q = length p
    /\ (forall i x, nth_error p i = Some x -> x <= a -> nth_error q i = Some (fst (out_of out_range t)))
    /\ (forall i x, nth_error p i = Some x -> b <= x -> nth_error q i = Some (snd (out_of out_range t)))
    /\ (forall i x, nth_error p i = Some x -> a <= x <= b ->
          nth_error q i = Some (cast t (line_through a (fst (out_of out_range t)) b (snd (out_of out_range t)) x))).
Proof.
  intros a b r t p Hab Ho R1 R2 q. unfold q. rewrite rescale_in_range_eq, <- lowest_eq, <- highest_eq. fold (out_of r t).
  destruct (out_of r t) as [omin omax]. simpl in *.
  split; [|split; [|split; [|split]]].
  - intros x H. apply in_map_iff in H as (y & <- & Hy).
    apply cast_between; [exact R1|exact R2|].
    apply rescale_map_range; [exact Hab|exact Ho|]. apply clip_range. lra.
  - apply map_length.
  - intros i x Hx Hle. rewrite nth_error_map, Hx. simpl. f_equal.
    replace (clip a b x) with a.
    + rewrite rescale_map_min. apply cast_representable. exact R1.
    + unfold clip. rewrite Rmax_left by exact Hle. rewrite Rmin_right by lra. reflexivity.
  - intros i x Hx Hle. rewrite nth_error_map, Hx. simpl. f_equal.
    replace (clip a b x) with b.
    + rewrite rescale_map_max by lra. apply cast_representable. exact R2.
    + unfold clip. rewrite Rmax_right by lra. rewrite Rmin_left by lra. reflexivity.
  - intros i x Hx Hin. rewrite nth_error_map, Hx. simpl. f_equal.
    rewrite clip_inside by exact Hin. rewrite line_rescale by lra. reflexivity.
Qed.
Print Assumptions C23_in_range_clips_and_maps_ends.

(** Rescaling twice is rescaling once. *)
Theorem C23_rescale_twice_is_once :
  forall out_range t p,
    ~ constant p -> fst (out_of out_range t) < snd (out_of out_range t) ->
    representable t (fst (out_of out_range t)) -> representable t (snd (out_of out_range t)) ->
    rescale_intensity None out_range t None (rescale_intensity None out_range t None p)
    = rescale_intensity None out_range t None p.
Proof.
  intros r t p Hc Ho R1 R2.
  assert (S : spans (fst (out_of r t)) (snd (out_of r t)) (rescale_intensity None r t None p)).
  { apply C23_rescale_spans_output_range; try assumption. lra. }
  destruct S as (S1 & S2 & S3).
  set (q := rescale_intensity None r t None p) in *.
  assert (Emin : vmin q = fst (out_of r t)).
  { apply vmin_unique; [exact S2|]. intros x Hx. apply S1. exact Hx. }
  assert (Emax : vmax q = snd (out_of r t)).
  { apply vmax_unique; [exact S3|]. intros x Hx. apply S1. exact Hx. }
  rewrite rescale_default_eq, <- lowest_eq, <- highest_eq. fold (out_of r t). rewrite Emin, Emax.
  assert (Hq : forall x, In x q -> cast t x = x).
  { intros x Hx. unfold q in Hx. rewrite rescale_default_eq, <- lowest_eq, <- highest_eq in Hx. fold (out_of r t) in Hx.
    destruct (out_of r t). apply in_map_iff in Hx as (y & <- & _). apply cast_idem. }
  destruct (out_of r t) as [omin omax]. simpl in *.
  transitivity (map (fun x : R => x) q); [|apply map_id].
  apply map_ext_in. intros x Hx. rewrite rescale_map_id by lra. apply Hq. exact Hx.
Qed.
Print Assumptions C23_rescale_twice_is_once.

(** Percentiles (0, 100) are the same as none, and any percentiles are inside the pattern's range. *)
Theorem C23_percentiles :
  forall out_range t p,
    p <> [] -> rescale_intensity None out_range t (Some (0, 100)) p = rescale_intensity None out_range t None p.
Proof.
  intros r t p H. unfold rescale_intensity. rewrite percentile_0, percentile_100 by exact H.
  replace (map (clip (vmin p) (vmax p)) p) with p; [reflexivity|].
  transitivity (map (fun x : R => x) p); [symmetry; apply map_id|].
  apply map_ext_in. intros x Hx. symmetry. apply clip_inside. split; [apply vmin_le|apply vmax_ge]; exact Hx.
Qed.
Theorem C23_percentile_in_pattern_range :
  forall q p lo hi, is_min p lo -> is_max p hi -> 0 <= q <= 100 -> lo <= percentile q p <= hi.
Proof.
  intros q p lo hi H1 H2 Hq. rewrite <- (is_min_vmin p lo H1), <- (is_max_vmax p hi H2).
  apply percentile_range; [|exact Hq]. intros ->. destruct H1 as [[] _].
Qed.

(** A percentile is the value at that fraction of the way through the sorted pixels, in between two of them by linear
    interpolation. *)
Theorem C23_percentile_is_in_sorted_order :
  forall q p s k f, 0 <= q <= 100 -> p <> [] -> Permutation p s -> Sorted Rle s ->
    q / 100 * INR (length p - 1) = INR k + f -> 0 <= f < 1 ->
    percentile q p = (1 - f) * nth k s 0 + f * nth (k + 1) s 0.
Proof.
  intros q p s k f Hq Hp HP HS E Hf.
  assert (Es : sort p = s).
  { apply increasing_unique; [apply sort_increasing| |].
    - apply Sorted_increasing. exact HS.
    - rewrite sort_permutation. exact HP. }
  assert (Hn : (0 < length p)%nat) by (destruct p; [congruence|simpl; lia]).
  unfold percentile. rewrite Es, E.
  assert (T : Detector.trunc (INR k + f) = Z.of_nat k).
  { unfold Detector.trunc. pose proof (pos_INR k). destruct (Rle_dec 0 (INR k + f)) as [_|Q]; [|exfalso; lra].
    assert (U : up (INR k + f) = (Z.of_nat k + 1)%Z).
    { symmetry. apply tech_up; rewrite plus_IZR, <- INR_IZR_INZ; lra. }
    rewrite U. lia. }
  rewrite T, Nat2Z.id.
  assert (K : INR k + f <= INR (length p - 1)).
  { rewrite <- E. pose proof (pos_INR (length p - 1)). rewrite <- (Rmult_1_l (INR (length p - 1))) at 2. apply Rmult_le_compat_r; lra. }
  assert (Kn : (k <= length p - 1)%nat) by (apply INR_le; lra).
  destruct (Nat.eq_dec k (length p - 1)) as [Z|Z].
  - assert (f = 0) by (rewrite Z in K; lra). subst f. ring.
  - replace (Nat.min (k + 1) (length p - 1)) with (k + 1)%nat by lia. ring.
Qed.
Example C23_percentile_case : percentile 60 [7; 1; 3] = (1 - 1 / 5) * 3 + 1 / 5 * 7.
Proof.
  apply (C23_percentile_is_in_sorted_order 60 [7; 1; 3] [1; 3; 7] 1 (1 / 5)); try lra; [discriminate| | |simpl; lra].
  - apply (Permutation_cons_app [1; 3] []). apply Permutation_refl.
  - repeat constructor; lra.
Qed.
(** With percentiles order is kept too, values below the lower or above the upper percentile are clipped, and everything
    in between is on the straight line through the ends. *)
Theorem C23_percentiles_clip_and_map_ends :
  forall a b out_range t p, percentile a p < percentile b p ->
    fst (out_of out_range t) <= snd (out_of out_range t) ->
    representable t (fst (out_of out_range t)) -> representable t (snd (out_of out_range t)) ->
    let q := rescale_intensity None out_range t (Some (a, b)) p in
    (exists g, nondecreasing g /\ pixelwise g p q) /\
    within (fst (out_of out_range t)) (snd (out_of out_range t)) q /\
    forall i x, nth_error p i = Some x ->
      (x <= percentile a p -> nth_error q i = Some (fst (out_of out_range t))) /\
      (percentile b p <= x -> nth_error q i = Some (snd (out_of out_range t))) /\
      (percentile a p <= x <= percentile b p ->
         nth_error q i = Some (cast t (line_through (percentile a p) (fst (out_of out_range t)) (percentile b p) (snd (out_of out_range t)) x))).
Proof.
  intros a b r t p H Ho R1 R2 q.
  change q with (rescale_intensity (Some (percentile a p, percentile b p)) r t None p).
  split; [apply C23_order_kept; auto|].
  destruct (C23_in_range_clips_and_maps_ends _ _ r t p H Ho R1 R2) as (W & _ & A & B & C).
  split; [exact W|]. intros i x Hx. split; [|split]; intros; [apply (A i x)|apply (B i x)|apply (C i x)]; auto.
Qed.

(** relative=True: one and the same line for all patterns, through the extremes of the whole
    signal, so that order is kept across patterns too, and the signal spans the range. *)
Theorem C23_relative_uses_one_map :
  forall out_range t data lo hi out,
    is_min (concat data) lo -> is_max (concat data) hi -> lo < hi ->
    rescale_signal true None out_range t None data = Some out ->
    length out = length data /\
    forall i p, nth_error data i = Some p ->
      exists q, nth_error out i = Some q
        /\ pixelwise (fun x => cast t (line_through lo (fst (out_of out_range t)) hi (snd (out_of out_range t)) x)) p q.
Proof.
  intros r t data lo hi out H1 H2 Hlt H. unfold rescale_signal in H. injection H as <-.
  rewrite (is_min_vmin _ lo H1), (is_max_vmax _ hi H2).
  split; [apply map_length|]. intros i p Hp. rewrite nth_error_map, Hp. simpl.
  eexists. split; [reflexivity|]. rewrite rescale_in_range_eq.
  assert (Hin : forall x, In x p -> lo <= x <= hi).
  { intros x Hx. assert (In x (concat data)).
    { apply in_concat. exists p. split; [eapply nth_error_In; exact Hp|exact Hx]. }
    split; [apply H1|apply H2]; assumption. }
  unfold out_of. rewrite ?lowest_eq, ?highest_eq. destruct r as [[omin omax]|]; simpl.
  - split; [apply map_length|]. intros j x Hj. rewrite nth_error_map, Hj. simpl.
    rewrite clip_inside by (apply Hin; eapply nth_error_In; exact Hj).
    rewrite line_rescale by lra. reflexivity.
  - split; [apply map_length|]. intros j x Hj. rewrite nth_error_map, Hj. simpl.
    rewrite clip_inside by (apply Hin; eapply nth_error_In; exact Hj).
    rewrite line_rescale by lra. reflexivity.
Qed.
Print Assumptions C23_relative_uses_one_map.
(** Options that contradict each other are refused... *)
Theorem C23_in_range_with_relative_refused :
  forall r out_range t pc data, rescale_signal true (Some r) out_range t pc data = None
    /\ forall rel q, rescale_signal rel (Some r) out_range t (Some q) data = None.
Proof. intros r o t [q|] data; split; reflexivity. Qed.
(** ... except relative=True with percentiles (documented as not allowed), which is accepted and
    drops the relative intensities: the result is that of relative=False. *)
Theorem C23_relative_with_percentiles_refuted :
  forall out_range t q data,
    exists out, rescale_signal true None out_range t (Some q) data = Some out
      /\ rescale_signal false None out_range t (Some q) data = Some out.
Proof.
  intros o t q data. unfold rescale_signal. eexists. split; reflexivity.
Qed.
(** So patterns of quite different brightness become the same. *)
Definition dark : pattern := [0; 1; 2].
Definition bright : pattern := [10; 20; 30].
Example C23_case : ~ constant dark /\ is_min (concat [dark; bright]) 0 /\ is_max (concat [dark; bright]) 30
  /\ is_min dark 0 /\ is_max dark 2.
Proof.
  split; [apply (not_constant_pair _ 0 1); simpl; [tauto|tauto|lra]|].
  repeat apply conj; try (simpl; tauto);
    intros x Hx; simpl in Hx; intuition lra.
Qed.

(** ** C24 *)

Lemma rescaled_spans t p :
  ~ constant p -> spans (dtype_min t) (dtype_max t)
    (map (cast t) (rescale_with_min_max (vmin p) (vmax p) (dtype_min t) (dtype_max t) p)).
Proof. rewrite <- lowest_eq, <- highest_eq at 1. exact (C23_rescale_spans_dtype_range t p). Qed.

(** The corrected pattern before rescaling: pixel by pixel difference or quotient with the
    background. *)
Definition corrected (op : operation) (p bg c : pattern) : Prop :=
  length c = length p /\
  forall i x b, nth_error p i = Some x -> nth_error bg i = Some b ->
    nth_error c i = Some (match op with Subtract => x - b | Divide => x / b end).
Lemma combine_pixels_corrected op p bg : length p = length bg -> corrected op p bg (combine_pixels op p bg).
Proof.
  intros H. split; [apply combine_pixels_length; exact H|].
  unfold combine_pixels. revert bg H. induction p as [|y p IH]; intros [|c bg] H i x b Hx Hb; simpl in *;
    try (destruct i; discriminate).
  destruct i as [|i]; simpl in *.
  - injection Hx as ->. injection Hb as ->. destruct op; reflexivity.
  - apply IH; [lia|exact Hx|exact Hb].
Qed.
Lemma corrected_unique op p bg c c' : length p = length bg -> corrected op p bg c -> corrected op p bg c' -> c = c'.
Proof.
  intros H [L1 H1] [L2 H2]. apply (nth_ext c c' 0 0); [congruence|]. intros i Hi.
  destruct (nth_error p i) as [x|] eqn:Ex; [|apply nth_error_None in Ex; lia].
  destruct (nth_error bg i) as [b|] eqn:Eb; [|apply nth_error_None in Eb; lia].
  erewrite (nth_error_nth c i 0) by (apply H1; eassumption).
  erewrite (nth_error_nth c' i 0) by (apply H2; eassumption). reflexivity.
Qed.

(** Static background: every pattern of the result is the corrected pattern rescaled linearly to
    exactly the range of the data type; the background used is the given one, or with scale_bg the
    background rescaled linearly to the range of that pattern. *)
Theorem C24_static_background_spans_dtype_range :
  forall op t scale_bg shape bg data out,
    remove_static_background op t t scale_bg shape shape (Some bg) data = Some out ->
    length out = length data /\
    forall i p c lo hi bg', nth_error data i = Some p -> length p = length bg ->
      is_min c lo -> is_max c hi -> lo < hi ->
      corrected op p bg' c ->
      (if scale_bg
       then exists bl bh pl ph, is_min bg bl /\ is_max bg bh /\ is_min p pl /\ is_max p ph /\ bl < bh
              /\ pixelwise (line_through bl pl bh ph) bg bg'
       else bg' = bg) ->
      exists q, nth_error out i = Some q /\ spans (lowest t) (highest t) q
        /\ pixelwise (fun x => cast t (line_through lo (lowest t) hi (highest t) x)) c q.
Proof.
  intros op t sb shape bg data out H. rewrite lowest_eq, highest_eq.
  assert (Eo : out = map (fun p => fst (remove_static_background_1 op t (dtype_min t) (dtype_max t) sb bg p)) data).
  { unfold remove_static_background in H. rewrite !Nat.eqb_refl in H. simpl in H.
    destruct t; injection H as <-; reflexivity. }
  subst out. split; [apply map_length|]. intros i p c lo hi bg' Hp Hl Hlo Hhi Hlt Hc Hbg.
  rewrite nth_error_map, Hp. simpl. eexists. split; [reflexivity|].
  assert (Eb : bg' = if sb then rescale_with_min_max (vmin bg) (vmax bg) (vmin p) (vmax p) bg else bg).
  { destruct sb; [|exact Hbg]. destruct Hbg as (bl & bh & pl & ph & B1 & B2 & B3 & B4 & B5 & L & B6).
    rewrite (is_min_vmin bg bl B1), (is_max_vmax bg bh B2), (is_min_vmin p pl B3), (is_max_vmax p ph B4).
    unfold rescale_with_min_max. apply (nth_ext _ _ 0 0); [rewrite map_length; exact L|].
    intros k Hk. destruct (nth_error bg k) as [b|] eqn:Eb; [|apply nth_error_None in Eb; lia].
    erewrite nth_error_nth by (apply B6; exact Eb).
    erewrite nth_error_nth by (rewrite nth_error_map, Eb; reflexivity).
    rewrite line_rescale by lra. reflexivity. }
  rewrite <- Eb.
  assert (Hl' : length p = length bg').
  { rewrite Eb. destruct sb; [unfold rescale_with_min_max; rewrite map_length|]; exact Hl. }
  assert (Ec : c = combine_pixels op p bg').
  { apply (corrected_unique op p bg'); [exact Hl'|exact Hc|apply combine_pixels_corrected; exact Hl']. }
  rewrite <- Ec.
  assert (Hn : ~ constant c).
  { apply (not_constant_pair c lo hi); [apply Hlo|apply Hhi|lra]. }
  split; [apply rescaled_spans; exact Hn|].
  rewrite (is_min_vmin c lo Hlo), (is_max_vmax c hi Hhi).
  split; [unfold rescale_with_min_max; rewrite !map_length; reflexivity|].
  intros k x Hk. unfold rescale_with_min_max. rewrite !nth_error_map, Hk. simpl.
  rewrite line_rescale by lra. reflexivity.
Qed.
Print Assumptions C24_static_background_spans_dtype_range.

(** Dynamic background, whatever blur is used. *)
Theorem C24_dynamic_background_spans_dtype_range :
  forall op t blur data i p c lo hi,
    nth_error data i = Some p -> length (blur p) = length p ->
    corrected op p (blur p) c -> is_min c lo -> is_max c hi -> lo < hi ->
    exists q, nth_error (remove_dynamic_background_signal op t blur data) i = Some q
      /\ spans (lowest t) (highest t) q
      /\ pixelwise (fun x => cast t (line_through lo (lowest t) hi (highest t) x)) c q.
Proof.
  intros op t blur data i p c lo hi Hp Hl Hc Hlo Hhi Hlt. rewrite lowest_eq, highest_eq.
  unfold remove_dynamic_background_signal. rewrite nth_error_map, Hp. simpl.
  assert (Ec : c = combine_pixels op p (blur p)).
  { apply (corrected_unique op p (blur p)); [lia|exact Hc|apply combine_pixels_corrected; lia]. }
  rewrite <- Ec. eexists. split; [reflexivity|].
  assert (Hn : ~ constant c) by (apply (not_constant_pair c lo hi); [apply Hlo|apply Hhi|lra]).
  split; [apply rescaled_spans; exact Hn|].
  rewrite (is_min_vmin c lo Hlo), (is_max_vmax c hi Hhi).
  split; [unfold rescale_with_min_max; rewrite !map_length; reflexivity|].
  intros k x Hk. unfold rescale_with_min_max. rewrite !nth_error_map, Hk. simpl.
  rewrite line_rescale by lra. reflexivity.
Qed.
Print Assumptions C24_dynamic_background_spans_dtype_range.

(** Caller's arrays: the functions used by the signal methods leave the pattern they get as it
    was. *)
Theorem C24_signal_methods_leave_input_pattern :
  forall op t omin omax sb bg blur p,
    snd (remove_static_background_1 op t omin omax sb bg p) = p
    /\ snd (remove_dynamic_background_1 op t omin omax blur p) = p.
Proof. intros. split; reflexivity. Qed.
(** But kikuchipy.pattern.remove_dynamic_background changes the array passed to it: it holds the
    pattern minus its background afterwards, so something else unless the background is zero. *)
Theorem C24_pattern_function_changes_its_argument_refuted :
  forall t blur p i x b, length (blur p) = length p ->
    nth_error p i = Some x -> nth_error (blur p) i = Some b -> b <> 0 ->
    snd (remove_dynamic_background Subtract t blur p) <> p.
Proof.
  intros t blur p i x b Hl Hx Hb Hn E.
  assert (E' : combine_pixels Subtract p (blur p) = p) by exact E.
  pose proof (combine_pixels_corrected Subtract p (blur p) ltac:(lia)) as [_ H].
  specialize (H i x b Hx Hb). rewrite E', Hx in H. injection H as H. lra.
Qed.
Print Assumptions C24_pattern_function_changes_its_argument_refuted.
(** A background of another data type or shape, or none, is refused. *)
Theorem C24_background_must_fit :
  forall op t bt sb shape bshape bg data out,
    remove_static_background op t bt sb shape bshape bg data = Some out -> bt = t /\ bshape = shape /\ bg <> None.
Proof.
  intros op t bt sb [a b] [a' b'] bg data out H. unfold remove_static_background in H.
  destruct bg as [bg|]; [|discriminate]. simpl in H.
  assert (Et : bt = t) by (destruct t, bt; try reflexivity; discriminate).
  split; [exact Et|]. split; [|discriminate]. subst bt.
  destruct (Nat.eqb_spec a a') as [->|]; [|destruct t; discriminate].
  destruct (Nat.eqb_spec b b') as [->|]; [|destruct t; discriminate]. reflexivity.
Qed.

Example C24_case :
  let bg := [1; 3; 2; 4] in let p := [10; 20; 31; 12] in
  exists out, remove_static_background Subtract UInt8 UInt8 false (2, 2)%nat (2, 2)%nat (Some bg) [p] = Some out
    /\ is_min [9; 17; 29; 8] 8 /\ is_max [9; 17; 29; 8] 29 /\ corrected Subtract p bg [9; 17; 29; 8].
Proof.
  simpl. eexists. split; [reflexivity|].
  split; [|split].
  - split; [simpl; tauto|]. intros x Hx. simpl in Hx. intuition lra.
  - split; [simpl; tauto|]. intros x Hx. simpl in Hx. intuition lra.
  - split; [reflexivity|]. intros i x b Hx Hb.
    do 4 (destruct i as [|i]; [simpl in *; injection Hx as <-; injection Hb as <-; f_equal; lra|]).
    destruct i; discriminate.
Qed.
