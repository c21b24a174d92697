(** C98: colour navigators. *)
From Coq Require Import List Reals ZArith Lra Lia.
From Verif Require Import Spec.DataTypes Spec.RgbNavigatorSpec Model.Pattern Model.Intensity Model.RgbNavigator
  Proofs.PatternProofs Proofs.IntensityProofs Proofs.DataTypesProofs.
From Verif Require Model.Detector.
Import ListNotations.
Local Open Scope R_scope.

Lemma in_values image x : In x (values image) <-> channel_of image x.
Proof.
  unfold values, channel_of, pixel. rewrite in_flat_map. split.
  - intros (a & I & J). apply in_concat in I. destruct I as (row & Ir & Ia). apply In_nth_error in Ir. apply In_nth_error in Ia.
    destruct Ir as [r Hr], Ia as [c Hc]. exists r, c, a. rewrite Hr. split; [exact Hc|]. cbn in J. intuition auto.
  - intros (r & c & a & H & J). destruct (nth_error image r) as [row|] eqn:E; [|discriminate]. exists a. split.
    + apply in_concat. exists row. split; [now apply nth_error_In in E|now apply nth_error_In in H].
    + cbn. intuition auto.
Qed.
Lemma mapped_pixel f image r c : pixel (map (map f) image) r c = option_map f (pixel image r c).
Proof. unfold pixel. rewrite nth_error_map. destruct (nth_error image r) as [row|]; cbn; [apply nth_error_map|reflexivity]. Qed.
Lemma mapped_shape f (image : list (list rgb)) : length (map (map f) image) = length image /\
  forall r, option_map (@length rgb) (nth_error (map (map f) image) r) = option_map (@length rgb) (nth_error image r).
Proof. split; [apply map_length|]. intros r. rewrite nth_error_map. destruct (nth_error image r); cbn; [now rewrite map_length|reflexivity]. Qed.

Definition navigator_type (t : dtype) : Prop := t = UInt8 \/ t = UInt16.
Lemma navigator_type_facts t : navigator_type t -> is_float t = false /\ dtype_min t = 0 /\ 0 < dtype_max t.
Proof. intros [-> | ->]; unfold dtype_min, dtype_max; cbn; repeat split; lra. Qed.

(** An image whose channels are between 0 and 1, black and full brightness included, is shown as it is: each pixel in its
    row and column with its colour, to the next lower of 256 or 65536 levels. *)
Theorem C98_full_range_image_is_shown image t : navigator_type t -> unit_image image -> channel_of image 0 -> channel_of image 1 ->
  exists shown, get_rgb_navigator image t = Some shown /\ shows_image (highest t) image shown.
Proof.
  intros T U Z O. destruct (navigator_type_facts t T) as (F & Mn & Mx).
  assert (Lo : vmin (values image) = 0) by (apply vmin_unique; [now apply in_values|intros x I; apply in_values in I; now apply U]).
  assert (Hi : vmax (values image) = 1) by (apply vmax_unique; [now apply in_values|intros x I; apply in_values in I; now apply U]).
  assert (Top : highest t = dtype_max t) by (rewrite highest_eq; reflexivity).
  assert (G : get_rgb_navigator image t = Some (map (map (map_rgb (fun x => cast t (rescale_value 0 1 0 (dtype_max t) x)))) image)).
  { unfold get_rgb_navigator. rewrite Lo, Hi, Mn. destruct T as [-> | ->]; reflexivity. }
  eexists. split; [exact G|]. destruct (mapped_shape (map_rgb (fun x => cast t (rescale_value 0 1 0 (dtype_max t) x))) image) as [S1 S2].
  split; [exact S1|]. split; [exact S2|]. intros r c a P. rewrite mapped_pixel, P. eexists. split; [reflexivity|].
  assert (Q : forall x, channel_of image x -> shows (highest t) x (cast t (rescale_value 0 1 0 (dtype_max t) x))).
  { intros x I. apply U in I. unfold rescale_value. rewrite (clip_inside 0 1 x I). destruct (Req_EM_T 0 1) as [E|_]; [lra|].
    unfold cast. rewrite F. replace ((x - 0) / (1 - 0) * (dtype_max t - 0) + 0) with (x * dtype_max t) by field. unfold shows. rewrite Top.
    apply trunc_nonneg. nra. }
  unfold shows_colour, map_rgb. cbn [red green blue]. repeat split; apply Q; exists r, c, a; auto.
Qed.
Definition coloured : list (list rgb) := [[Rgb 1 0 0; Rgb (1 / 2) (1 / 4) 1; Rgb 0 1 0]; [Rgb 0 0 0; Rgb 1 1 1; Rgb (1 / 10) 0 (9 / 10)]].
Example C98_full_range_case : unit_image coloured /\ channel_of coloured 0 /\ channel_of coloured 1.
Proof.
  split; [|split; apply in_values; cbn; auto].
  intros x I. apply in_values in I. cbn in I. repeat (destruct I as [<-|I]; [lra|]). destruct I.
Qed.
Print Assumptions C98_full_range_image_is_shown.

(** Every image keeps its shape, and its channels their order, over all pixels and channels; the darkest channel is shown as 0 and
    the brightest as the largest number, if they are different. *)
Theorem C98_order_and_range image t shown lo hi : get_rgb_navigator image t = Some shown ->
  channel_of image lo -> channel_of image hi -> (forall x, channel_of image x -> lo <= x <= hi) -> lo < hi ->
  exists f, (forall x y, x <= y -> f x <= f y) /\ f lo = 0 /\ f hi = highest t /\ shown = map (map (map_rgb f)) image.
Proof.
  intros G L H B D.
  assert (T : navigator_type t) by (destruct t; try discriminate; [now left|now right]). destruct (navigator_type_facts t T) as (F & Mn & Mx).
  assert (Lo : vmin (values image) = lo) by (apply vmin_unique; [now apply in_values|intros x I; apply in_values in I; now apply B]).
  assert (Hi : vmax (values image) = hi) by (apply vmax_unique; [now apply in_values|intros x I; apply in_values in I; now apply B]).
  assert (Top : highest t = dtype_max t) by (rewrite highest_eq; reflexivity).
  exists (fun x => cast t (rescale_value lo hi 0 (dtype_max t) x)).
  assert (E : forall x, rescale_value lo hi 0 (dtype_max t) x = (clip lo hi x - lo) / (hi - lo) * dtype_max t).
  { intros x. unfold rescale_value. destruct (Req_EM_T lo hi); [lra|]. lra. }
  split; [|split; [|split]].
  - intros x y XY. apply cast_le. rewrite !E. apply Rmult_le_compat_r; [lra|]. apply Rmult_le_compat_r; [left; apply Rinv_0_lt_compat; lra|].
    pose proof (clip_mono lo hi x y XY). lra.
  - rewrite E, clip_inside by lra. replace ((lo - lo) / (hi - lo) * dtype_max t) with 0 by (field; lra). apply (cast_IZR t 0).
  - rewrite E, clip_inside by lra. replace ((hi - lo) / (hi - lo) * dtype_max t) with (dtype_max t) by (field; lra). rewrite Top. apply cast_IZR.
  - unfold get_rgb_navigator in G. rewrite Lo, Hi, Mn in G. destruct T as [-> | ->]; injection G as <-; reflexivity.
Qed.
Example C98_order_case : exists shown, get_rgb_navigator coloured UInt16 = Some shown.
Proof. eexists. reflexivity. Qed.
Print Assumptions C98_order_and_range.

(** Images that do not reach both ends are stretched: a grey level and its double are shown black and white. *)
Theorem C98_dull_image_refuted : exists image t shown a b, unit_image image /\ pixel image 0 0 = Some a /\ red a = 1 / 2 /\ green a = 1 / 2 /\ blue a = 1 / 2
  /\ get_rgb_navigator image t = Some shown /\ pixel shown 0 0 = Some b /\ red b = highest t.
Proof.
  exists [[Rgb (1 / 2) (1 / 2) (1 / 2); Rgb (1 / 4) (1 / 4) (1 / 4)]], UInt8.
  set (image := [[Rgb (1 / 2) (1 / 2) (1 / 2); Rgb (1 / 4) (1 / 4) (1 / 4)]]).
  assert (B : forall x, channel_of image x -> 1 / 4 <= x <= 1 / 2).
  { intros x I. apply in_values in I. cbn in I. repeat (destruct I as [<-|I]; [lra|]). destruct I. }
  assert (G : exists s, get_rgb_navigator image UInt8 = Some s) by (eexists; reflexivity). destruct G as [s G].
  destruct (C98_order_and_range image UInt8 s (1 / 4) (1 / 2) G) as (f & _ & _ & H & E); [apply in_values; cbn; auto|apply in_values; cbn; auto|exact B|lra|].
  exists s. do 2 eexists. split; [intros x I; specialize (B x I); lra|]. split; [reflexivity|]. repeat (split; [reflexivity|]). split; [exact G|].
  rewrite E. split; [reflexivity|]. exact H.
Qed.
(** An image of one grey level, but black, becomes black. *)
Theorem C98_grey_image_refuted x t : navigator_type t -> 0 < x < 1 ->
  get_rgb_navigator [[Rgb x x x]] t = Some [[Rgb 0 0 0]].
Proof.
  intros T X. assert (Lo : vmin (values [[Rgb x x x]]) = x) by (apply vmin_unique; cbn; [auto|intros y I; intuition lra]).
  assert (Hi : vmax (values [[Rgb x x x]]) = x) by (apply vmax_unique; cbn; [auto|intros y I; intuition lra]).
  destruct (navigator_type_facts t T) as (F & Mn & Mx).
  assert (C : cast t (rescale_value x x 0 (dtype_max t) x) = 0).
  { assert (1 <= dtype_max t) by (destruct T as [-> | ->]; unfold dtype_max; cbn; lra).
    unfold rescale_value. rewrite (clip_inside x x x) by lra. destruct (Req_EM_T x x) as [_|N]; [|lra]. rewrite clip_inside by lra. unfold cast. rewrite F.
    destruct (trunc_nonneg x) as [[A B] C]; [lra|]. f_equal. apply IZR_le in C.
    assert (Detector.trunc x < 1)%Z by (apply lt_IZR; lra). assert (0 <= Detector.trunc x)%Z by now apply le_IZR. lia. }
  unfold get_rgb_navigator. rewrite Lo, Hi, Mn. destruct T as [-> | ->]; cbn [map map_rgb red green blue]; unfold map_rgb; cbn [red green blue]; now rewrite C.
Qed.
Example C98_grey_case : navigator_type UInt16 /\ 0 < 1 / 2 < 1.
Proof. split; [now right|lra]. Qed.
Print Assumptions C98_grey_image_refuted.

(** Only the two data types are accepted. *)
Theorem C98_data_types image t : get_rgb_navigator image t = None <-> ~ navigator_type t.
Proof. unfold navigator_type. destruct t; cbn; (split; [try discriminate; intros _ [H|H]; discriminate|]); intros H; try reflexivity; exfalso; apply H; auto. Qed.
Print Assumptions C98_data_types.
