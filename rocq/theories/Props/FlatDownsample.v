(** Downsampling and patterns without contrast between blocks: property C112. *)
From Coq Require Import List Arith ZArith Reals Bool Lra Lia.
From Verif Require Import Model.Pattern Model.Intensity Model.MapOverlap Model.Downsample Model.FlatPatterns Model.FlatDownsample
  Spec.Tiles Spec.Blocks Proofs.PatternProofs Proofs.IntensityProofs Proofs.DownsampleProofs Props.FlatPatterns.
Import ListNotations.
Local Open Scope R_scope.

(** ** Specification *)

(** All blocks of an image are equally bright. *)
Definition equal_blocks (f ny nx : nat) (p : nat -> nat -> R) : Prop :=
  forall r c r' c', (r < ny / f)%nat -> (c < nx / f)%nat -> (r' < ny / f)%nat -> (c' < nx / f)%nat ->
    block_mean f p r c = block_mean f p r' c'.
(** Pixels at some two places differ. *)
Definition has_contrast (ny nx : nat) (p : nat -> nat -> R) : Prop :=
  exists y x y' x', (y < ny)%nat /\ (x < nx)%nat /\ (y' < ny)%nat /\ (x' < nx)%nat /\ p y x <> p y' x'.

(** ** Theorems *)

Lemma divisible f n : (1 < f)%nat -> (n mod f = 0)%nat -> (1 <= n)%nat -> (1 <= n / f)%nat.
Proof. intros Hf Hn H1. pose proof (Nat.div_mod n f ltac:(lia)). destruct (n / f)%nat; lia. Qed.
Lemma flat_blocks f m : (1 <= f)%nat -> flat (Downsample.pixels (bin2d f m)) <-> equal_blocks f (nrows m) (ncols m) (at_ m).
Proof.
  intros Hf. assert (Hz : INR f * INR f <> 0).
  { assert (INR f <> 0) by (apply not_0_INR; lia). now apply Rmult_integral_contrapositive. }
  split.
  - intros F r c r' c' H1 H2 H3 H4. apply (Rmult_eq_reg_l (INR f * INR f)); [|exact Hz].
    rewrite <- !(bin2d_mean f m) by exact Hf. apply F; apply in_pixels.
    + exists r, c. repeat split; assumption.
    + exists r', c'. repeat split; assumption.
  - intros E x y Hx Hy. apply in_pixels in Hx as (r & c & H1 & H2 & <-). apply in_pixels in Hy as (r' & c' & H3 & H4 & <-).
    rewrite !bin2d_mean by exact Hf. f_equal. now apply E.
Qed.
Lemma downsample_pixels f t m : Downsample.pixels (downsample2d f t m)
  = map (cast t) (rescale_with_min_max (vmin (Downsample.pixels (bin2d f m))) (vmax (Downsample.pixels (bin2d f m)))
      (dtype_min t) (dtype_max t) (Downsample.pixels (bin2d f m))).
Proof.
  unfold Downsample.pixels at 1. cbn [downsample2d nrows ncols at_]. unfold rescale_with_min_max.
  set (lo := vmin _). set (hi := vmax _). clearbody lo hi. rewrite map_map. unfold Downsample.pixels.
  generalize (seq 0 (nrows (bin2d f m))) as rows.
  induction rows as [|r rows IH]; [reflexivity|]. cbn [flat_map]. rewrite map_app, map_map, IH. reflexivity.
Qed.

(** Accepted factors, and one new pattern for each. *)
Theorem C112_accepted_iff : forall f t ny nx data,
  downsampled_signal f t ny nx data <> None <-> (1 < f)%nat /\ (ny mod f = 0)%nat /\ (nx mod f = 0)%nat.
Proof.
  intros f t ny nx data. unfold downsampled_signal. destruct (Nat.leb_spec f 1).
  - split; [congruence|lia].
  - destruct (Nat.eqb_spec (ny mod f) 0), (Nat.eqb_spec (nx mod f) 0); cbn; split; try congruence; try tauto; intros; discriminate || tauto.
Qed.
Print Assumptions C112_accepted_iff.

(** Each pattern is downsampled as in C22, or loses all intensities: the latter exactly if all
    its blocks are equally bright. *)
Theorem C112_downsample_iff : forall f t ny nx data out i m,
  downsampled_signal f t ny nx data = Some out -> nth_error data i = Some m ->
  nrows m = ny -> ncols m = nx -> (1 <= ny)%nat -> (1 <= nx)%nat ->
  exists q, nth_error out i = Some q /\ length q = (ny / f * (nx / f))%nat /\
    (~ equal_blocks f ny nx (at_ m) -> q = map Some (Downsample.pixels (downsample2d f t m))) /\
    (equal_blocks f ny nx (at_ m) -> lost q).
Proof.
  intros f t ny nx data out i m E Hi <- <- Hy Hx.
  assert (A : downsampled_signal f t (nrows m) (ncols m) data <> None) by congruence.
  apply C112_accepted_iff in A as (Hf & My & Mx).
  unfold downsampled_signal in E. destruct (f <=? 1)%nat; [discriminate|]. destruct (negb _); [discriminate|]. injection E as <-.
  exists (downsampled f t m). split; [rewrite nth_error_map, Hi; reflexivity|].
  pose proof (divisible f _ Hf My Hy) as Dy. pose proof (divisible f _ Hf Mx Hx) as Dx.
  assert (L : length (Downsample.pixels (bin2d f m)) = (nrows m / f * (ncols m / f))%nat).
  { unfold Downsample.pixels. cbn [bin2d nrows ncols]. rewrite <- (seq_length (nrows m / f) 0) at 2.
    generalize (seq 0 (nrows m / f)) as rows.
    induction rows as [|r rows IH]; [reflexivity|]. cbn [flat_map length]. rewrite app_length, map_length, seq_length, IH. lia. }
  assert (N : Downsample.pixels (bin2d f m) <> []) by (intros Z; rewrite Z in L; cbn in L; nia).
  unfold downsampled. split; [unfold rescaled; rewrite !map_length; exact L|].
  rewrite <- (flat_blocks f m) by lia. split; intros F.
  - rewrite downsample_pixels. apply rescaled_same. rewrite (flat_limits _ N). exact F.
  - apply rescaled_lost. now apply flat_limits.
Qed.
Print Assumptions C112_downsample_iff.

(** So patterns with contrast can lose it: those that repeat themselves from block to block, such as
    one with stripes or dots. *)
Theorem C112_repeating_pattern_refuted : forall f t ny nx data out i m g,
  downsampled_signal f t ny nx data = Some out -> nth_error data i = Some m ->
  nrows m = ny -> ncols m = nx -> (1 <= ny)%nat -> (1 <= nx)%nat ->
  (forall y x, (y < ny)%nat -> (x < nx)%nat -> at_ m y x = g (y mod f)%nat (x mod f)%nat) ->
  exists q, nth_error out i = Some q /\ lost q.
Proof.
  intros f t ny nx data out i m g E Hi Hr Hc Hy Hx G.
  assert (A : downsampled_signal f t ny nx data <> None) by congruence.
  apply C112_accepted_iff in A as (Hf & My & Mx).
  destruct (C112_downsample_iff f t ny nx data out i m E Hi Hr Hc Hy Hx) as (q & Hq & _ & _ & H).
  exists q. split; [exact Hq|]. apply H.
  assert (B : forall r c, (r < ny / f)%nat -> (c < nx / f)%nat -> block_mean f (at_ m) r c = block_mean f g 0 0).
  { assert (SE : forall n u v, (forall k, (k < n)%nat -> u k = v k) -> sum_below n u = sum_below n v).
    { induction n as [|n IH]; intros u v K; [reflexivity|]. cbn. rewrite (IH u v) by (intros; apply K; lia). rewrite K by lia. reflexivity. }
    intros r c R C. unfold block_mean. f_equal. apply SE. intros a Ha. apply SE. intros b Hb.
    pose proof (Nat.div_mod ny f ltac:(lia)). pose proof (Nat.div_mod nx f ltac:(lia)).
    rewrite G by nia. rewrite !(Nat.add_comm (_ * f)), !Nat.mod_add, !Nat.mod_small by lia.
    rewrite !Nat.mul_0_l, !Nat.add_0_r. reflexivity. }
  intros r c r' c' R C R' C'. now rewrite !B.
Qed.
Print Assumptions C112_repeating_pattern_refuted.

(** And no pattern survives if it is downsampled to one pixel. *)
Theorem C112_one_pixel_refuted : forall f t data out i m,
  downsampled_signal f t f f data = Some out -> nth_error data i = Some m -> nrows m = f -> ncols m = f ->
  nth_error out i = Some [None].
Proof.
  intros f t data out i m E Hi Hr Hc.
  assert (A : downsampled_signal f t f f data <> None) by congruence. apply C112_accepted_iff in A as (Hf & _).
  destruct (C112_downsample_iff f t f f data out i m E Hi Hr Hc ltac:(lia) ltac:(lia)) as (q & Hq & L & _ & H).
  rewrite Hq. f_equal. rewrite Nat.div_same in L by lia.
  assert (Q : lost q).
  { apply H. intros r c r' c'. rewrite Nat.div_same by lia. intros. replace r' with r by lia. replace c' with c by lia. reflexivity. }
  destruct q as [|v [|u q]]; try discriminate L. f_equal. apply Q. now left.
Qed.
Print Assumptions C112_one_pixel_refuted.

(** ** Cases *)

(** A pattern with stripes one pixel wide has contrast, and loses it; the others of the signal do not. *)
Definition stripes : amap R := AMap 2 4 (fun _ x => if (x mod 2 =? 0)%nat then 0 else 1).
Definition slope : amap R := AMap 2 4 (fun _ x => INR x).
Example C112_case : exists p q, downsampled_signal 2 UInt8 2 4 [stripes; slope] = Some [p; q] /\ lost p /\ intact q
  /\ has_contrast 2 4 (at_ stripes).
Proof.
  exists (downsampled 2 UInt8 stripes), (downsampled 2 UInt8 slope).
  assert (E : downsampled_signal 2 UInt8 2 4 [stripes; slope] = Some [downsampled 2 UInt8 stripes; downsampled 2 UInt8 slope]) by reflexivity.
  split; [exact E|]. split; [|split].
  - destruct (C112_repeating_pattern_refuted 2 UInt8 2 4 _ _ 0 stripes (fun _ x => if (x mod 2 =? 0)%nat then 0 else 1) E eq_refl eq_refl eq_refl) as (q & Hq & L);
      [lia|lia| |cbn [nth_error] in Hq; injection Hq as <-; exact L].
    intros y x _ _. cbn [stripes at_]. rewrite Nat.mod_mod by lia. reflexivity.
  - destruct (C112_downsample_iff 2 UInt8 2 4 _ _ 1 slope E eq_refl eq_refl eq_refl ltac:(lia) ltac:(lia)) as (q & Hq & _ & H & _).
    cbn [nth_error] in Hq. injection Hq as <-. rewrite H.
    + intros v Hv. apply in_map_iff in Hv as (u & <- & _). discriminate.
    + intros F. assert (X : block_mean 2 (at_ slope) 0 0 = block_mean 2 (at_ slope) 0 1) by (apply F; cbn; lia).
      unfold block_mean, slope in X. simpl in X. lra.
  - exists 0%nat, 0%nat, 0%nat, 1%nat. repeat split; try lia. cbn. lra.
Qed.
