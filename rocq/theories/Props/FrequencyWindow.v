(** C78: windows to multiply patterns and spectra with. *)
From Coq Require Import Reals Arith ZArith List Bool Lia Lra.
From Verif Require Import Model.Window Model.FrequencyWindow Model.FftBarnes Model.PatternSpectrum Proofs.FourierProofs Proofs.SpectrumProofs Proofs.ImageQualityProofs Spec.FilterSpec Spec.QualitySpec Props.PatternFourier.
Import ListNotations.
Local Open Scope R_scope.

(** * The modified Hann window *)
Definition angle (n i : nat) : R := PI * (INR i - INR n / 2 + 1 / 2) / INR n.
Lemma angle_eq n i : (0 < n)%nat -> angle n i = PI * (2 * INR i + 1 - INR n) / (2 * INR n).
Proof. intros N. pose proof (lt_0_INR n N). unfold angle. field. lra. Qed.
Lemma angle_range n i : (i < n)%nat -> - (PI / 2) < angle n i < PI / 2.
Proof.
  intros I. assert (N : (0 < n)%nat) by lia. pose proof (lt_0_INR n N) as P. pose proof PI_RGT_0 as Q. pose proof (pos_INR i) as Z. apply lt_INR in I as L.
  rewrite angle_eq by exact N. assert (U : INR i + 1 <= INR n) by (rewrite <- S_INR; apply le_INR; lia).
  assert (E1 : - (PI / 2) = PI * (- INR n) / (2 * INR n)) by (field; lra). assert (E2 : PI / 2 = PI * INR n / (2 * INR n)) by (field; lra). rewrite E1, E2.
  unfold Rdiv. split; apply Rmult_lt_compat_r; try (apply Rinv_0_lt_compat; lra); apply Rmult_lt_compat_l; lra.
Qed.
Theorem C78_modified_hann_range n i : (i < n)%nat -> 0 < modified_hann n i <= 1.
Proof. intros I. change (modified_hann n i) with (cos (angle n i)). pose proof (angle_range n i I) as A. split; [apply cos_gt_0; lra|]. apply COS_bound. Qed.
Theorem C78_modified_hann_symmetric n i : (i < n)%nat -> modified_hann n (n - 1 - i) = modified_hann n i.
Proof.
  intros I. assert (P : 0 < INR n) by (apply lt_0_INR; lia). unfold modified_hann. rewrite <- (cos_neg (PI * (INR i - _ + _) / _)). f_equal. rewrite !minus_INR by lia. cbn [INR]. field. lra.
Qed.
(** It grows towards the middle. *)
Theorem C78_modified_hann_increases n i j : (i < j)%nat -> (2 * j < n)%nat -> modified_hann n i < modified_hann n j.
Proof.
  intros I J. assert (N : (0 < n)%nat) by lia. pose proof (lt_0_INR n N) as P. pose proof PI_RGT_0 as Q.
  change (modified_hann n i) with (cos (angle n i)). change (modified_hann n j) with (cos (angle n j)).
  assert (B : forall a, (a < n)%nat -> - (PI / 2) < angle n a < PI / 2) by (intros; now apply angle_range).
  pose proof (B i ltac:(lia)) as Bi. apply lt_INR in I as I'.
  assert (S : angle n i < angle n j) by (rewrite !angle_eq by exact N; unfold Rdiv; apply Rmult_lt_compat_r; [apply Rinv_0_lt_compat; lra|]; apply Rmult_lt_compat_l; lra).
  (* compare |angle j| with |angle i| *)
  assert (K : angle n j < - angle n i).
  { rewrite !angle_eq by exact N. replace (- (PI * (2 * INR i + 1 - INR n) / (2 * INR n))) with (PI * (- (2 * INR i + 1 - INR n)) / (2 * INR n)) by (field; lra).
    unfold Rdiv. apply Rmult_lt_compat_r; [apply Rinv_0_lt_compat; lra|]. apply Rmult_lt_compat_l; [exact Q|].
    assert (INR (i + j + 1) < INR n) by (apply lt_INR; lia). rewrite !plus_INR in H. cbn [INR] in H. lra. }
  rewrite <- (cos_neg (angle n i)). destruct (Rle_dec 0 (angle n j)) as [G|G].
  - apply cos_decreasing_1; lra.
  - rewrite <- (cos_neg (angle n j)). apply cos_decreasing_1; lra.
Qed.
(** Its maximum is 1 for odd lengths, as documented, but less for even lengths. *)
Theorem C78_modified_hann_maximum_odd m : modified_hann (2 * m + 1) m = 1.
Proof.
  unfold modified_hann. replace (PI * _ / _) with 0; [apply cos_0|]. rewrite plus_INR, mult_INR. cbn [INR]. pose proof (pos_INR m). field. lra.
Qed.
Theorem C78_modified_hann_maximum_even_refuted m i : (i < 2 * m)%nat -> modified_hann (2 * m) i < 1.
Proof.
  intros I. pose proof (angle_range (2 * m) i I) as A. change (modified_hann (2 * m) i) with (cos (angle (2 * m) i)). pose proof PI_RGT_0 as Q.
  assert (NZ : angle (2 * m) i <> 0).
  { rewrite angle_eq by lia. assert (P : 0 < INR (2 * m)) by (apply lt_0_INR; lia). intros E. apply Rmult_integral in E. destruct E as [E|E]; [|apply (Rinv_neq_0_compat (2 * INR (2 * m))); lra].
    apply Rmult_integral in E. destruct E as [E|E]; [lra|]. assert (E' : INR (2 * i + 1) = INR (2 * m)) by (rewrite plus_INR, (mult_INR 2 i); cbn [INR] in *; lra). apply INR_eq in E'. lia. }
  pose proof cos_0 as C0. rewrite <- C0. destruct (Rlt_dec 0 (angle (2 * m) i)) as [G|G]; [apply cos_decreasing_1; lra|]. rewrite <- (cos_neg (angle _ _)). apply cos_decreasing_1; lra.
Qed.

(** * Low- and high-pass windows *)
Lemma bell_width w : 0 < w -> sqrt 2 * w / 2 <> 0.
Proof. intros W. pose proof (sqrt_lt_R0 2 ltac:(lra)) as S. apply Rgt_not_eq. apply Rmult_lt_0_compat; [apply Rmult_lt_0_compat; lra|lra]. Qed.
Lemma bell_value x w : 0 < w -> bell x (sqrt 2 * w / 2) = Some (exp (- (2 * (x * x) / (w * w)))).
Proof.
  intros W. pose proof (bell_width w W) as B. unfold bell. destruct (Req_EM_T _ 0); [contradiction|]. do 3 f_equal. pose proof (sqrt_lt_R0 2 ltac:(lra)) as S.
  replace (x / (sqrt 2 * w / 2) * (x / (sqrt 2 * w / 2))) with (4 * (x * x) / ((sqrt 2 * sqrt 2) * (w * w))) by (field; split; lra). rewrite sqrt_sqrt by lra. field. lra.
Qed.
(** As documented: one up to the cut-off, zero beyond two widths, and a bell in between. *)
Theorem C78_lowpass_value cutoff cutoff_width r : 0 < width cutoff cutoff_width ->
  let w := width cutoff cutoff_width in
  lowpass cutoff cutoff_width r = Some (if Rle_dec r cutoff then 1 else if Rle_dec r (cutoff + 2 * w) then exp (- (2 * ((r - cutoff) * (r - cutoff)) / (w * w))) else 0).
Proof.
  intros W w. unfold lowpass. fold w. rewrite bell_value by exact W. fold w in W.
  destruct (Rlt_dec r cutoff), (Rle_dec r cutoff), (Rgt_dec r (cutoff + 2 * w)), (Rle_dec r (cutoff + 2 * w)); try reflexivity; try lra.
  assert (r = cutoff) by lra. subst r. f_equal. rewrite <- exp_0. f_equal. unfold Rdiv. ring.
Qed.
Theorem C78_highpass_value cutoff cutoff_width r : 0 < width cutoff cutoff_width ->
  let w := width cutoff cutoff_width in
  highpass cutoff cutoff_width r = Some (if Rle_dec cutoff r then 1 else if Rle_dec (cutoff - 2 * w) r then exp (- (2 * ((r - cutoff) * (r - cutoff)) / (w * w))) else 0).
Proof.
  intros W w. unfold highpass. fold w. rewrite bell_value by exact W. fold w in W.
  destruct (Rgt_dec r cutoff), (Rle_dec cutoff r), (Rlt_dec r (cutoff - 2 * w)), (Rle_dec (cutoff - 2 * w) r); try reflexivity; try lra.
  - assert (r = cutoff) by lra. subst r. f_equal. rewrite <- exp_0. f_equal. unfold Rdiv. ring.
  - do 3 f_equal. unfold Rdiv. ring.
Qed.
(** Values between zero and one, and further away never more through a low-pass and never less through a high-pass. *)
Lemma bell_monotone a b w : 0 < w -> 0 <= a <= b -> exp (- (2 * (b * b) / (w * w))) <= exp (- (2 * (a * a) / (w * w))) <= 1.
Proof.
  intros W [A B]. assert (I : 0 < / (w * w)) by (apply Rinv_0_lt_compat; apply Rmult_lt_0_compat; exact W).
  assert (M : forall x y, x <= y -> exp x <= exp y) by (intros x y [L|L]; [left; now apply exp_increasing|right; now rewrite L]).
  assert (S : 0 <= 2 * (a * a) / (w * w) <= 2 * (b * b) / (w * w)).
  { unfold Rdiv. split; [apply Rmult_le_pos; [|lra]; assert (0 <= a * a) by (apply Rmult_le_pos; lra); lra|]. apply Rmult_le_compat_r; [lra|]. assert (a * a <= b * b) by (apply Rmult_le_compat; lra). lra. }
  split; [apply M; lra|]. rewrite <- exp_0. apply M. lra.
Qed.
Theorem C78_lowpass_decreases cutoff cutoff_width r r' : 0 < width cutoff cutoff_width -> r <= r' ->
  exists v v', lowpass cutoff cutoff_width r = Some v /\ lowpass cutoff cutoff_width r' = Some v' /\ 0 <= v' <= v /\ v <= 1.
Proof.
  intros W L. rewrite !C78_lowpass_value by exact W. cbv zeta. set (w := width cutoff cutoff_width) in *. eexists. eexists. split; [reflexivity|]. split; [reflexivity|].
  destruct (Rle_dec r' cutoff), (Rle_dec r cutoff); try lra.
  - destruct (Rle_dec r' (cutoff + 2 * w)); [|lra]. pose proof (bell_monotone 0 (r' - cutoff) w W ltac:(lra)) as M. pose proof (exp_pos (- (2 * ((r' - cutoff) * (r' - cutoff)) / (w * w)))). replace (- (2 * (0 * 0) / (w * w))) with 0 in M by (unfold Rdiv; ring). lra.
  - destruct (Rle_dec r' (cutoff + 2 * w)), (Rle_dec r (cutoff + 2 * w)); try lra.
    + pose proof (bell_monotone (r - cutoff) (r' - cutoff) w W ltac:(lra)) as M. pose proof (exp_pos (- (2 * ((r' - cutoff) * (r' - cutoff)) / (w * w)))). lra.
    + pose proof (bell_monotone (r - cutoff) (r - cutoff) w W ltac:(lra)) as M. pose proof (exp_pos (- (2 * ((r - cutoff) * (r - cutoff)) / (w * w)))). lra.
Qed.
Theorem C78_highpass_is_mirrored cutoff cutoff_width r : 0 < width cutoff cutoff_width -> highpass cutoff cutoff_width r = lowpass cutoff cutoff_width (2 * cutoff - r).
Proof.
  intros W. rewrite C78_highpass_value, C78_lowpass_value by exact W. cbv zeta. set (w := width cutoff cutoff_width) in *. f_equal.
  replace ((2 * cutoff - r - cutoff) * (2 * cutoff - r - cutoff)) with ((r - cutoff) * (r - cutoff)) by ring.
  destruct (Rle_dec cutoff r), (Rle_dec (2 * cutoff - r) cutoff), (Rle_dec (cutoff - 2 * w) r), (Rle_dec (2 * cutoff - r) (cutoff + 2 * w)); try reflexivity; lra.
Qed.

(** * The windows as filters *)
(** Distance of a frequency from zero, in the periodic sense. *)
Definition nearer (n k : nat) : nat := Nat.min k (n - k).
Definition radius (h w k l : nat) : R := sqrt (INR (nearer h k) * INR (nearer h k) + INR (nearer w l) * INR (nearer w l)).
Lemma window_distance h w k l : (k < h)%nat -> (l < w)%nat -> distance (h / 2) (w / 2) ((k + h / 2) mod h) ((l + w / 2) mod w) = radius h w k l.
Proof.
  intros K L. unfold distance, radius. f_equal.
  assert (S : forall n i, (i < n)%nat -> ((Z.of_nat ((i + n / 2) mod n) - Z.of_nat (n / 2)) ^ 2 = Z.of_nat (nearer n i) * Z.of_nat (nearer n i))%Z).
  { intros n i I. unfold nearer. pose proof (Nat.div_mod n 2 ltac:(lia)) as D. pose proof (Nat.mod_upper_bound n 2 ltac:(lia)) as U.
    destruct (Nat.lt_ge_cases (i + n / 2) n) as [A|A].
    - rewrite Nat.mod_small by exact A. replace (Nat.min i (n - i)) with i by lia. lia.
    - replace (i + n / 2)%nat with ((i + n / 2 - n) + 1 * n)%nat by lia. rewrite Nat.mod_add, Nat.mod_small by lia. replace (Nat.min i (n - i)) with (n - i)%nat by lia.
      replace (Z.of_nat (i + n / 2 - n) - Z.of_nat (n / 2))%Z with (- Z.of_nat (n - i))%Z by lia. ring. }
  rewrite plus_IZR, !S by assumption. rewrite !mult_IZR, <- !INR_IZR_INZ. reflexivity.
Qed.
Lemma nearer_opposite n k : (k < n)%nat -> nearer n (opposite n k) = nearer n k.
Proof.
  intros K. unfold nearer, opposite. destruct (Nat.eq_dec k 0) as [->|N]; [rewrite Nat.sub_0_r, Nat.mod_same by lia; lia|]. rewrite Nat.mod_small by lia. lia.
Qed.
Lemma opposite_lt n k : (k < n)%nat -> (opposite n k < n)%nat.
Proof. intros K. apply Nat.mod_upper_bound. lia. Qed.
(** A transfer function that is a window of the distance to its origin, used with shift=True, multiplies each frequency of the pattern by
    the value at its distance from the zero frequency. *)
Lemma radial_filter h w p t a (f : R -> R) : (0 < h)%nat -> (0 < w)%nat ->
  (forall y x, (y < h)%nat -> (x < w)%nat -> t y x = f (distance (h / 2) (w / 2) y x)) ->
  forall k l, (k < h)%nat -> (l < w)%nat ->
  dft2 h w (snd (fft_filter h w p t a true)) k l = Cmul (real (f (radius h w k l))) (dft2 h w (apodized p a) k l).
Proof.
  intros H W T k l K L. rewrite C76_filter_spectrum by assumption. f_equal. f_equal. unfold unshifted.
  assert (R : forall k l, (k < h)%nat -> (l < w)%nat -> t ((k + h / 2) mod h)%nat ((l + w / 2) mod w)%nat = f (radius h w k l)).
  { intros i j I J. rewrite T by (apply Nat.mod_upper_bound; lia). f_equal. now apply window_distance. }
  rewrite !R by (try assumption; now apply opposite_lt). replace (radius h w (opposite h k) (opposite w l)) with (radius h w k l) by (unfold radius; now rewrite !nearer_opposite). field.
Qed.
Theorem C78_window_filters_frequencies kind cutoff cutoff_width h w window (t : array) p a k l : 0 < width cutoff cutoff_width ->
  pass_window kind cutoff cutoff_width h w = Some window ->
  (forall y x, (y < h)%nat -> (x < w)%nat -> window y x = Some (t y x)) ->
  (k < h)%nat -> (l < w)%nat ->
  exists v, match kind with Low => lowpass | High => highpass end cutoff cutoff_width (radius h w k l) = Some v /\
    dft2 h w (snd (fft_filter h w p t a true)) k l = Cmul (real v) (dft2 h w (apodized p a) k l).
Proof.
  intros W P T K L. unfold pass_window in P. destruct ((h <=? 1) || (w <=? 1))%nat; [discriminate|]. injection P as <-.
  destruct kind.
  - rewrite C78_lowpass_value by exact W. cbv zeta. eexists. split; [reflexivity|].
    apply (radial_filter h w p t a (fun r => if Rle_dec r cutoff then 1 else if Rle_dec r (cutoff + 2 * width cutoff cutoff_width) then exp (- (2 * ((r - cutoff) * (r - cutoff)) / (width cutoff cutoff_width * width cutoff cutoff_width))) else 0)); try lia; try assumption.
    intros y x Y X. specialize (T y x Y X). unfold lowpass2 in T. rewrite C78_lowpass_value in T by exact W. cbv zeta in T. injection T as <-. reflexivity.
  - rewrite C78_highpass_value by exact W. cbv zeta. eexists. split; [reflexivity|].
    apply (radial_filter h w p t a (fun r => if Rle_dec cutoff r then 1 else if Rle_dec (cutoff - 2 * width cutoff cutoff_width) r then exp (- (2 * ((r - cutoff) * (r - cutoff)) / (width cutoff cutoff_width * width cutoff cutoff_width))) else 0)); try lia; try assumption.
    intros y x Y X. specialize (T y x Y X). unfold highpass2 in T. rewrite C78_highpass_value in T by exact W. cbv zeta in T. injection T as <-. reflexivity.
Qed.
(** For every shape without an axis of length one such a window exists. *)
Theorem C78_window_exists kind cutoff cutoff_width h w : 0 < width cutoff cutoff_width -> (1 < h)%nat -> (1 < w)%nat ->
  exists window t, pass_window kind cutoff cutoff_width h w = Some window /\ forall y x, window y x = Some (t y x) /\ 0 <= t y x <= 1.
Proof.
  intros W H X. unfold pass_window. destruct (Nat.leb_spec h 1); [lia|]. destruct (Nat.leb_spec w 1); [lia|]. cbn [orb].
  exists (match kind with Low => lowpass2 | High => highpass2 end cutoff cutoff_width h w), (fun y x => match (match kind with Low => lowpass2 | High => highpass2 end cutoff cutoff_width h w y x) with Some v => v | None => 0 end).
  split; [now destruct kind|]. intros y x.
  assert (L : forall r, exists v, lowpass cutoff cutoff_width r = Some v /\ 0 <= v <= 1) by (intros r; destruct (C78_lowpass_decreases cutoff cutoff_width r r W ltac:(lra)) as (v & v' & E & E' & B & C); exists v; rewrite E in E'; injection E' as <-; split; [exact E|lra]).
  destruct kind; [destruct (L (distance (h / 2) (w / 2) y x)) as (v & E & B); unfold lowpass2|destruct (L (2 * cutoff - distance (h / 2) (w / 2) y x)) as (v & E & B); unfold highpass2; rewrite C78_highpass_is_mirrored by exact W]; rewrite E; now split.
Qed.
Theorem C78_window_of_one_row_refuted kind cutoff cutoff_width n : pass_window kind cutoff cutoff_width 1 n = None /\ pass_window kind cutoff cutoff_width n 1 = None.
Proof. unfold pass_window. cbn. now rewrite orb_true_r. Qed.
(** A low-pass filter keeps the mean of the pattern; a high-pass filter removes it if the cut-off is more than two widths, and by default keeps a part. *)
Lemma radius_zero h w : radius h w 0 0 = 0.
Proof. unfold radius, nearer. rewrite !Nat.min_0_l. cbn [INR]. replace (0 * 0 + 0 * 0) with 0 by ring. apply sqrt_0. Qed.
Lemma total_of_spectrum h w p : dft2 h w p 0 0 = (total2 h w p, 0) \/ h = 0%nat \/ w = 0%nat.
Proof. destruct h as [|h]; [tauto|]. destruct w as [|w]; [tauto|]. left. destruct (C76_zero_frequency (S h) (S w) p None ltac:(lia) ltac:(lia)) as [Z _]. exact Z. Qed.
Lemma filtered_total kind cutoff cutoff_width h w window (t : array) p a : 0 < width cutoff cutoff_width -> (0 < h)%nat -> (0 < w)%nat ->
  pass_window kind cutoff cutoff_width h w = Some window -> (forall y x, (y < h)%nat -> (x < w)%nat -> window y x = Some (t y x)) ->
  exists v, match kind with Low => lowpass | High => highpass end cutoff cutoff_width 0 = Some v /\ total2 h w (snd (fft_filter h w p t a true)) = v * total2 h w (apodized p a).
Proof.
  intros Wd H W P T. destruct (C78_window_filters_frequencies kind cutoff cutoff_width h w window t p a 0 0 Wd P T H W) as (v & V & D). rewrite radius_zero in V. exists v. split; [exact V|].
  destruct (total_of_spectrum h w (snd (fft_filter h w p t a true))) as [E|[E|E]]; [|lia|lia]. destruct (total_of_spectrum h w (apodized p a)) as [E'|[E'|E']]; [|lia|lia].
  rewrite E, E' in D. clear - D. revert D. generalize (total2 h w (snd (fft_filter h w p t a true))) (total2 h w (apodized p a)). intros x y D. apply (f_equal fst) in D. cbn in D. rewrite D. ring.
Qed.
Theorem C78_lowpass_keeps_the_mean cutoff cutoff_width h w window (t : array) p a : 0 <= cutoff -> 0 < width cutoff cutoff_width -> (0 < h)%nat -> (0 < w)%nat ->
  pass_window Low cutoff cutoff_width h w = Some window -> (forall y x, (y < h)%nat -> (x < w)%nat -> window y x = Some (t y x)) ->
  total2 h w (snd (fft_filter h w p t a true)) = total2 h w (apodized p a).
Proof.
  intros C Wd H W P T. destruct (filtered_total Low cutoff cutoff_width h w window t p a Wd H W P T) as (v & V & ->). rewrite C78_lowpass_value in V by exact Wd. cbv zeta in V.
  destruct (Rle_dec 0 cutoff); [|lra]. injection V as <-. ring.
Qed.
Theorem C78_highpass_removes_the_mean cutoff cutoff_width h w window (t : array) p a : 2 * width cutoff cutoff_width < cutoff -> 0 < width cutoff cutoff_width -> (0 < h)%nat -> (0 < w)%nat ->
  pass_window High cutoff cutoff_width h w = Some window -> (forall y x, (y < h)%nat -> (x < w)%nat -> window y x = Some (t y x)) ->
  total2 h w (snd (fft_filter h w p t a true)) = 0.
Proof.
  intros C Wd H W P T. destruct (filtered_total High cutoff cutoff_width h w window t p a Wd H W P T) as (v & V & ->). rewrite C78_highpass_value in V by exact Wd. cbv zeta in V.
  destruct (Rle_dec cutoff 0); [lra|]. destruct (Rle_dec _ 0); [lra|]. injection V as <-. ring.
Qed.
Theorem C78_default_highpass_keeps_a_part cutoff h w window (t : array) p a : 0 < cutoff -> (0 < h)%nat -> (0 < w)%nat ->
  pass_window High cutoff None h w = Some window -> (forall y x, (y < h)%nat -> (x < w)%nat -> window y x = Some (t y x)) ->
  total2 h w (snd (fft_filter h w p t a true)) = exp (- 8) * total2 h w (apodized p a).
Proof.
  intros C H W P T. assert (Wd : 0 < width cutoff None) by (cbn; lra). destruct (filtered_total High cutoff None h w window t p a Wd H W P T) as (v & V & ->). rewrite C78_highpass_value in V by exact Wd. cbv zeta in V. cbn [width] in V.
  destruct (Rle_dec cutoff 0); [lra|]. destruct (Rle_dec (cutoff - 2 * (cutoff / 2)) 0); [|lra]. injection V as <-. f_equal. f_equal. field. lra.
Qed.
(** A cut-off of zero with the default width leaves the zero frequency undefined. *)
Theorem C78_zero_cutoff_refuted h w : lowpass2 0 None h w (h / 2) (w / 2) = None.
Proof.
  unfold lowpass2, distance. rewrite !Z.sub_diag. cbn [Z.pow Z.pow_pos Pos.iter Z.mul Z.add]. rewrite sqrt_0. unfold lowpass. cbn [width].
  destruct (Rlt_dec 0 0); [lra|]. destruct (Rgt_dec 0 (0 + 2 * (0 / 2))); [lra|]. unfold bell. destruct (Req_EM_T (sqrt 2 * (0 / 2) / 2) 0) as [_|N]; [|exfalso; apply N; field]. destruct (Req_EM_T (0 - 0) 0); [reflexivity|lra].
Qed.
Print Assumptions C78_window_filters_frequencies.

(** Hypotheses are met by the window of the documentation. *)
Example C78_example : 0 < width 30 (Some 15) /\ exists window t, pass_window Low 30 (Some 15) 96 96 = Some window /\ forall y x, window y x = Some (t y x) /\ 0 <= t y x <= 1.
Proof. split; [cbn; lra|]. apply C78_window_exists; [cbn; lra|lia|lia]. Qed.
Example C78_hann_example : modified_hann 3 1 = 1 /\ modified_hann 2 0 < 1.
Proof. split; [exact (C78_modified_hann_maximum_odd 1)|apply (C78_modified_hann_maximum_even_refuted 1); lia]. Qed.
