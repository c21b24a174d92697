(** Downsampling: property C22. *)
From Coq Require Import List Arith ZArith Reals Bool Lra Lia.
From Verif Require Import Model.Pattern Model.Intensity Model.MapOverlap Model.Downsample Model.SignalHeap
  Spec.Tiles Spec.Blocks Spec.Intensity Spec.DataTypes
  Proofs.PatternProofs Proofs.IntensityProofs Proofs.DataTypesProofs Proofs.DownsampleProofs Proofs.SignalHeapProofs.
From Verif Require Model.Detector Proofs.DetectorProofs.
Import ListNotations.
Local Open Scope R_scope.

(** ** Patterns *)

(** For every pattern and factor dividing its shape: the new pattern has the shape divided by the
    factor, and its pixel (r, c) is the mean of block (r, c), mapped by the straight line that takes
    the least block mean to the lower end of the range of the data type and the greatest to the upper
    end, then cast to the data type.  (If all means are equal there is no such line: the code divides
    zero by zero.) *)
Theorem C22_blocks_replaced_by_their_mean f t m :
  (1 < f)%nat -> (nrows m mod f = 0)%nat -> (ncols m mod f = 0)%nat -> (1 <= nrows m)%nat -> (1 <= ncols m)%nat ->
  (nrows (downsample2d f t m) * f = nrows m)%nat /\ (ncols (downsample2d f t m) * f = ncols m)%nat
  /\ exists lo hi, least (nrows m / f) (ncols m / f) (block_mean f (at_ m)) lo
    /\ greatest (nrows m / f) (ncols m / f) (block_mean f (at_ m)) hi
    /\ (lo < hi -> forall r c, (r < nrows m / f)%nat -> (c < ncols m / f)%nat ->
        at_ (downsample2d f t m) r c = cast t (line_through lo (dtype_min t) hi (dtype_max t) (block_mean f (at_ m) r c))).
Proof.
  intros Hf Hy Hx Hny Hnx. cbn [downsample2d bin2d nrows ncols].
  assert (D : forall n, (n mod f = 0 -> n / f * f = n)%nat) by (intros n Hn; pose proof (Nat.div_mod n f); lia).
  split; [now apply D|]. split; [now apply D|].
  assert (P : forall n, (n mod f = 0 -> 1 <= n -> 1 <= n / f)%nat).
  { intros n Hn H1. pose proof (D n Hn). destruct (n / f)%nat; lia. }
  destruct (downsample2d_spec f t m) as (lo & hi & H1 & H2 & H3); [lia|auto|auto|].
  exists lo, hi. split; [auto|]. split; [auto|]. intros Hlt r c _ _. unfold line_through. now apply H3.
Qed.

(** The blocks are disjoint and cover the pattern: every pixel is in exactly one block. *)
Theorem C22_every_pixel_in_one_block f ny nx y x :
  (1 < f)%nat -> (ny mod f = 0)%nat -> (nx mod f = 0)%nat -> (y < ny)%nat -> (x < nx)%nat ->
  exists r c i j, (y = r * f + i /\ x = c * f + j /\ i < f /\ j < f /\ r < ny / f /\ c < nx / f)%nat
    /\ forall r' c' i' j', (y = r' * f + i' -> x = c' * f + j' -> i' < f -> j' < f -> r' = r /\ c' = c)%nat.
Proof.
  intros Hf Hy Hx Ly Lx. exists (y / f)%nat, (x / f)%nat, (y mod f)%nat, (x mod f)%nat.
  pose proof (Nat.div_mod y f). pose proof (Nat.div_mod x f). pose proof (Nat.mod_upper_bound y f). pose proof (Nat.mod_upper_bound x f).
  assert (Q : forall n k, (n mod f = 0 -> k < n -> k / f < n / f)%nat).
  { intros n k Hn Hk. apply Nat.div_lt_upper_bound; [lia|]. pose proof (Nat.div_mod n f). lia. }
  split.
  - repeat split; try lia; apply Q; auto.
  - intros r' c' i' j' E1 E2 B1 B2. split; [apply Nat.div_unique with i'|apply Nat.div_unique with j']; lia.
Qed.

(** The new pattern uses the whole range of the data type. *)
Theorem C22_range_of_data_type f t m :
  (1 < f)%nat -> (nrows m mod f = 0)%nat -> (ncols m mod f = 0)%nat ->
  (exists r c r' c', (r < nrows m / f /\ c < ncols m / f /\ r' < nrows m / f /\ c' < ncols m / f)%nat
      /\ block_mean f (at_ m) r c < block_mean f (at_ m) r' c') ->
  least (nrows m / f) (ncols m / f) (at_ (downsample2d f t m)) (lowest t)
  /\ greatest (nrows m / f) (ncols m / f) (at_ (downsample2d f t m)) (highest t).
Proof.
  rewrite lowest_eq, highest_eq. intros Hf Hy Hx (r0 & c0 & r1 & c1 & (B1 & B2 & B3 & B4) & Hlt0).
  destruct (downsample2d_spec f t m) as (lo & hi & [(rl & cl & Lr & Lc & El) Hl] & [(rh & ch & Gr & Gc & Eh) Hh] & H3); [lia|lia|lia|].
  assert (Hlt : lo < hi) by (pose proof (Hl r0 c0 B1 B2); pose proof (Hh r1 c1 B3 B4); lra).
  specialize (H3 Hlt).
  assert (Hr : dtype_min t < dtype_max t) by (destruct t; unfold dtype_min, dtype_max; simpl; lra).
  assert (Cmin : cast t (dtype_min t) = dtype_min t).
  { unfold cast. destruct (is_float t); [reflexivity|]. unfold dtype_min. now rewrite trunc_IZR. }
  assert (Cmax : cast t (dtype_max t) = dtype_max t).
  { unfold cast. destruct (is_float t); [reflexivity|]. unfold dtype_max. now rewrite trunc_IZR. }
  assert (Cmono : forall a b, a <= b -> cast t a <= cast t b).
  { intros a b Hab. unfold cast. destruct (is_float t); [auto|]. apply IZR_le. now apply trunc_le. }
  assert (Mono : forall a b, a <= b -> dtype_min t + (dtype_max t - dtype_min t) * (a - lo) / (hi - lo)
                                      <= dtype_min t + (dtype_max t - dtype_min t) * (b - lo) / (hi - lo)).
  { intros a b Hab. apply Rplus_le_compat_l. unfold Rdiv. apply Rmult_le_compat_r; [left; apply Rinv_0_lt_compat; lra|].
    apply Rmult_le_compat_l; lra. }
  assert (Elo : dtype_min t + (dtype_max t - dtype_min t) * (lo - lo) / (hi - lo) = dtype_min t) by (field; lra).
  assert (Ehi : dtype_min t + (dtype_max t - dtype_min t) * (hi - lo) / (hi - lo) = dtype_max t) by (field; lra).
  split; split.
  - exists rl, cl. split; [auto|]. split; [auto|]. now rewrite H3, El, Elo.
  - intros r c Rr Rc. rewrite H3. eapply Rle_trans; [right; symmetry; exact Cmin|]. apply Cmono.
    eapply Rle_trans; [right; symmetry; exact Elo|]. apply Mono. auto.
  - exists rh, ch. split; [auto|]. split; [auto|]. now rewrite H3, Eh, Ehi.
  - intros r c Rr Rc. rewrite H3. eapply Rle_trans; [|right; exact Cmax]. apply Cmono.
    eapply Rle_trans; [|right; exact Ehi]. apply Mono. auto.
Qed.

(** A 2 x 4 pattern with factor 2: block means 3 and 11. *)
Definition small : image := AMap 2 4 (fun y x => INR (y * 4 + x * x)).
Example small_case : (nrows small mod 2 = 0 /\ ncols small mod 2 = 0)%nat
  /\ block_mean 2 (at_ small) 0 0 < block_mean 2 (at_ small) 0 1.
Proof. split; [split; reflexivity|]. unfold block_mean, small. simpl. lra. Qed.

(** ** Detector *)

(** The detector after downsampling has the shape of the new patterns; for integer binning the
    binning is multiplied by the factor, its physical size stays the same, and every point keeps its
    gnomonic coordinates: what was at pixel position (y, x) is now at (y / f, x / f). *)
Theorem C22_detector_follows f d ny nx b :
  (1 < f)%nat -> Detector.d_ny d = Z.of_nat ny -> Detector.d_nx d = Z.of_nat nx ->
  (ny mod f = 0)%nat -> (nx mod f = 0)%nat -> (1 <= ny)%nat -> (1 <= nx)%nat -> Detector.d_binning d = IZR b ->
  let d' := downsample_detector f (ny / f) (nx / f) d in
  Detector.d_ny d' = Z.of_nat (ny / f) /\ Detector.d_nx d' = Z.of_nat (nx / f)
  /\ Detector.d_binning d' = Detector.d_binning d * INR f
  /\ Detector.height d' = Detector.height d /\ Detector.width d' = Detector.width d
  /\ Detector.d_pc d' = Detector.d_pc d
  /\ forall p y x, Detector.pcz p <> 0 ->
     Detector.to_gnomonic d' p (y / INR f, x / INR f) = Detector.to_gnomonic d p (y, x).
Proof.
  intros Hf Ey Ex Dy Dx Hy Hx Eb d'. split; [reflexivity|]. split; [reflexivity|].
  assert (F : 1 < INR f) by (change 1 with (INR 1); now apply lt_INR).
  assert (D : forall n, (n mod f = 0)%nat -> IZR (Z.of_nat n) = IZR (Z.of_nat (n / f)) * INR f).
  { intros n Hn. rewrite <- !INR_IZR_INZ, <- mult_INR. f_equal. pose proof (Nat.div_mod n f). lia. }
  assert (N : forall n, (n mod f = 0)%nat -> (1 <= n)%nat -> IZR (Z.of_nat (n / f)) <> 0).
  { intros n Hn H1. apply not_0_IZR. pose proof (Nat.div_mod n f). intros E. assert (n / f = 0)%nat by lia. nia. }
  assert (B : Detector.d_binning d' = Detector.d_binning d * INR f).
  { unfold d', downsample_detector. cbn [Detector.d_binning]. now rewrite Eb, trunc_IZR. }
  split; [exact B|].
  unfold Detector.height, Detector.width, Detector.nrows, Detector.ncols. rewrite B, Ey, Ex.
  cbn [d' downsample_detector Detector.d_ny Detector.d_nx Detector.d_px_size Detector.d_pc].
  split; [rewrite (D ny) by auto; ring|]. split; [rewrite (D nx) by auto; ring|]. split; [reflexivity|].
  intros p y x Hz.
  unfold Detector.to_gnomonic, Detector.apply_factors, Detector.pix_to_gn, Detector.x_max, Detector.x_min, Detector.y_max,
    Detector.y_min, Detector.aspect_ratio, Detector.nrows, Detector.ncols.
  cbn [d' downsample_detector Detector.d_ny Detector.d_nx Detector.m_x Detector.m_y Detector.c_x Detector.c_y fst snd].
  rewrite Ey, Ex, (D ny) by auto. rewrite (D nx) by auto.
  pose proof (N ny Dy Hy). pose proof (N nx Dx Hx).
  set (v := IZR (Z.of_nat (ny / f))) in *. set (u := IZR (Z.of_nat (nx / f))) in *.
  replace (v * INR f - 1 + 1) with (v * INR f) by ring. replace (u * INR f - 1 + 1) with (u * INR f) by ring.
  replace (v - 1 + 1) with v by ring. replace (u - 1 + 1) with u by ring.
  f_equal; field; repeat split; auto; lra.
Qed.
(** Binning that is not an integer is truncated first. *)
Theorem C22_fractional_binning_refuted f d ny nx : (1 < f)%nat -> 0 <= Detector.d_binning d ->
  (forall z, Detector.d_binning d <> IZR z) ->
  Detector.d_binning (downsample_detector f ny nx d) < Detector.d_binning d * INR f.
Proof.
  intros Hf Hb Hz. unfold downsample_detector. cbn [Detector.d_binning].
  assert (F : 1 < INR f) by (change 1 with (INR 1); now apply lt_INR).
  apply Rmult_lt_compat_r; [lra|]. pose proof (trunc_nonneg _ Hb) as [[H _] _].
  destruct H as [H|H]; [exact H|]. exfalso. apply (Hz (Detector.trunc (Detector.d_binning d))). now symmetry.
Qed.

(** ** The whole signal *)

(** Downsampling in place gives each pattern, the background and the detector their downsampled
    form. *)
Theorem C22_downsample_in_place h s f h' s' out :
  call (Downsample f) true h s = Some (h', s', out) -> (1 < f)%nat ->
  let ny := fst (s_shape s) in let nx := snd (s_shape s) in
  (ny mod f = 0 /\ nx mod f = 0)%nat /\ out = None /\ s_shape s' = (ny / f, nx / f)%nat
  /\ v_det (look_at h' s') = downsample_detector f (ny / f) (nx / f) (v_det (look_at h s))
  /\ v_bg (look_at h' s') = option_map (downsample2d f (s_dtype s)) (v_bg (look_at h s))
  /\ (forall y x, at_ (v_data (look_at h' s')) y x = downsample2d f (s_dtype s) (at_ (v_data (look_at h s)) y x)).
Proof.
  destruct s as [sd st sb sx [ny nx] sty sa]. unfold call. cbn [s_data s_det s_bg s_xmap s_shape s_dtype s_axes fst snd].
  intros E Hf. destruct (Nat.leb_spec f 1); [lia|].
  destruct ((ny mod f =? 0)%nat && (nx mod f =? 0)%nat) eqn:Em; [|discriminate]. cbn [negb] in E.
  apply andb_true_iff in Em. destruct Em as [Em1 Em2]. apply Nat.eqb_eq in Em1, Em2.
  split; [auto|].
  destruct sb as [b|]; heap_simpl; injection E as <- <- <-; unfold look_at; heap_simpl;
    cbn [s_data s_det s_bg s_xmap s_shape s_dtype s_axes v_data v_det v_bg option_map];
    rewrite ?put_same; repeat split.
Qed.

(** With inplace=False the data, background and crystal map of the signal are unchanged, and what is
    returned is what inplace=True would have made of the signal... *)
Theorem C22_downsample_copy_partial h s f h' s' out :
  call (Downsample f) false h s = Some (h', s', out) -> (forall k, In k (refs s) -> (k < next h)%nat) ->
  s' = s
  /\ v_data (look_at h' s) = v_data (look_at h s) /\ v_bg (look_at h' s) = v_bg (look_at h s)
  /\ v_xmap (look_at h' s) = v_xmap (look_at h s)
  /\ exists o h2 s2, out = Some o /\ call (Downsample f) true h s = Some (h2, s2, None) /\ look_at h' o = look_at h2 s2.
Proof.
  destruct s as [sd st sb sx [ny nx] sty sa]. unfold call. cbn [s_data s_det s_bg s_xmap s_shape s_dtype s_axes fst snd].
  intros E Hr. destruct (Nat.leb_spec f 1); [discriminate|]. destruct (negb _); [discriminate|].
  unfold refs in Hr. cbn [s_data s_det s_bg s_xmap] in Hr.
  assert (Hsd : (sd < next h)%nat) by (apply Hr; simpl; auto).
  assert (Hst : (st < next h)%nat) by (apply Hr; simpl; auto).
  assert (Hsx : forall k, sx = Some k -> (k < next h)%nat).
  { intros k ->. apply Hr. right. right. apply in_app_iff. right. simpl. auto. }
  destruct sb as [b|].
  - assert (Hb : (b < next h)%nat) by (apply Hr; simpl; auto).
    heap_simpl. injection E as <- <- <-. unfold look_at. heap_simpl.
    cbn [s_data s_det s_bg s_xmap s_shape s_dtype s_axes v_data v_det v_bg v_xmap option_map].
    rewrite !put_other by lia. repeat split.
    do 3 eexists. split; [reflexivity|]. split; [reflexivity|]. heap_simpl.
    cbn [s_data s_det s_bg s_xmap s_shape s_dtype s_axes option_map]. rewrite !put_same. reflexivity.
  - heap_simpl. injection E as <- <- <-. unfold look_at. heap_simpl.
    cbn [s_data s_det s_bg s_xmap s_shape s_dtype s_axes v_data v_det v_bg v_xmap option_map].
    rewrite !put_other by lia. repeat split.
    do 3 eexists. split; [reflexivity|]. split; [reflexivity|]. heap_simpl.
    cbn [s_data s_det s_bg s_xmap s_shape s_dtype s_axes option_map]. rewrite !put_same. reflexivity.
Qed.
(** ... but the detector of the original is changed, in every such call: afterwards it has the shape
    of the new patterns, not of its own. *)
Theorem C22_downsample_copy_keeps_detector_refuted h s f h' s' out :
  call (Downsample f) false h s = Some (h', s', out) -> (1 <= fst (s_shape s))%nat ->
  let d := v_det (look_at h' s) in
  (Detector.d_ny d, Detector.d_nx d) = (Z.of_nat (fst (s_shape s) / f), Z.of_nat (snd (s_shape s) / f))
  /\ Detector.d_ny d <> Z.of_nat (fst (s_shape s)).
Proof.
  destruct s as [sd st sb sx [ny nx] sty sa]. unfold call. cbn [s_data s_det s_bg s_xmap s_shape s_dtype s_axes fst snd].
  intros E Hy. destruct (Nat.leb_spec f 1); [discriminate|]. destruct (negb _); [discriminate|].
  assert (Hlt : (ny / f < ny)%nat) by (apply Nat.div_lt; lia).
  destruct sb as [b|]; heap_simpl; injection E as <- <- <-; unfold look_at; heap_simpl;
    cbn [s_data s_det s_bg s_xmap s_shape s_dtype s_axes v_data v_det v_bg v_xmap option_map];
    rewrite !put_same; unfold downsample_detector; cbn [Detector.d_ny Detector.d_nx]; (split; [reflexivity|lia]).
Qed.

(** A factor of 1 or less, or one that does not divide the shape, raises an error. *)
Theorem C22_invalid_factor_refused h s f inplace :
  (f <= 1)%nat \/ (fst (s_shape s) mod f <> 0)%nat \/ (snd (s_shape s) mod f <> 0)%nat ->
  call (Downsample f) inplace h s = None.
Proof.
  intros H. unfold call. destruct (s_shape s) as [ny nx]. cbn [fst snd] in H.
  destruct (Nat.leb_spec f 1); [reflexivity|].
  replace ((ny mod f =? 0)%nat && (nx mod f =? 0)%nat) with false; [reflexivity|].
  symmetry. apply andb_false_iff. rewrite !Nat.eqb_neq. intuition lia.
Qed.

(** A signal of one map point with the pattern above, to which all this applies. *)
Definition heap1 : heap :=
  Heap 1 (fun _ => AMap 1 1 (fun _ _ => small))
    (fun _ => Detector.Det 2 4 50 8 0 0 0 70 (Detector.PCArray [1%nat] [Detector.PC 0.5 0.5 0.5]))
    (fun _ => small) (fun _ => AMap 1 1 (fun _ _ => 0%nat)).
Definition signal1 : signal := Signal 0 0 (Some 0%nat) (Some 0%nat) (2, 4)%nat UInt8 (Calibrated 1).
Example downsample_case : exists r, call (Downsample 2) false heap1 signal1 = Some r.
Proof. eexists. reflexivity. Qed.

Print Assumptions C22_blocks_replaced_by_their_mean.
Print Assumptions C22_detector_follows.
