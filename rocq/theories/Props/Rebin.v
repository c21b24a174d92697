(** rebin(): property C62. *)
From Coq Require Import List Arith ZArith Reals Bool Lia Lra.
From Verif Require Import Spec.Consistency Model.Pattern Model.Intensity Model.MapOverlap Model.Downsample
  Model.SignalSlices Model.SignalHistory.
From Verif Require Model.Detector Proofs.DetectorProofs.
Import ListNotations.

(** The sum of f over 0 <= k < n. *)
Fixpoint sum_below (n : nat) (f : nat -> R) : R := match n with O => 0%R | S k => (sum_below k f + f k)%R end.
Lemma vsum_app a b : vsum (a ++ b) = (vsum a + vsum b)%R.
Proof. induction a; cbn [vsum fold_right app] in *; [unfold vsum; cbn; lra|]. unfold vsum in *. cbn. rewrite IHa. lra. Qed.
Lemma vsum_seq f n : vsum (map f (seq 0 n)) = sum_below n f.
Proof.
  induction n; [reflexivity|]. rewrite seq_S, map_app, vsum_app, IHn. cbn. unfold vsum. cbn. lra.
Qed.
Lemma vsum_grid (f : nat -> nat -> image) y x n m :
  vsum (map (fun b => at_ b y x) (flat_map (fun k => map (f k) (seq 0 m)) (seq 0 n)))
  = sum_below n (fun k => sum_below m (fun l => at_ (f k l) y x)).
Proof.
  induction n; [reflexivity|]. rewrite seq_S, flat_map_app, map_app, vsum_app, IHn. cbn [sum_below flat_map Nat.add].
  rewrite app_nil_r, map_map, vsum_seq. reflexivity.
Qed.

Lemma rebin_inv ky kx fy fx s s' : rebin ky kx fy fx s = Some s' ->
  (1 <= ky /\ 1 <= kx /\ 1 <= fy /\ 1 <= fx)%nat
  /\ (1 <= nrows (patterns s) / ky /\ 1 <= ncols (patterns s) / kx /\ 1 <= fst (shape s) / fy /\ 1 <= snd (shape s) / fx)%nat.
Proof.
  unfold rebin. destruct (shape s) as [ny nx]. cbn [fst snd]. destruct (existsb _ _) eqn:E; [discriminate|]. intros _.
  cbn [existsb] in E. repeat (apply orb_false_iff in E; destruct E as [?H E]).
  repeat match goal with H : (0 =? _)%nat = false |- _ => apply Nat.eqb_neq in H end. lia.
Qed.
Lemma div_all n k : (1 <= k)%nat -> (1 <= n)%nat -> (n / k = n)%nat -> k = 1%nat.
Proof. intros Hk Hn E. destruct (Nat.eq_dec k 1); [auto|]. pose proof (Nat.div_lt n k). lia. Qed.

(** Every new pattern is the sum of the patterns in a block of map points, and every new pixel the
    sum of the pixels in a block. *)
Theorem C62_sums ky kx fy fx s s' : consistent s -> rebin ky kx fy fx s = Some s' ->
  nrows (patterns s') = (nrows (patterns s) / ky)%nat /\ ncols (patterns s') = (ncols (patterns s) / kx)%nat
  /\ shape s' = (fst (shape s) / fy, snd (shape s) / fx)%nat
  /\ forall r c y x,
       at_ (at_ (patterns s') r c) y x
       = sum_below ky (fun k => sum_below kx (fun l => sum_below fy (fun i => sum_below fx (fun j =>
           at_ (at_ (patterns s) (r * ky + k)%nat (c * kx + l)%nat) (y * fy + i)%nat (x * fx + j)%nat)))).
Proof.
  intros Hc E. destruct (rebin_inv _ _ _ _ _ _ E) as [Hf Hn]. unfold rebin in E.
  destruct (shape s) as [ny nx] eqn:Es. cbn [fst snd] in *. destruct (existsb _ _); [discriminate|].
  destruct (not_empty _ Hc) as (P1 & P2 & P3 & P4). rewrite Es in P3, P4. cbn [fst snd] in *.
  destruct (_ && _ && _ && _)%bool eqn:Eall.
  - injection E as <-. repeat (apply andb_true_iff in Eall; destruct Eall as [Eall ?H]).
    repeat match goal with H : (_ =? _)%nat = true |- _ => apply Nat.eqb_eq in H end.
    assert (ky = 1%nat) as -> by (apply (div_all (nrows (patterns s))); lia). assert (kx = 1%nat) as -> by (apply (div_all (ncols (patterns s))); lia).
    assert (fy = 1%nat) as -> by (apply (div_all ny); lia). assert (fx = 1%nat) as -> by (apply (div_all nx); lia).
    rewrite !Nat.div_1_r. split; [reflexivity|]. split; [reflexivity|]. split; [exact Es|]. intros. cbn [sum_below].
    rewrite !Nat.mul_1_r, !Nat.add_0_r. lra.
  - injection E as <-. cbn [patterns shape rebin_map nrows ncols at_]. split; [reflexivity|]. split; [reflexivity|]. split; [reflexivity|].
    intros r c y x.
    rewrite (vsum_grid (fun k l => rebin_image fy fx (at_ (patterns s) (r * ky + k)%nat (c * kx + l)%nat)) y x ky kx).
    cbn [rebin_image at_].
    assert (X : forall n f g, (forall k, f k = g k) -> sum_below n f = sum_below n g) by (induction n; intros f g H; cbn; [auto|]; now rewrite (IHn f g H), H).
    apply X. intros k. apply X. intros l. rewrite vsum_seq. apply X. intros i. apply vsum_seq.
Qed.
Print Assumptions C62_sums.

(** The attributes.  The detector has the new shape of the patterns.  If the map has the same points,
    the PCs and the crystal map are as before and the static background is summed like the patterns;
    else PCs are all (0.5, 0.5, 0.5) and background and crystal map are gone. *)
Theorem C62_attributes ky kx fy fx s s' : consistent s -> rebin ky kx fy fx s = Some s' ->
  Detector.d_ny (detector s') = Z.of_nat (fst (shape s')) /\ Detector.d_nx (detector s') = Z.of_nat (snd (shape s'))
  /\ Detector.d_tilt (detector s') = Detector.d_tilt (detector s) /\ Detector.d_azimuthal (detector s') = Detector.d_azimuthal (detector s)
  /\ Detector.d_twist (detector s') = Detector.d_twist (detector s)
  /\ Detector.d_sample_tilt (detector s') = Detector.d_sample_tilt (detector s) /\ Detector.d_px_size (detector s') = Detector.d_px_size (detector s)
  /\ ((ky = 1 /\ kx = 1)%nat ->
      Detector.d_pc (detector s') = Detector.d_pc (detector s) /\ xmap s' = xmap s
      /\ match background s, background s' with
         | Some b, Some b' => nrows b' = fst (shape s') /\ ncols b' = snd (shape s')
             /\ forall y x, at_ b' y x = sum_below fy (fun i => sum_below fx (fun j => at_ b (y * fy + i)%nat (x * fx + j)%nat))
         | None, None => True
         | _, _ => False
         end)
  /\ (~ (ky = 1 /\ kx = 1)%nat ->
      pc_per_pattern (nrows (patterns s')) (ncols (patterns s')) (detector s')
      /\ (forall p, In p (Detector.pcs (Detector.d_pc (detector s'))) -> p = Detector.PC 0.5 0.5 0.5)
      /\ xmap s' = None /\ background s' = None).
Proof.
  intros Hc E. destruct (rebin_inv _ _ _ _ _ _ E) as [Hf Hn]. unfold rebin in E.
  pose proof (not_empty _ Hc) as (P1 & P2 & P3 & P4). pose proof (detector_has_shape _ Hc) as [D1 D2]. pose proof (background_has_shape _ Hc) as Hb.
  destruct (shape s) as [ny nx] eqn:Es. cbn [fst snd] in *. destruct (existsb _ _); [discriminate|].
  set (r := nrows (patterns s)) in *. set (c := ncols (patterns s)) in *.
  destruct (_ && _ && _ && _)%bool eqn:Eall.
  - injection E as <-. repeat (apply andb_true_iff in Eall; destruct Eall as [Eall ?H]).
    repeat match goal with H : (_ =? _)%nat = true |- _ => apply Nat.eqb_eq in H end.
    assert (ky = 1%nat) as -> by (apply (div_all r); lia). assert (kx = 1%nat) as -> by (apply (div_all c); lia).
    assert (fy = 1%nat) as -> by (apply (div_all ny); lia). assert (fx = 1%nat) as -> by (apply (div_all nx); lia).
    rewrite Es. cbn [fst snd]. do 7 (split; [auto|]). split; [|intros N; exfalso; apply N; auto].
    intros _. split; [auto|]. split; [auto|]. destruct (background s) as [b|]; [|auto].
    destruct (Hb b eq_refl). split; [auto|]. split; [auto|]. intros y x. cbn [sum_below]. rewrite !Nat.mul_1_r, !Nat.add_0_r. lra.
  - injection E as <-. cbn [detector shape patterns background xmap Detector.d_ny Detector.d_nx Detector.d_tilt Detector.d_azimuthal Detector.d_twist
      Detector.d_sample_tilt Detector.d_px_size Detector.d_pc fst snd rebin_map nrows ncols].
    do 7 (split; [reflexivity|]). split.
    + intros [-> ->]. rewrite !Nat.div_1_r, !Nat.eqb_refl. cbn [andb negb]. split; [auto|]. split; [auto|].
      destruct (background s) as [b|]; [|exact I]. destruct (Hb b eq_refl) as [B1 B2]. cbn [option_map rebin_image nrows ncols at_].
      rewrite B1, B2. split; [auto|]. split; [auto|]. intros y x. rewrite vsum_seq.
      assert (X : forall n f g, (forall k, f k = g k) -> sum_below n f = sum_below n g) by (induction n; intros f g H; cbn; [auto|]; now rewrite (IHn f g H), H).
      apply X. intros i. apply vsum_seq.
    + intros N.
      assert (Q : ((r / ky =? r) && (c / kx =? c))%nat = false).
      { apply andb_false_iff. destruct (Nat.eqb_spec (r / ky) r); [|auto]. destruct (Nat.eqb_spec (c / kx) c); [|auto].
        exfalso. apply N. split; [apply (div_all r)|apply (div_all c)]; lia. }
      rewrite Q. cbn [negb]. unfold pc_per_pattern. cbn [Detector.d_pc Detector.nav_shape Detector.pcs]. split; [|split; [|split; reflexivity]].
      * split; [reflexivity|]. apply repeat_length.
      * intros p Hp. now apply repeat_spec in Hp.
Qed.
Print Assumptions C62_attributes.

(** Each pixel position (y, x) on the old detector is position (y / fy, x / fx) on the new one.  It has
    the same gnomonic coordinates exactly if the two factors are the same and no pixels are left over
    (in the general case of PCx <> 0). *)
Theorem C62_gnomonic_coordinates_kept_iff_partial fy fx s s' p : consistent s -> rebin 1 1 fy fx s = Some s' ->
  Detector.pcz p <> 0%R -> Detector.pcx p <> 0%R ->
  ((forall y x, Detector.to_gnomonic (detector s') p (y / INR fy, x / INR fx)%R = Detector.to_gnomonic (detector s) p (y, x))
   <-> fy = fx /\ (fst (shape s) mod fy = 0)%nat /\ (snd (shape s) mod fx = 0)%nat).
Proof.
  intros Hc E Hz Hx. destruct (rebin_inv _ _ _ _ _ _ E) as [Hf Hn].
  destruct (C62_attributes _ _ _ _ _ _ Hc E) as (D1 & D2 & _). destruct (C62_sums _ _ _ _ _ _ Hc E) as (_ & _ & Sh & _).
  destruct (detector_has_shape _ Hc) as [E1 E2].
  unfold Detector.to_gnomonic, Detector.apply_factors, Detector.pix_to_gn, Detector.x_max, Detector.x_min, Detector.y_max,
    Detector.y_min, Detector.aspect_ratio, Detector.nrows, Detector.ncols.
  rewrite D1, D2, E1, E2, Sh. cbn [fst snd Detector.m_x Detector.m_y Detector.c_x Detector.c_y].
  destruct (shape s) as [ny nx]. cbn [fst snd] in *.
  rewrite <- !INR_IZR_INZ.
  set (a := INR ny). set (b := INR nx). set (a' := INR (ny / fy)). set (b' := INR (nx / fx)). set (u := INR fy). set (v := INR fx).
  assert (NZ : forall n, (1 <= n)%nat -> INR n <> 0%R) by (intros n H; apply not_0_INR; lia).
  assert (Ha : a <> 0%R) by (apply NZ; destruct (Nat.eq_dec ny 0) as [->|]; [rewrite Nat.div_0_l in Hn; lia|lia]).
  assert (Hb : b <> 0%R) by (apply NZ; destruct (Nat.eq_dec nx 0) as [->|]; [rewrite (Nat.div_0_l fx) in Hn; lia|lia]).
  assert (Ha' : a' <> 0%R) by (apply NZ; lia). assert (Hb' : b' <> 0%R) by (apply NZ; lia).
  assert (Hu : u <> 0%R) by (apply NZ; lia). assert (Hv : v <> 0%R) by (apply NZ; lia).
  replace (a - 1 + 1)%R with a by ring. replace (b - 1 + 1)%R with b by ring. replace (a' - 1 + 1)%R with a' by ring. replace (b' - 1 + 1)%R with b' by ring.
  set (q := Detector.pcz p) in *. set (X := Detector.pcx p) in *. set (Y := Detector.pcy p).
  split.
  - intros H. pose proof (H 1%R 0%R) as H1. pose proof (H 0%R 1%R) as H2. pose proof (H 0%R 0%R) as H0.
    injection H1 as K1 _. injection H2 as _ K2. injection H0 as _ K0.
    assert (M1 : (u * a' = a)%R).
    { assert (M : (1 / (u * a') = 1 / a)%R).
      { assert (K : ((- (1 - Y) / q - Y / q) / a' * (1 / u) + Y / q - Y / q = (- (1 - Y) / q - Y / q) / a * 1 + Y / q - Y / q)%R) by (rewrite K1; reflexivity).
        apply Rmult_eq_reg_l with (- (1 / q))%R; [|apply Ropp_neq_0_compat; unfold Rdiv; rewrite Rmult_1_l; now apply Rinv_neq_0_compat].
        transitivity ((- (1 - Y) / q - Y / q) / a' * (1 / u) + Y / q - Y / q)%R; [field; auto|]. rewrite K. field; auto. }
      assert (M' : ((u * a') * (1 / (u * a')) * a = (u * a') * (1 / a) * a)%R) by (rewrite M; reflexivity).
      assert (L1 : ((u * a') * (1 / (u * a')) * a = a)%R) by (field; auto). assert (L2 : ((u * a') * (1 / a) * a = u * a')%R) by (field; auto).
      congruence. }
    assert (M0 : (b' / a' = b / a)%R).
    { apply Rmult_eq_reg_l with (- (X / q))%R.
      - transitivity ((b' / a' * (1 - X) / q - - (b' / a') * (X / q)) / b' * (0 / v) + - (b' / a') * (X / q))%R; [field; auto|].
        rewrite K0. field; auto.
      - apply Ropp_neq_0_compat. unfold Rdiv. apply Rmult_integral_contrapositive_currified; [exact Hx|now apply Rinv_neq_0_compat]. }
    assert (M2 : (v * a' = a)%R).
    { assert (M : (1 / (v * a') = 1 / a)%R).
      { apply Rmult_eq_reg_l with (1 / q)%R; [|unfold Rdiv; rewrite Rmult_1_l; now apply Rinv_neq_0_compat].
        transitivity ((b' / a' * (1 - X) / q - - (b' / a') * (X / q)) / b' * (1 / v) + - (b' / a') * (X / q) + b' / a' * (X / q))%R; [field; auto|].
        rewrite K2, M0. field; auto. }
      assert (M' : ((v * a') * (1 / (v * a')) * a = (v * a') * (1 / a) * a)%R) by (rewrite M; reflexivity).
      assert (L1 : ((v * a') * (1 / (v * a')) * a = a)%R) by (field; auto). assert (L2 : ((v * a') * (1 / a) * a = v * a')%R) by (field; auto).
      congruence. }
    assert (fy = fx).
    { apply INR_eq. fold u v. apply Rmult_eq_reg_r with a'; [congruence|auto]. }
    subst fx. split; [reflexivity|].
    assert (N1 : (fy * (ny / fy) = ny)%nat) by (apply INR_eq; rewrite mult_INR; exact M1).
    assert (M3 : (u * b' = b)%R).
    { assert (L : (b' * a = b * a')%R).
      { assert (L1 : (b' / a' * (a * a') = b' * a)%R) by (field; auto). assert (L2 : (b / a * (a * a') = b * a')%R) by (field; auto). rewrite <- L1, <- L2, M0. reflexivity. }
      apply Rmult_eq_reg_r with a'; [|auto]. transitivity (b' * (u * a'))%R; [ring|]. rewrite M1. exact L. }
    assert (N2 : (fy * (nx / fy) = nx)%nat) by (apply INR_eq; rewrite mult_INR; exact M3).
    pose proof (Nat.div_mod ny fy). pose proof (Nat.div_mod nx fy). lia.
  - intros (<- & My & Mx) y x.
    assert (A : (a = u * a')%R) by (unfold a, u, a'; rewrite <- mult_INR; f_equal; pose proof (Nat.div_mod ny fy); lia).
    assert (B : (b = u * b')%R) by (unfold b, u, b'; rewrite <- mult_INR; f_equal; pose proof (Nat.div_mod nx fy); lia).
    change v with u. rewrite A, B. f_equal; field; repeat split; auto.
Qed.
Print Assumptions C62_gnomonic_coordinates_kept_iff_partial.

(** Rebinning pixels by one factor without leftover pixels keeps the physical size of the detector: the
    (integer) binning is multiplied by the factor. *)
Theorem C62_binning_partial f s s' b : consistent s -> rebin 1 1 f f s = Some s' -> (1 <= f)%nat ->
  (fst (shape s) mod f = 0)%nat -> (snd (shape s) mod f = 0)%nat -> Detector.d_binning (detector s) = IZR b ->
  Detector.d_binning (detector s') = (Detector.d_binning (detector s) * INR f)%R
  /\ Detector.height (detector s') = Detector.height (detector s) /\ Detector.width (detector s') = Detector.width (detector s).
Proof.
  intros Hc E Hf My Mx Hb. destruct (C62_attributes _ _ _ _ _ _ Hc E) as (D1 & D2 & _ & _ & _ & _ & D7 & _).
  destruct (C62_sums _ _ _ _ _ _ Hc E) as (_ & _ & Sh & _). destruct (detector_has_shape _ Hc) as [E1 E2].
  destruct (rebin_inv _ _ _ _ _ _ E) as [_ Hn]. pose proof (not_empty _ Hc) as (P1 & P2 & P3 & P4).
  assert (B : Detector.d_binning (detector s') = (Detector.d_binning (detector s) * INR f)%R).
  { unfold rebin in E. destruct (shape s) as [ny nx] eqn:Es. cbn [fst snd] in *. destruct (existsb _ _); [discriminate|].
    destruct (_ && _ && _ && _)%bool eqn:Eall.
    - injection E as <-. repeat (apply andb_true_iff in Eall; destruct Eall as [Eall ?H]).
      repeat match goal with H : (_ =? _)%nat = true |- _ => apply Nat.eqb_eq in H end.
      assert (f = 1%nat) as -> by (apply (div_all ny); lia). cbn. lra.
    - injection E as <-. cbn [detector Detector.d_binning]. unfold rebinned_binning. rewrite Hb, DetectorProofs.trunc_IZR.
      assert (A1 : (Z.of_nat ny = Z.of_nat f * Z.of_nat (ny / f))%Z) by (pose proof (Nat.div_mod ny f); lia).
      assert (A2 : (Z.of_nat nx = Z.of_nat f * Z.of_nat (nx / f))%Z) by (pose proof (Nat.div_mod nx f); lia).
      assert (A3 : (b * Z.of_nat ny = b * Z.of_nat f * Z.of_nat (ny / f))%Z) by (rewrite A1 at 1; ring).
      rewrite A3. replace (b * Z.of_nat nx * Z.of_nat (ny / f))%Z with (b * Z.of_nat f * Z.of_nat (ny / f) * Z.of_nat (nx / f))%Z by (rewrite A2 at 1; ring).
      rewrite Z.eqb_refl, Z.mod_mul, Z.div_mul by lia. cbn [andb Z.eqb]. rewrite mult_IZR, <- INR_IZR_INZ. reflexivity. }
  split; [exact B|]. unfold Detector.height, Detector.width, Detector.nrows, Detector.ncols. rewrite B, D1, D2, E1, E2, D7, Sh. cbn [fst snd].
  rewrite <- !INR_IZR_INZ.
  assert (A1 : (INR (fst (shape s)) = INR f * INR (fst (shape s) / f))%R) by (rewrite <- mult_INR; f_equal; pose proof (Nat.div_mod (fst (shape s)) f); lia).
  assert (A2 : (INR (snd (shape s)) = INR f * INR (snd (shape s) / f))%R) by (rewrite <- mult_INR; f_equal; pose proof (Nat.div_mod (snd (shape s)) f); lia).
  rewrite A1, A2. split; ring.
Qed.
Print Assumptions C62_binning_partial.

(** With pixels left over, the binning is not multiplied by the factor: 5 x 5 pixels rebinned by 2 are
    binned as much as before. *)
Theorem C62_binning_with_left_over_pixels_refuted s s' : consistent s -> rebin 1 1 2 2 s = Some s' ->
  shape s = (5, 5)%nat -> Detector.d_binning (detector s) = 1%R -> Detector.d_binning (detector s') = 1%R.
Proof.
  intros Hc E Es Hb. unfold rebin in E. rewrite Es in E. destruct (existsb _ _); [discriminate|].
  destruct (_ && _ && _ && _)%bool.
  - injection E as <-. exact Hb.
  - injection E as <-. cbn [detector Detector.d_binning]. unfold rebinned_binning. rewrite Hb, (DetectorProofs.trunc_IZR 1). reflexivity.
Qed.

Definition pixels46 : ebsd :=
  EBSD (AMap 3 2 (fun r c => AMap 4 6 (fun y x => INR (y * 6 + x)))) (4, 6)%nat
    (Detector.Det 4 6 70 2 0 0 0 70 (Detector.PCArray [1%nat] [Detector.PC 0.4 0.7 0.6]))
    (Some (AMap 4 6 (fun _ _ => 1%R))) (Some (AMap 3 2 (fun r c => (r * 2 + c)%nat))).
Definition pixels55 : ebsd :=
  EBSD (AMap 3 2 (fun r c => AMap 5 5 (fun y x => INR (y * 5 + x)))) (5, 5)%nat
    (Detector.Det 5 5 70 1 0 0 0 70 (Detector.PCArray [1%nat] [Detector.PC 0.4 0.7 0.6])) None None.
Example C62_case : consistent pixels46 /\ (exists s', rebin 1 1 2 2 pixels46 = Some s' /\ shape s' = (2, 3)%nat)
  /\ (exists s', rebin 2 1 2 3 pixels46 = Some s' /\ nrows (patterns s') = 1%nat)
  /\ consistent pixels55 /\ exists s', rebin 1 1 2 2 pixels55 = Some s'.
Proof.
  assert (C1 : consistent pixels46).
  { constructor; cbn; try lia; auto; [left; split; reflexivity| |]; intros m Em; injection Em as <-; auto. }
  assert (C2 : consistent pixels55).
  { constructor; cbn; try lia; auto; [left; split; reflexivity| |]; intros m Em; discriminate. }
  split; [exact C1|]. split; [eexists; split; reflexivity|]. split; [eexists; split; reflexivity|]. split; [exact C2|]. eexists. reflexivity.
Qed.
