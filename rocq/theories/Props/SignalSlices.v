(** Slicing and cropping of signals: property C25. *)
From Coq Require Import List Arith ZArith Reals Bool Lra Lia.
From Verif Require Import Model.MapOverlap Model.Downsample Model.SignalSlices Spec.Slices Proofs.SignalSlicesProofs.
From Verif Require Model.Detector Proofs.DetectorProofs.
Import ListNotations.

(** The detector, background and crystal map fit the patterns and the map. *)
Definition fits (s : ebsd) : Prop :=
  let (ny, nx) := shape s in
  DetectorProofs.valid (detector s)
  /\ Detector.d_ny (detector s) = Z.of_nat ny /\ Detector.d_nx (detector s) = Z.of_nat nx
  /\ (forall r c, nrows (at_ (patterns s) r c) = ny /\ ncols (at_ (patterns s) r c) = nx)
  /\ match background s with Some b => nrows b = ny /\ ncols b = nx | None => True end
  /\ match xmap s with Some m => nrows m = nrows (patterns s) /\ ncols m = ncols (patterns s) | None => True end.

(** Ends of a slice given, not negative, or the slice starts at the beginning of the axis. *)
Definition plain (s : slice) : Prop :=
  match start s, stop s with
  | Some a, Some b => (0 <= a)%Z /\ (0 <= b)%Z
  | None, Some b => (0 <= b)%Z
  | Some a, None => a = 0%Z
  | None, None => True
  end.

(** ** Which pixels are kept *)

(** isig keeps, of every pattern and of the background, exactly the selected rows and columns, in
    order, for all slices. *)
Theorem C25_isig_data s ys xs s' : fits s -> isig ys xs s = Some s' ->
  exists y0 x0,
    (forall k, (y0 <= k < y0 + fst (shape s'))%nat <-> selected (Z.of_nat (fst (shape s))) (start ys) (stop ys) (Z.of_nat k))
    /\ (forall k, (x0 <= k < x0 + snd (shape s'))%nat <-> selected (Z.of_nat (snd (shape s))) (start xs) (stop xs) (Z.of_nat k))
    /\ (forall r c, nrows (at_ (patterns s') r c) = fst (shape s') /\ ncols (at_ (patterns s') r c) = snd (shape s')
          /\ forall y x, at_ (at_ (patterns s') r c) y x = at_ (at_ (patterns s) r c) (y0 + y)%nat (x0 + x)%nat)
    /\ match background s, background s' with
       | Some b, Some b' => nrows b' = fst (shape s') /\ ncols b' = snd (shape s')
                            /\ forall y x, at_ b' y x = at_ b (y0 + y)%nat (x0 + x)%nat
       | None, None => True
       | _, _ => False
       end
    /\ xmap s' = xmap s /\ nrows (patterns s') = nrows (patterns s) /\ ncols (patterns s') = ncols (patterns s).
Proof.
  intros Hf E. destruct (isig_inv _ _ _ _ E) as (y0 & y1 & x0 & x1 & Iy & Ix & Ly & Lx & ->).
  unfold fits in Hf. destruct (shape s) as [ny nx]. cbn [fst snd] in *. cbn [shape patterns background xmap nrows ncols fst snd].
  destruct Hf as (_ & _ & _ & Hp & Hb & _).
  destruct (indices_bounds _ _ _ _ Iy). destruct (indices_bounds _ _ _ _ Ix).
  exists y0, x0. split; [|split; [|split; [|split; [|auto]]]].
  - intros k. rewrite <- (indices_selected _ _ _ _ k Iy). lia.
  - intros k. rewrite <- (indices_selected _ _ _ _ k Ix). lia.
  - intros r c. cbn [at_]. destruct (Hp r c) as [P1 P2]. rewrite (take_at _ _ _ y0 y1 x0 x1) by congruence.
    cbn [sub nrows ncols at_]. auto.
  - destruct (background s) as [b|]; [|exact I]. destruct Hb as [P1 P2]. cbn [option_map].
    rewrite (take_at _ _ _ y0 y1 x0 x1) by congruence. cbn [sub nrows ncols at_]. auto.
Qed.

(** ** Detector after isig *)

(** For plain slices the detector has the shape of the patterns, and each remaining pixel has the
    gnomonic coordinates it had, for every PC; tilts and pixel size are kept. *)
Theorem C25_isig_detector_partial s ys xs s' : fits s -> isig ys xs s = Some s' -> plain ys -> plain xs ->
  let d := detector s in let d' := detector s' in
  Detector.d_ny d' = Z.of_nat (fst (shape s')) /\ Detector.d_nx d' = Z.of_nat (snd (shape s'))
  /\ Detector.d_tilt d' = Detector.d_tilt d /\ Detector.d_azimuthal d' = Detector.d_azimuthal d
  /\ Detector.d_sample_tilt d' = Detector.d_sample_tilt d /\ Detector.d_px_size d' = Detector.d_px_size d
  /\ length (Detector.pcs (Detector.d_pc d')) = length (Detector.pcs (Detector.d_pc d))
  /\ exists y0 x0 : nat,
       (forall k, (y0 <= k < y0 + fst (shape s'))%nat <-> selected (Z.of_nat (fst (shape s))) (start ys) (stop ys) (Z.of_nat k))
       /\ (forall k, (x0 <= k < x0 + snd (shape s'))%nat <-> selected (Z.of_nat (snd (shape s))) (start xs) (stop xs) (Z.of_nat k))
       /\ forall i p p' y x, nth_error (Detector.pcs (Detector.d_pc d)) i = Some p ->
            nth_error (Detector.pcs (Detector.d_pc d')) i = Some p' -> Detector.pcz p <> 0%R ->
            Detector.to_gnomonic d' p' (y, x) = Detector.to_gnomonic d p (y + INR y0, x + INR x0)%R.
Proof.
  intros Hf E Py Px d d'. destruct (isig_inv _ _ _ _ E) as (y0 & y1 & x0 & x1 & Iy & Ix & Ly & Lx & Es). subst d d'.
  subst s'. unfold fits in Hf. destruct (shape s) as [ny nx]. cbn [fst snd] in *. cbn [shape detector fst snd].
  destruct Hf as (Hv & Ey & Ex & _).
  destruct (indices_bounds _ _ _ _ Iy) as [B1 B2]. destruct (indices_bounds _ _ _ _ Ix) as [B3 B4].
  assert (Gy : good ny ys) by (clear - Py; unfold good, plain in *; destruct (start ys), (stop ys); intuition lia).
  assert (Gx : good nx xs) by (clear - Px; unfold good, plain in *; destruct (start xs), (stop xs); intuition lia).
  unfold update_detector. rewrite (good_extent ny nx _ _ y0 y1 x0 x1) by assumption.
  destruct (crop_some (detector s) (Z.of_nat y0) (Z.of_nat y1) (Z.of_nat x0) (Z.of_nat x1)) as [d' Ed]; try lia.
  rewrite Ed.
  destruct (DetectorProofs.crop_inside (detector s) (Z.of_nat y0) (Z.of_nat y1) (Z.of_nat x0) (Z.of_nat x1) d')
    as (_ & _ & Q1 & Q2 & Q3 & Q4 & Q5 & Q6 & Q7 & Q8 & Q9 & Q10); try lia; [exact Ed|].
  split; [lia|]. split; [lia|]. do 4 (split; [congruence|]). split; [rewrite Q10, map_length; reflexivity|].
  exists y0, x0. split; [|split].
  - intros k. rewrite <- (indices_selected _ _ _ _ k Iy). lia.
  - intros k. rewrite <- (indices_selected _ _ _ _ k Ix). lia.
  - intros i p p' y x Hp Hp' Hz. rewrite !INR_IZR_INZ.
    apply (DetectorProofs.crop_gnomonic (detector s) (Z.of_nat y0) (Z.of_nat y1) (Z.of_nat x0) (Z.of_nat x1) d' i p p'); auto; lia.
Qed.

(** *** Other slices: refuted *)

(** isig[:, a:] with a > 0: the detector has n - 2 a rows, the patterns n - a... *)
Theorem C25_isig_open_end_refuted s a s' : fits s -> (0 < a)%Z -> (2 * a < Z.of_nat (fst (shape s)))%Z ->
  isig (Slice (Some a) None) everything s = Some s' ->
  Z.of_nat (fst (shape s')) = (Z.of_nat (fst (shape s)) - a)%Z
  /\ Detector.d_ny (detector s') = (Z.of_nat (fst (shape s)) - 2 * a)%Z.
Proof.
  intros Hf Ha Hn E. destruct (isig_inv _ _ _ _ E) as (y0 & y1 & x0 & x1 & Iy & Ix & Ly & Lx & ->).
  unfold fits in Hf. destruct (shape s) as [ny nx]. cbn [fst snd] in *. cbn [shape detector fst snd].
  destruct Hf as (_ & Ey & Ex & _). unfold indices, bound in Iy, Ix. cbn [start stop everything] in *.
  destruct (Z.ltb_spec a 0); [lia|]. injection Iy as I1 I2. injection Ix as I3 I4.
  unfold update_detector, extent. cbn [start stop everything]. rewrite crop_clip, Ey, Ex.
  split; [lia|]. unfold Detector.crop. rewrite Ey, Ex.
  replace (_ || _)%bool with false; [|symmetry; apply orb_false_iff; split; apply Z.leb_gt; lia]. cbn [Detector.d_ny]. lia.
Qed.
(** ... and if this is not positive all PCs are replaced by one PC (0.5, 0.5, 0.5). *)
Theorem C25_isig_open_end_loses_pcs_refuted s a s' : fits s -> (0 < a)%Z -> (Z.of_nat (fst (shape s)) <= 2 * a)%Z ->
  isig (Slice (Some a) None) everything s = Some s' ->
  Detector.pcs (Detector.d_pc (detector s')) = [Detector.PC 0.5 0.5 0.5].
Proof.
  intros Hf Ha Hn E. destruct (isig_inv _ _ _ _ E) as (y0 & y1 & x0 & x1 & Iy & Ix & Ly & Lx & ->).
  unfold fits in Hf. destruct (shape s) as [ny nx]. cbn [fst snd] in *. cbn [shape detector fst snd].
  destruct Hf as (_ & Ey & Ex & _). unfold indices, bound in Iy, Ix. cbn [start stop everything] in *.
  destruct (Z.ltb_spec a 0); [lia|]. injection Iy as I1 I2. injection Ix as I3 I4.
  unfold update_detector, extent. cbn [start stop everything]. unfold Detector.crop. rewrite Ey, Ex.
  replace (_ || _)%bool with true; [reflexivity|]. symmetry. apply orb_true_iff. left. apply Z.leb_le. lia.
Qed.
(** A negative stop, as in isig[:, :-1], loses the PCs. *)
Theorem C25_isig_negative_stop_refuted s a b xs s' : (b < 0)%Z ->
  isig (Slice a (Some b)) xs s = Some s' ->
  Detector.pcs (Detector.d_pc (detector s')) = [Detector.PC 0.5 0.5 0.5].
Proof.
  intros Hb E. destruct (isig_inv _ _ _ _ E) as (y0 & y1 & x0 & x1 & Iy & Ix & Ly & Lx & ->). cbn [detector].
  unfold update_detector, extent. cbn [start stop everything]. unfold Detector.crop.
  replace (_ || _)%bool with true; [reflexivity|]. symmetry. apply orb_true_iff. left. apply Z.leb_le. lia.
Qed.
(** A negative start, as in isig[:, -a:]: the shape is right but every pixel has the gnomonic
    coordinates of a pixel elsewhere on the detector. *)
Theorem C25_isig_negative_start_refuted s a s' : fits s -> (0 < a < Z.of_nat (fst (shape s)))%Z ->
  isig (Slice (Some (- a)%Z) None) everything s = Some s' ->
  Detector.d_ny (detector s') = Z.of_nat (fst (shape s'))
  /\ forall i p p' y x, nth_error (Detector.pcs (Detector.d_pc (detector s))) i = Some p ->
       nth_error (Detector.pcs (Detector.d_pc (detector s'))) i = Some p' -> Detector.pcz p <> 0%R ->
       Detector.to_gnomonic (detector s') p' (y, x)
       <> Detector.to_gnomonic (detector s) p (y + IZR (Z.of_nat (fst (shape s)) - a), x)%R.
Proof.
  intros Hf Ha E. destruct (isig_inv _ _ _ _ E) as (y0 & y1 & x0 & x1 & Iy & Ix & Ly & Lx & ->).
  unfold fits in Hf. destruct (shape s) as [ny nx]. cbn [fst snd] in *. cbn [shape detector fst snd].
  destruct Hf as (Hv & Ey & Ex & _). unfold indices, bound in Iy, Ix. cbn [start stop everything] in *.
  destruct (Z.ltb_spec (- a) 0); [|lia]. injection Iy as I1 I2. injection Ix as I3 I4.
  assert (K1 : (Z.of_nat (y1 - y0) = a)%Z) by lia. assert (K2 : (Z.of_nat (x1 - x0) = Z.of_nat nx)%Z) by lia.
  unfold update_detector, extent. cbn [start stop everything]. rewrite crop_clip, Ey, Ex, K1, K2.
  rewrite Z.max_r, Z.max_r, Z.min_l, Z.min_l by lia.
  destruct (crop_some (detector s) 0 a 0 (Z.of_nat nx)) as [d' Ed]; try lia. rewrite Ed.
  destruct (DetectorProofs.crop_inside (detector s) 0 a 0 (Z.of_nat nx) d')
    as (_ & _ & Q1 & _); try lia; [exact Ed|]. split; [lia|].
  intros i p p' y x Hp Hp' Hz Heq.
  rewrite (DetectorProofs.crop_gnomonic (detector s) 0 a 0 (Z.of_nat nx) d' i p p' y x) in Heq; auto; try lia.
  rewrite !Rplus_0_r in Heq.
  destruct (DetectorProofs.valid_pos _ Hv) as [V1 V2].
  apply (f_equal fst) in Heq. unfold Detector.to_gnomonic, Detector.apply_factors, Detector.pix_to_gn in Heq.
  cbn [Detector.m_y Detector.c_y fst snd] in Heq. unfold Detector.y_min, Detector.y_max in Heq.
  replace (Detector.nrows (detector s) - 1 + 1)%R with (Detector.nrows (detector s)) in Heq by ring.
  set (m := ((- (1 - Detector.pcy p) / Detector.pcz p - Detector.pcy p / Detector.pcz p) / Detector.nrows (detector s))%R) in *.
  assert (Hm : (m <> 0)%R).
  { unfold m. replace (- (1 - Detector.pcy p) / Detector.pcz p - Detector.pcy p / Detector.pcz p)%R with (- / Detector.pcz p)%R by (field; auto).
    intros Hm0. apply (f_equal (fun v => (v * Detector.nrows (detector s) * Detector.pcz p)%R)) in Hm0.
    replace (- / Detector.pcz p / Detector.nrows (detector s) * Detector.nrows (detector s) * Detector.pcz p)%R with (- 1)%R in Hm0
      by (field; split; lra). lra. }
  assert (Hz0 : (m * IZR (Z.of_nat ny - a) = 0)%R) by lra.
  apply Rmult_integral in Hz0. destruct Hz0 as [Hz0|Hz0]; [auto|]. apply eq_IZR in Hz0. lia.
Qed.

(** ** inav *)

(** For all slices: patterns, crystal map and per-point PCs are those of the selected map points; a
    detector with one PC keeps it; patterns themselves, background and the detector shape stay. *)
Theorem C25_inav s ys xs s' : fits s -> inav ys xs s = Some s' ->
  let a := Detector.d_pc (detector s) in let a' := Detector.d_pc (detector s') in
  exists y0 x0,
    (forall k, (y0 <= k < y0 + nrows (patterns s'))%nat <-> selected (Z.of_nat (nrows (patterns s))) (start ys) (stop ys) (Z.of_nat k))
    /\ (forall k, (x0 <= k < x0 + ncols (patterns s'))%nat <-> selected (Z.of_nat (ncols (patterns s))) (start xs) (stop xs) (Z.of_nat k))
    /\ (forall r c, at_ (patterns s') r c = at_ (patterns s) (y0 + r)%nat (x0 + c)%nat)
    /\ match xmap s, xmap s' with
       | Some m, Some m' => nrows m' = nrows (patterns s') /\ ncols m' = ncols (patterns s')
                            /\ forall r c, at_ m' r c = at_ m (y0 + r)%nat (x0 + c)%nat
       | None, None => True
       | _, _ => False
       end
    /\ (Detector.nav_shape a = [nrows (patterns s); ncols (patterns s)] ->
        length (Detector.pcs a) = (nrows (patterns s) * ncols (patterns s))%nat ->
        Detector.nav_shape a' = [nrows (patterns s'); ncols (patterns s')]
        /\ forall r c, (r < nrows (patterns s'))%nat -> (c < ncols (patterns s'))%nat ->
           nth_error (Detector.pcs a') (r * ncols (patterns s') + c)
           = nth_error (Detector.pcs a) ((y0 + r) * ncols (patterns s) + (x0 + c)))
    /\ (Detector.nav_shape a = [1%nat] -> a' = a)
    /\ background s' = background s /\ shape s' = shape s
    /\ Detector.d_ny (detector s') = Detector.d_ny (detector s) /\ Detector.d_nx (detector s') = Detector.d_nx (detector s).
Proof.
  intros Hf E a a'. subst a a'. unfold inav, empty_slice in E.
  destruct (indices (nrows (patterns s)) ys) as [y0 y1] eqn:Iy. destruct (indices (ncols (patterns s)) xs) as [x0 x1] eqn:Ix.
  destruct (Nat.leb_spec y1 y0) as [|Ly]; [discriminate|]. destruct (Nat.leb_spec x1 x0) as [|Lx]; [discriminate|].
  cbn [orb] in E. injection E as <-. cbn [patterns xmap detector background shape Detector.with_pc Detector.d_pc Detector.d_ny Detector.d_nx].
  rewrite (take_at _ _ _ _ _ _ _ Iy Ix). cbn [sub nrows ncols at_].
  destruct (indices_bounds _ _ _ _ Iy) as [B1 B2]. destruct (indices_bounds _ _ _ _ Ix) as [B3 B4].
  exists y0, x0. split; [|split; [|split; [|split; [|split; [|split; [|auto]]]]]].
  - intros k. rewrite <- (indices_selected _ _ _ _ k Iy). lia.
  - intros k. rewrite <- (indices_selected _ _ _ _ k Ix). lia.
  - auto.
  - unfold fits in Hf. destruct (shape s). destruct Hf as (_ & _ & _ & _ & _ & Hx).
    destruct (xmap s) as [m|]; [|exact I]. destruct Hx as [H1 H2]. cbn [option_map].
    rewrite (take_at _ _ _ y0 y1 x0 x1) by congruence. cbn [sub nrows ncols at_]. auto.
  - intros Hn Hl. unfold slice_pc. rewrite Hn, Iy, Ix. cbv iota.
    destruct (Nat.leb_spec y1 y0); [lia|]. destruct (Nat.leb_spec x1 x0); [lia|]. cbn [orb Detector.nav_shape Detector.pcs].
    split; [reflexivity|]. intros r c Hr Hc.
    rewrite (nth_error_flat_grid (fun y x => nth (y * ncols (patterns s) + x) (Detector.pcs (Detector.d_pc (detector s))) (Detector.PC 0 0 0))) by lia.
    symmetry. apply nth_error_nth'. rewrite Hl. nia.
  - intros Hn. unfold slice_pc. rewrite Hn. reflexivity.
Qed.

(** *** A signal slice followed by a map slice *)

(** After any plain isig the one PC of a detector is lost by a map slice that leaves out the first
    row of the map. *)
Theorem C25_isig_then_inav_loses_pc_refuted s ys xs a s1 xs' s2 p : fits s -> plain ys -> plain xs ->
  Detector.d_pc (detector s) = Detector.PCArray [1%nat] [p] ->
  isig ys xs s = Some s1 -> (1 <= a)%Z -> inav (Slice (Some a) None) xs' s1 = Some s2 ->
  Detector.d_pc (detector s2) = Detector.PCArray [1%nat] [Detector.PC 0.5 0.5 0.5].
Proof.
  intros Hf Py Px Hp E Ha E2. destruct (isig_inv _ _ _ _ E) as (y0 & y1 & x0 & x1 & Iy & Ix & Ly & Lx & Es).
  unfold fits in Hf. destruct (shape s) as [ny nx]. cbn [fst snd] in *. destruct Hf as (Hv & Ey & Ex & _).
  destruct (indices_bounds _ _ _ _ Iy) as [B1 B2]. destruct (indices_bounds _ _ _ _ Ix) as [B3 B4].
  assert (Gy : good ny ys) by (clear - Py; unfold good, plain in *; destruct (start ys), (stop ys); intuition lia).
  assert (Gx : good nx xs) by (clear - Px; unfold good, plain in *; destruct (start xs), (stop xs); intuition lia).
  assert (Hs : Detector.nav_shape (Detector.d_pc (detector s1)) = [1%nat; 1%nat]).
  { subst s1. cbn [detector]. unfold update_detector. rewrite (good_extent ny nx _ _ y0 y1 x0 x1) by assumption.
    destruct (crop_some (detector s) (Z.of_nat y0) (Z.of_nat y1) (Z.of_nat x0) (Z.of_nat x1)) as [d' Ed]; try lia.
    rewrite Ed.
    destruct (DetectorProofs.crop_inside (detector s) (Z.of_nat y0) (Z.of_nat y1) (Z.of_nat x0) (Z.of_nat x1) d')
      as (_ & _ & Q1 & Q2 & Q3 & Q4 & Q5 & Q6 & Q7 & Q8 & Q9 & Q10); try lia; [exact Ed|].
    rewrite Q9, Hp. reflexivity. }
  unfold inav in E2. destruct (_ || _)%bool; [discriminate|]. injection E2 as <-.
  cbn [detector Detector.with_pc Detector.d_pc]. unfold slice_pc. rewrite Hs.
  destruct (indices 1 (Slice (Some a) None)) as [u v] eqn:I1. destruct (indices 1 xs') as [u' v'].
  unfold indices, bound in I1. cbn [start stop] in I1. destruct (Z.ltb_spec a 0); [lia|]. injection I1 as I1 I2.
  rewrite (proj2 (Nat.leb_le v u)) by lia. reflexivity.
Qed.

(** ** crop() *)

(** Cropping the detector rows of a signal with a slice that starts before it ends does to the
    signal what isig does. *)
Theorem C25_crop_rows sl s s' : fits s -> crop_rows sl s = Some s' ->
  exists s'', isig sl everything s = Some s'' /\ shape s' = shape s''
    /\ (shape s' <> shape s -> s' = s'').
Proof.
  intros Hf E. unfold crop_rows in E. destruct (shape s) as [ny nx] eqn:Es.
  destruct (indices ny sl) as [y0 y1] eqn:Iy. destruct (empty_slice ny sl) eqn:He; [discriminate|].
  unfold fits in Hf. rewrite Es in Hf. destruct Hf as (Hv & _ & Ex & _).
  assert (Hnx : (0 < nx)%nat) by (destruct Hv as (_ & Hv & _); lia).
  assert (Ei : exists s'', isig sl everything s = Some s'' /\ shape s'' = (y1 - y0, nx)%nat).
  { unfold isig. rewrite Es, He. unfold empty_slice. change (indices nx everything) with (0, nx). cbn [orb].
    destruct (Nat.leb_spec nx 0); [lia|]. rewrite Iy. eexists. split; [reflexivity|]. cbn [shape]. f_equal. lia. }
  destruct Ei as (s'' & Ei & Hs). exists s''. split; [exact Ei|].
  destruct (Nat.eqb_spec (y1 - y0) ny) as [En|En].
  - injection E as <-. rewrite Hs, Es, En. split; [reflexivity|]. congruence.
  - rewrite Ei in E. injection E as <-. split; reflexivity.
Qed.

(** A 3 x 2 map of 6 x 8 patterns, to which all this applies. *)
Definition example : ebsd :=
  EBSD (AMap 3 2 (fun r c => AMap 6 8 (fun y x => INR (r + c + y * x)))) (6, 8)%nat
    (Detector.Det 6 8 50 8 0 0 0 70 (Detector.PCArray [1%nat] [Detector.PC 0.4 0.3 0.6]))
    (Some (AMap 6 8 (fun y x => INR (y + x)))) (Some (AMap 3 2 (fun r c => (2 * r + c)%nat))).
Example example_fits : fits example.
Proof.
  unfold fits, example. cbn. split; [unfold DetectorProofs.valid; cbn; repeat split; try lia; lra|]. repeat split.
Qed.
Example example_sliced : exists s1 s2 s3 s4 s5,
  isig (Slice (Some 1%Z) (Some 5%Z)) everything example = Some s1
  /\ isig (Slice (Some 1%Z) None) everything example = Some s2
  /\ isig (Slice None (Some (-2)%Z)) everything example = Some s3
  /\ isig (Slice (Some (-2)%Z) None) everything example = Some s4
  /\ inav (Slice (Some 1%Z) None) everything s1 = Some s5.
Proof. do 5 eexists. repeat split; reflexivity. Qed.

Print Assumptions C25_isig_detector_partial.
Print Assumptions C25_inav.
