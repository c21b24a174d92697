From Coq Require Import List Arith ZArith Bool Reals Lra Lia.
From Verif Require Import Model.Pattern Model.Intensity Model.MapOverlap Model.AverageNeighbours Spec.WeightedMean
  Proofs.ListLemmas Proofs.MapOverlapProofs Proofs.PatternProofs Proofs.IntensityProofs Proofs.NeighbourDotProofs
  Proofs.PyArrayProofs.
From Verif Require Model.Detector Model.Window.
Import ListNotations.
Local Open Scope R_scope.

Definition weight (w : rwindow) (i j : nat) : R := nth (i * rnx w + j) (weights w) 0.

Lemma vsum_app p q : vsum (p ++ q) = vsum p + vsum q.
Proof. unfold vsum. induction p as [|a p IH]; simpl; [ring|]. rewrite IH. ring. Qed.
Lemma vsum_flat_map {A} (f : A -> list R) l : vsum (flat_map f l) = vsum (map (fun a => vsum (f a)) l).
Proof. induction l as [|a l IH]; [reflexivity|]. simpl. rewrite vsum_app, IH. reflexivity. Qed.
Lemma vsum_ext {A} (f g : A -> R) l : (forall a, In a l -> f a = g a) -> vsum (map f l) = vsum (map g l).
Proof. intros H. f_equal. apply map_ext_in. exact H. Qed.
Lemma vsum_map_scale {A} c (f : A -> R) l : vsum (map (fun a => c * f a) l) = c * vsum (map f l).
Proof. unfold vsum. induction l as [|a l IH]; simpl; [ring|]. rewrite IH. ring. Qed.
Lemma vsum_nonneg l : (forall a, In a l -> 0 <= a) -> 0 <= vsum l.
Proof.
  induction l as [|a l IH]; intros H; simpl; [unfold vsum; simpl; lra|].
  assert (0 <= a) by (apply H; left; reflexivity).
  assert (0 <= vsum l) by (apply IH; intros b Hb; apply H; right; exact Hb). unfold vsum in *. simpl. lra.
Qed.
Lemma vsum_ge_member l a : (forall b, In b l -> 0 <= b) -> In a l -> a <= vsum l.
Proof.
  induction l as [|c l IH]; intros H Ha; [contradiction|].
  assert (Hc : 0 <= c) by (apply H; left; reflexivity).
  assert (Hl : 0 <= vsum l) by (apply vsum_nonneg; intros b Hb; apply H; right; exact Hb).
  unfold vsum in *. simpl. destruct Ha as [->|Ha]; [lra|].
  assert (a <= fold_right Rplus 0 l) by (apply IH; [|exact Ha]; intros b Hb; apply H; right; exact Hb). lra.
Qed.

Lemma divmod_row i j n : (j < n)%nat -> ((i * n + j) / n = i /\ (i * n + j) mod n = j)%nat.
Proof.
  intros H. split.
  - rewrite Nat.div_add_l by lia. rewrite (Nat.div_small j) by lia. lia.
  - rewrite Nat.add_comm, Nat.mod_add by lia. apply Nat.mod_small. exact H.
Qed.

(** correlate is the sum over the window positions inside the map. *)
Lemma correlate_window_sum {A} (w : rwindow) (m : amap A) value y x :
  correlate w m value y x =
  window_sum (nrows m) (ncols m) (rny w) (rnx w) y x (fun i j yy xx => weight w i j * value (at_ m yy xx)).
Proof.
  unfold correlate, window_sum. change (fold_right Rplus 0) with vsum.
  rewrite seq_rows, map_flat_map, !vsum_flat_map. apply vsum_ext. intros i Hi.
  rewrite vsum_flat_map, map_map. apply vsum_ext. intros j Hj. apply in_seq in Hj.
  destruct (divmod_row i j (rnx w)) as [-> ->]; [lia|].
  unfold look, inside. destruct (_ && _ && _ && _)%Z%bool; unfold vsum, weight; simpl; ring.
Qed.

Lemma window_sum_ext rows cols ny nx y x g h :
  (forall i j yy xx, (i < ny)%nat -> (j < nx)%nat -> (yy < rows)%nat -> (xx < cols)%nat -> g i j yy xx = h i j yy xx) ->
  window_sum rows cols ny nx y x g = window_sum rows cols ny nx y x h.
Proof.
  intros H. unfold window_sum. f_equal. apply flat_map_ext_in. intros i Hi. apply flat_map_ext_in. intros j Hj.
  apply in_seq in Hi. apply in_seq in Hj.
  cbv zeta. destruct (_ && _ && _ && _)%Z%bool eqn:E; [|reflexivity].
  rewrite !andb_true_iff, !Z.leb_le, !Z.ltb_lt in E. f_equal. apply H; lia.
Qed.

Lemma correlate_zip w (m : amap pattern) (s : amap Z) n y x :
  correlate w (zip m s) (fun q => nth n (fst q) 0) y x = correlate w m (fun p => nth n p 0) y x.
Proof. rewrite !correlate_window_sum. reflexivity. Qed.

Lemma correlate_local {A} w value (m m' : amap A) y x y' x' :
  (forall i j, - Z.of_nat (rny w / 2) <= i <= Z.of_nat (rny w - 1 - rny w / 2) ->
               - Z.of_nat (rnx w / 2) <= j <= Z.of_nat (rnx w - 1 - rnx w / 2) ->
       look m (Z.of_nat y + i) (Z.of_nat x + j) = look m' (Z.of_nat y' + i) (Z.of_nat x' + j))%Z ->
  correlate w m value y x = correlate w m' value y' x'.
Proof.
  intros H. unfold correlate. apply vsum_ext. intros k Hk. apply in_seq in Hk.
  assert (Hp : (0 < rnx w)%nat) by (destruct (rnx w); lia).
  assert (Hq : (k / rnx w < rny w)%nat) by (apply Nat.div_lt_upper_bound; lia).
  assert (Hr : (k mod rnx w < rnx w)%nat) by (apply Nat.mod_upper_bound; lia).
  assert (H1 : (rny w / 2 < rny w)%nat) by (apply Nat.div_lt; lia).
  assert (H2 : (rnx w / 2 < rnx w)%nat) by (apply Nat.div_lt; lia).
  rewrite <- !Z.add_sub_assoc. rewrite H by lia. reflexivity.
Qed.

Lemma average_at_local t w : (0 < rny w)%nat -> (0 < rnx w)%nat ->
  local (rny w / 2) (rny w - 1 - rny w / 2) (rnx w / 2) (rnx w - 1 - rnx w / 2) (average_at t w).
Proof.
  intros Hwy Hwx m m' y x y' x' Hy Hx Hy' Hx' H.
  assert (H1 : (rny w / 2 < rny w)%nat) by (apply Nat.div_lt; lia).
  assert (H2 : (rnx w / 2 < rnx w)%nat) by (apply Nat.div_lt; lia).
  assert (Ec : at_ m y x = at_ m' y' x').
  { pose proof (H 0 0)%Z as H0. rewrite !Z.add_0_r in H0. unfold look in H0.
    rewrite !here_inside in H0 by assumption. rewrite !Nat2Z.id in H0.
    assert (E : Some (at_ m y x) = Some (at_ m' y' x')) by (apply H0; lia). congruence. }
  unfold average_at. rewrite Ec. destruct (at_ m' y' x') as [p s].
  destruct (s =? 0)%Z; [reflexivity|].
  assert (E : map (fun n => correlate w m (fun q => nth n (fst q) 0) y x) (seq 0 (length p))
            = map (fun n => correlate w m' (fun q => nth n (fst q) 0) y' x') (seq 0 (length p))).
  { apply map_ext. intros n. apply correlate_local. exact H. }
  rewrite E. reflexivity.
Qed.

(** Rescaling to the extremes does not see a positive factor. *)
Lemma rescale_scale t c p : 0 < c ->
  rescale_intensity None None t None (map (fun v => c * v) p) = rescale_intensity None None t None p.
Proof.
  intros Hc. destruct p as [|a r]; [reflexivity|].
  rewrite !rescale_default_eq. rewrite map_map. apply map_ext. intros v. f_equal. unfold rescale_map.
  assert (Hmono : forall u v, u <= v -> c * u <= c * v) by (intros; apply Rmult_le_compat_l; lra).
  rewrite vmin_map, vmax_map by (try exact Hmono; discriminate).
  set (lo := vmin (a :: r)). set (hi := vmax (a :: r)).
  replace (c * v - c * lo) with (c * (v - lo)) by ring. replace (c * hi - c * lo) with (c * (hi - lo)) by ring.
  f_equal. f_equal. destruct (Req_dec (hi - lo) 0) as [E|E].
  - rewrite E, Rmult_0_r. unfold Rdiv. rewrite Rinv_0. ring.
  - field. split; lra.
Qed.

Lemma trunc_same_sign r : Detector.trunc r <> 0%Z -> 0 < r / IZR (Detector.trunc r) /\ r <> 0.
Proof.
  intros H. destruct (Rle_dec 0 r) as [Hr|Hr].
  - destruct (trunc_nonneg r Hr) as [[H1 H2] H3].
    assert (Hz : 0 < IZR (Detector.trunc r)) by (apply (IZR_lt 0); lia).
    split; [|lra]. apply Rdiv_lt_0_compat; lra.
  - destruct (trunc_neg r ltac:(lra)) as [[H1 H2] H3].
    assert (Hz : IZR (Detector.trunc r) < 0) by (apply (IZR_lt _ 0); lia).
    split; [|lra]. replace (r / IZR (Detector.trunc r)) with ((- r) / (- IZR (Detector.trunc r))) by (field; lra).
    apply Rdiv_lt_0_compat; lra.
Qed.
Lemma trunc_zero r : -1 < r < 1 -> Detector.trunc r = 0%Z.
Proof.
  intros H. destruct (Rle_dec 0 r) as [Hr|Hr].
  - destruct (trunc_nonneg r Hr) as [[H1 H2] H3]. assert (IZR (Detector.trunc r) < 1) by lra.
    apply lt_IZR in H0. lia.
  - destruct (trunc_neg r ltac:(lra)) as [[H1 H2] H3]. assert (-1 < IZR (Detector.trunc r)) by lra.
    apply (lt_IZR (-1)) in H0. lia.
Qed.
Lemma trunc_ge1 r : 1 <= r -> Detector.trunc r <> 0%Z.
Proof.
  intros H. pose proof (trunc_le 1 r H) as H1. replace 1 with (IZR 1) in H1 by reflexivity. rewrite trunc_IZR in H1. lia.
Qed.

(** The value at a point of the whole map. *)
Lemma average_whole t w (m : amap pattern) y x :
  let W := weight_sum (nrows m) (ncols m) (rny w) (rnx w) (weight w) y x in
  average_at t w (zip m (window_sums w m)) y x =
  if (Detector.trunc W =? 0)%Z then None
  else Some (rescale_intensity None None t None
         (weighted_mean (nrows m) (ncols m) (rny w) (rnx w) (weight w) (at_ m) y x)).
Proof.
  intros W. unfold average_at. cbn [zip at_ window_sums].
  assert (E0 : correlate w m (fun _ => 1) y x = W).
  { rewrite correlate_window_sum. unfold W, weight_sum. apply window_sum_ext. intros. ring. }
  rewrite E0. destruct (Z.eqb_spec (Detector.trunc W) 0) as [|Hne]; [reflexivity|].
  f_equal. destruct (trunc_same_sign W Hne) as [Hpos HW].
  change (map (cast t) (rescale_with_min_max (vmin ?p) (vmax ?p) (dtype_min t) (dtype_max t) ?p))
    with (rescale_intensity None None t None p).
  assert (Hk : 0 < IZR (Detector.trunc W) / W).
  { assert (Hi := Rinv_0_lt_compat _ Hpos). unfold Rdiv in *. rewrite Rinv_mult, Rinv_inv in Hi. lra. }
  rewrite <- (rescale_scale t (IZR (Detector.trunc W) / W) (map _ (map _ _)) Hk).
  f_equal. unfold weighted_mean. fold W. rewrite !map_map. apply map_ext. intros n.
  rewrite correlate_zip, correlate_window_sum.
  assert (IZR (Detector.trunc W) <> 0) by (apply not_0_IZR; exact Hne). field. split; assumption.
Qed.
