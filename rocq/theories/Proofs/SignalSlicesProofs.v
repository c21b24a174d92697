From Coq Require Import List Arith ZArith Reals Bool Lra Lia.
From Verif Require Import Model.MapOverlap Model.Downsample Model.SignalSlices Spec.Slices.
From Verif Require Model.Detector Proofs.DetectorProofs.
Import ListNotations.

Lemma indices_bounds n s lo hi : indices n s = (lo, hi) -> lo <= n /\ hi <= n.
Proof.
  unfold indices, bound. intros E. injection E as <- <-. destruct (start s) as [a|], (stop s) as [b|];
    try destruct (Z.ltb_spec a 0); try destruct (Z.ltb_spec b 0); lia.
Qed.
Lemma indices_selected n s lo hi k : indices n s = (lo, hi) ->
  (lo <= k < hi <-> selected (Z.of_nat n) (start s) (stop s) (Z.of_nat k)).
Proof.
  unfold indices, bound, selected, from_end. intros E. injection E as <- <-. destruct (start s) as [a|], (stop s) as [b|];
    try destruct (Z.ltb_spec a 0); try destruct (Z.ltb_spec b 0); lia.
Qed.
Lemma take_at {A} (m : amap A) ys xs y0 y1 x0 x1 : indices (nrows m) ys = (y0, y1) -> indices (ncols m) xs = (x0, x1) ->
  take m ys xs = sub m y0 y1 x0 x1.
Proof. intros E1 E2. unfold take. now rewrite E1, E2. Qed.

(** Slices whose ends the code turns into the right extent. *)
Definition good (n : nat) (s : slice) : Prop :=
  match start s with Some a => (0 <= a)%Z | None => True end
  /\ match stop s with
     | Some b => (0 <= b)%Z
     | None => match start s with Some a => a = 0%Z | None => True end
     end.
Lemma crop_clip d t b l r : Detector.crop d (t, b, l, r)
  = Detector.crop d (Z.max t 0, Z.min b (Detector.d_ny d), Z.max l 0, Z.min r (Detector.d_nx d)).
Proof.
  unfold Detector.crop. cbv zeta.
  rewrite (Z.max_l (Z.max t 0)), (Z.max_l (Z.max l 0)), (Z.min_l (Z.min b _)), (Z.min_l (Z.min r _)) by lia. reflexivity.
Qed.

Lemma good_extent ny nx ys xs y0 y1 x0 x1 d :
  Detector.d_ny d = Z.of_nat ny -> Detector.d_nx d = Z.of_nat nx -> good ny ys -> good nx xs ->
  indices ny ys = (y0, y1) -> indices nx xs = (x0, x1) -> y0 < y1 -> x0 < x1 ->
  Detector.crop d (extent (y1 - y0) (x1 - x0) ys xs)
  = Detector.crop d (Z.of_nat y0, Z.of_nat y1, Z.of_nat x0, Z.of_nat x1).
Proof.
  intros Ey Ex Gy Gx Iy Ix Ly Lx. unfold extent. rewrite crop_clip, Ey, Ex.
  destruct (indices_bounds _ _ _ _ Iy). destruct (indices_bounds _ _ _ _ Ix).
  unfold indices, bound, good in *. injection Iy as A1 A2. injection Ix as B1 B2.
  f_equal. f_equal; [f_equal; [f_equal|]|].
  - destruct (start ys) as [a|]; [destruct (Z.ltb_spec a 0)|]; lia.
  - destruct (stop ys) as [b|]; [destruct (Z.ltb_spec b 0); lia|].
    destruct (start ys) as [a|]; [destruct Gy as [_ ->]; destruct (Z.ltb_spec 0 0)|]; lia.
  - destruct (start xs) as [a|]; [destruct (Z.ltb_spec a 0)|]; lia.
  - destruct (stop xs) as [b|]; [destruct (Z.ltb_spec b 0); lia|].
    destruct (start xs) as [a|]; [destruct Gx as [_ ->]; destruct (Z.ltb_spec 0 0)|]; lia.
Qed.
Lemma crop_some d t b l r : (0 <= t < b)%Z -> (b <= Detector.d_ny d)%Z -> (0 <= l < r)%Z -> (r <= Detector.d_nx d)%Z ->
  exists d', Detector.crop d (t, b, l, r) = Some d'.
Proof.
  intros. unfold Detector.crop. rewrite (Z.max_l t), (Z.max_l l), (Z.min_l b), (Z.min_l r) by lia. cbv zeta.
  destruct (Z.leb_spec (b - t) 0); [lia|]. destruct (Z.leb_spec (r - l) 0); [lia|]. eexists. reflexivity.
Qed.
Lemma isig_inv ys xs s s' : isig ys xs s = Some s' ->
  exists y0 y1 x0 x1, indices (fst (shape s)) ys = (y0, y1) /\ indices (snd (shape s)) xs = (x0, x1) /\ y0 < y1 /\ x0 < x1
    /\ s' = EBSD (AMap (nrows (patterns s)) (ncols (patterns s)) (fun r c => take (at_ (patterns s) r c) ys xs))
            (y1 - y0, x1 - x0) (update_detector (y1 - y0) (x1 - x0) ys xs (detector s))
            (option_map (fun b => take b ys xs) (background s)) (xmap s).
Proof.
  unfold isig, empty_slice. destruct (shape s) as [ny nx]. cbn [fst snd].
  destruct (indices ny ys) as [y0 y1] eqn:Ey. destruct (indices nx xs) as [x0 x1] eqn:Ex.
  destruct (Nat.leb_spec y1 y0); [discriminate|]. destruct (Nat.leb_spec x1 x0); [discriminate|]. cbn [orb].
  intros E. injection E as <-. exists y0, y1, x0, x1. auto.
Qed.
Lemma nth_error_flat_grid {A} (f : nat -> nat -> A) ny nx y0 x0 : forall r c, r < ny -> c < nx ->
  nth_error (flat_map (fun y => map (f y) (seq x0 nx)) (seq y0 ny)) (r * nx + c) = Some (f (y0 + r) (x0 + c)).
Proof.
  revert y0. induction ny; intros y0 r c Hr Hc; [lia|]. cbn [seq flat_map].
  destruct r as [|r].
  - rewrite nth_error_app1 by (rewrite map_length, seq_length; lia). simpl.
    rewrite nth_error_map. rewrite (nth_error_nth' _ 0) by (rewrite seq_length; lia). rewrite seq_nth by lia.
    simpl. now rewrite Nat.add_0_r.
  - rewrite nth_error_app2 by (rewrite map_length, seq_length; nia). rewrite map_length, seq_length.
    replace (S r * nx + c - nx) with (r * nx + c) by nia. rewrite IHny by lia. f_equal. f_equal. lia.
Qed.
