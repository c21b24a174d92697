From Coq Require Import List Arith ZArith Reals Lra Lia.
From Verif Require Import Model.Pattern Model.Intensity Model.MapOverlap Model.Downsample Spec.Tiles Spec.Blocks
  Proofs.PatternProofs Proofs.IntensityProofs Proofs.VirtualGridProofs.
From Verif Require Model.Detector.
Import ListNotations.
Local Open Scope R_scope.

Lemma sum_below_shift n : forall (g : nat -> R) s,
  g s + sum_below n (fun i => g (S s + i)%nat) = sum_below n (fun i => g (s + i)%nat) + g (s + n)%nat.
Proof.
  induction n; intros g s; simpl; [rewrite Nat.add_0_r; ring|].
  rewrite <- Rplus_assoc. pose proof (IHn g s) as E. cbn [Nat.add] in E. rewrite E.
  replace (s + S n)%nat with (S (s + n)) by lia. reflexivity.
Qed.
Lemma fold_add (g : nat -> R) n : forall s a, fold_left (fun v k => v + g k) (seq s n) a = a + sum_below n (fun i => g (s + i)%nat).
Proof.
  induction n; intros s a; cbn [seq fold_left]; [simpl; ring|]. rewrite IHn, Rplus_assoc, sum_below_shift. reflexivity.
Qed.
Lemma fold_left_ext {A B} (f g : A -> B -> A) l : (forall a b, f a b = g a b) -> forall a, fold_left f l a = fold_left g l a.
Proof. intros H. induction l; simpl; intros; [reflexivity|]. now rewrite H, IHl. Qed.

Lemma bin2d_mean f m r c : (1 <= f)%nat -> at_ (bin2d f m) r c = INR f * INR f * block_mean f (at_ m) r c.
Proof.
  intros Hf. cbn [bin2d at_]. unfold block_mean.
  rewrite (fold_left_ext _ (fun v rr => v + sum_below f (fun j => at_ m rr (c * f + j)%nat))) by (intros; apply fold_add).
  rewrite fold_add. rewrite Rplus_0_l. field. apply not_0_INR. lia.
Qed.

Lemma in_pixels m v : In v (pixels m) <-> exists r c, (r < nrows m)%nat /\ (c < ncols m)%nat /\ at_ m r c = v.
Proof.
  unfold pixels. rewrite in_flat_map. split.
  - intros (r & Hr & Hv). apply in_map_iff in Hv. destruct Hv as (c & E & Hc). apply in_seq in Hr, Hc.
    exists r, c. repeat split; auto; lia.
  - intros (r & c & Hr & Hc & E). exists r. split; [apply in_seq; lia|]. apply in_map_iff. exists c. split; [auto|apply in_seq; lia].
Qed.

Lemma downsample2d_spec f t m : (1 <= f)%nat -> (1 <= nrows m / f)%nat -> (1 <= ncols m / f)%nat ->
  exists lo hi, least (nrows m / f) (ncols m / f) (block_mean f (at_ m)) lo
    /\ greatest (nrows m / f) (ncols m / f) (block_mean f (at_ m)) hi
    /\ (lo < hi -> forall r c, at_ (downsample2d f t m) r c
         = cast t (dtype_min t + (dtype_max t - dtype_min t) * (block_mean f (at_ m) r c - lo) / (hi - lo))).
Proof.
  intros Hf Hy Hx. assert (F : 0 < INR f * INR f) by (apply Rmult_lt_0_compat; apply lt_0_INR; lia).
  set (b := bin2d f m). set (k := INR f * INR f) in *.
  assert (Hne : pixels b <> []).
  { intros E. assert (In (at_ b 0 0) (pixels b)) by (apply in_pixels; exists 0%nat, 0%nat; repeat split; simpl; lia).
    rewrite E in H. destruct H. }
  assert (B : forall r c, at_ b r c = k * block_mean f (at_ m) r c) by (intros; now apply bin2d_mean).
  exists (vmin (pixels b) / k), (vmax (pixels b) / k). split; [|split].
  - split.
    + pose proof (vmin_in _ Hne) as H. apply in_pixels in H. destruct H as (r & c & Hr & Hc & E).
      exists r, c. split; [exact Hr|]. split; [exact Hc|]. rewrite <- E, B. field. lra.
    + intros r c Hr Hc. assert (H : vmin (pixels b) <= at_ b r c) by (apply vmin_le, in_pixels; exists r, c; auto).
      rewrite B in H. apply Rmult_le_reg_l with k; [auto|]. replace (k * (vmin (pixels b) / k)) with (vmin (pixels b)) by (field; lra). lra.
  - split.
    + pose proof (vmax_in _ Hne) as H. apply in_pixels in H. destruct H as (r & c & Hr & Hc & E).
      exists r, c. split; [exact Hr|]. split; [exact Hc|]. rewrite <- E, B. field. lra.
    + intros r c Hr Hc. assert (H : at_ b r c <= vmax (pixels b)) by (apply vmax_ge, in_pixels; exists r, c; auto).
      rewrite B in H. apply Rmult_le_reg_l with k; [auto|]. replace (k * (vmax (pixels b) / k)) with (vmax (pixels b)) by (field; lra). lra.
  - intros Hlt r c. unfold downsample2d. cbn [at_]. f_equal. change (bin2d f m) with b. rewrite B.
    assert (vmin (pixels b) < vmax (pixels b)).
    { apply Rmult_lt_reg_r with (/ k); [now apply Rinv_0_lt_compat|exact Hlt]. }
    field. split; lra.
Qed.
