From Coq Require Import List Reals Lra Lia.
From Verif Require Import Model.Detector Model.MovingScreen.
Import ListNotations.
Local Open Scope R_scope.

Lemma in_pairs {A} (l : list A) a b : In (a, b) (pairs l) -> In a l /\ In b l.
Proof.
  induction l as [|x l IH]; simpl; [tauto|]. rewrite in_app_iff, in_map_iff.
  intros [(y & E & Hy)|H]; [injection E as <- <-; auto|]. destruct (IH H); auto.
Qed.
Lemma pairs_nth {A} (l : list A) : forall i j a b, (i < j)%nat -> nth_error l i = Some a -> nth_error l j = Some b ->
  In (a, b) (pairs l).
Proof.
  induction l as [|x l IH]; intros i j a b Hij Ha Hb; [destruct i; discriminate|].
  simpl. apply in_app_iff. destruct j as [|j]; [lia|]. simpl in Hb. destruct i as [|i]; simpl in Ha.
  - injection Ha as <-. left. apply in_map. now apply nth_error_In in Hb.
  - right. apply (IH i j); auto. lia.
Qed.
Lemma in_pairs_nth {A} (l : list A) a b : In (a, b) (pairs l) ->
  exists i j, (i < j)%nat /\ nth_error l i = Some a /\ nth_error l j = Some b.
Proof.
  induction l as [|x l IH]; simpl; [tauto|]. rewrite in_app_iff, in_map_iff.
  intros [(y & E & Hy)|H].
  - injection E as <- <-. apply In_nth_error in Hy. destruct Hy as [j Hj]. exists 0%nat, (S j). repeat split; auto. lia.
  - destruct (IH H) as (i & j & Hij & H1 & H2). exists (S i), (S j). repeat split; auto. lia.
Qed.

Section View.
Variables X Y D dz s : R.
Let image (h u v : R) : point := ((X + h * u) / s, (Y - h * v) / s).

Lemma intersection_views u1 v1 u2 v2 : s <> 0 -> dz <> 0 ->
  intersection (image (D + dz) u1 v1) (image D u1 v1) (image (D + dz) u2 v2) (image D u2 v2)
  = if Req_EM_T (u1 * v2 - u2 * v1) 0 then None else Some (X / s, Y / s).
Proof.
  intros Hs Hdz. unfold intersection, image. cbv zeta.
  set (den := det2 _ _ _ _).
  assert (E : den = - (dz / s) * (dz / s) * (u1 * v2 - u2 * v1)) by (unfold den, det2; field; auto).
  assert (K : dz / s <> 0).
  { intros K. apply Hdz. replace dz with (dz / s * s) by (field; auto). rewrite K. ring. }
  destruct (Req_EM_T (u1 * v2 - u2 * v1) 0) as [H|H].
  - destruct (Req_EM_T den 0) as [_|N]; [reflexivity|]. exfalso. apply N. rewrite E, H. ring.
  - destruct (Req_EM_T den 0) as [N|_].
    + exfalso. rewrite E in N. apply Rmult_integral in N. destruct N as [N|N]; [|auto].
      apply Rmult_integral in N. destruct N as [N|N]; [apply K; lra|auto].
    + f_equal. f_equal.
      * rewrite E. unfold det2. field. auto.
      * rewrite E. unfold det2. field. auto.
Qed.

Lemma length_views h u1 v1 u2 v2 : 0 < s -> 0 < h ->
  line_length (image h u1 v1) (image h u2 v2) = h / s * sqrt ((u1 - u2) * (u1 - u2) + (v1 - v2) * (v1 - v2)).
Proof.
  intros Hs Hh. unfold line_length, image. cbn [fst snd].
  replace (_ + _) with ((h / s) * (h / s) * ((u1 - u2) * (u1 - u2) + (v1 - v2) * (v1 - v2))) by (field; lra).
  assert (0 < h / s) by (apply Rdiv_lt_0_compat; auto).
  rewrite sqrt_mult.
  - rewrite sqrt_square by lra. reflexivity.
  - apply Rle_0_sqr.
  - apply Rplus_le_le_0_compat; apply Rle_0_sqr.
Qed.
Lemma ratio_views u1 v1 u2 v2 : 0 < s -> 0 < D -> 0 < D + dz -> dz <> 0 -> u1 * v2 - u2 * v1 <> 0 ->
  dz / (line_length (image (D + dz) u1 v1) (image (D + dz) u2 v2) / line_length (image D u1 v1) (image D u2 v2) - 1) = D.
Proof.
  intros Hs HD HDz Hdz Hc. rewrite !length_views by auto.
  set (q := (u1 - u2) * (u1 - u2) + (v1 - v2) * (v1 - v2)).
  assert (Hq : 0 < q).
  { assert (0 <= (u1 - u2) * (u1 - u2)) by apply Rle_0_sqr. assert (0 <= (v1 - v2) * (v1 - v2)) by apply Rle_0_sqr.
    destruct (Rtotal_order q 0) as [H'|[H'|H']]; [unfold q in *; lra| |exact H'].
    exfalso. apply Hc. unfold q in H'.
    assert (u1 - u2 = 0) by (apply Rsqr_0_uniq; unfold Rsqr; lra). assert (v1 - v2 = 0) by (apply Rsqr_0_uniq; unfold Rsqr; lra).
    replace u1 with u2 by lra. replace v1 with v2 by lra. ring. }
  apply sqrt_lt_R0 in Hq. set (r := sqrt q) in *.
  replace ((D + dz) / s * r / (D / s * r) - 1) with (dz / D) by (field; repeat split; lra).
  field. split; lra.
Qed.
End View.

Lemma mean_const l p : (forall q, In q l -> q = p) -> l <> [] -> mean_pc l = p.
Proof.
  intros H Hne. assert (E : l = repeat p (length l)).
  { clear Hne. induction l as [|a l IH]; [reflexivity|]. simpl. rewrite (H a) by (simpl; auto). f_equal.
    apply IH. intros q Hq. apply H. simpl. auto. }
  assert (Hn : INR (length l) <> 0) by (apply not_0_INR; destruct l; [congruence|discriminate]).
  assert (S : forall (f : pc3 -> R), meanR (map f l) = f p).
  { intros f. unfold meanR. rewrite map_length. rewrite E at 1. clear - Hn.
    assert (A : forall n, sumR (map f (repeat p n)) = INR n * f p).
    { induction n; [simpl; ring|]. rewrite S_INR. cbn [repeat map]. change (sumR (f p :: map f (repeat p n))) with (f p + sumR (map f (repeat p n))). rewrite IHn. ring. }
    rewrite A. field. auto. }
  unfold mean_pc. rewrite !S. destruct p. reflexivity.
Qed.
