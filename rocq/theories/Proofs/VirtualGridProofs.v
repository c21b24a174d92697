From Coq Require Import List Arith ZArith Bool Reals Lra Lia.
From Verif Require Import Model.Pattern Model.VirtualGrid Spec.Tiles Proofs.AverageNeighboursProofs.
Import ListNotations.
Local Open Scope R_scope.

(** ** Owners: from cuts to a function of pixels *)
Section Owner.
Variable cut : nat -> nat.
Variables n g : nat.
Hypothesis Hg : (1 <= g)%nat.
Hypothesis H0 : cut 0 = 0%nat.
Hypothesis Hn : cut g = n.
Hypothesis Hmono : forall j, (j < g)%nat -> (cut j <= cut (S j))%nat.

Fixpoint owner (k r : nat) : nat := match k with O => 0 | S k' => if (cut k' <=? r)%nat then k' else owner k' r end.

Lemma cut_mono i j : (i <= j)%nat -> (j <= g)%nat -> (cut i <= cut j)%nat.
Proof using All. intros H. induction H; intros; [lia|]. specialize (Hmono m). lia. Qed.

Lemma owner_spec k r : (1 <= k <= g)%nat -> (r < cut k)%nat ->
  (owner k r < k)%nat /\ (cut (owner k r) <= r < cut (S (owner k r)))%nat.
Proof using All.
  induction k; [lia|]. intros Hk Hr. simpl. destruct (Nat.leb_spec (cut k) r); [lia|].
  destruct k; [lia|]. destruct IHk; lia.
Qed.
Lemma owner_box lo hi r : (r < n)%nat -> (lo <= hi < g)%nat ->
  ((lo <= owner g r <= hi)%nat <-> (cut lo <= r < cut (S hi))%nat).
Proof using All.
  intros Hr Hb. destruct (owner_spec g r) as [H1 H2]; [lia|lia|].
  split; intros H.
  - pose proof (cut_mono lo (owner g r)). pose proof (cut_mono (S (owner g r)) (S hi)). lia.
  - split.
    + destruct (le_lt_dec lo (owner g r)); [auto|]. pose proof (cut_mono (S (owner g r)) lo). lia.
    + destruct (le_lt_dec (owner g r) hi); [auto|]. pose proof (cut_mono (S hi) (owner g r)). lia.
Qed.
End Owner.

(** ** Sums *)
Lemma sum_below_vsum n f : sum_below n f = vsum (map f (seq 0 n)).
Proof.
  induction n; [reflexivity|]. rewrite seq_S, map_app, vsum_app. simpl. rewrite IHn. unfold vsum. simpl. ring.
Qed.
Lemma sum_below_ext n f g : (forall k, (k < n)%nat -> f k = g k) -> sum_below n f = sum_below n g.
Proof. induction n; simpl; intros H; [reflexivity|]. rewrite IHn, H; auto. Qed.
Lemma sum_below_zero n f : (forall k, (k < n)%nat -> f k = 0) -> sum_below n f = 0.
Proof. induction n; simpl; intros H; [reflexivity|]. rewrite IHn, H; auto; ring. Qed.
Lemma sum_below_plus n f g : sum_below n (fun k => f k + g k) = sum_below n f + sum_below n g.
Proof. induction n; simpl; [ring|]. rewrite IHn. ring. Qed.
Lemma sum_below_swap n m f : sum_below n (fun i => sum_below m (fun j => f i j)) = sum_below m (fun j => sum_below n (fun i => f i j)).
Proof.
  induction n; simpl.
  - symmetry. apply sum_below_zero. auto.
  - rewrite IHn, sum_below_plus. reflexivity.
Qed.
Lemma sum_below_delta m k v : (k < m)%nat -> sum_below m (fun j => if (k =? j)%nat then v else 0) = v.
Proof.
  induction m; [lia|]. intros Hk. simpl. destruct (Nat.eqb_spec k m) as [->|Hne].
  - rewrite sum_below_zero; [ring|]. intros j Hj. destruct (Nat.eqb_spec m j); [lia|reflexivity].
  - rewrite IHm by lia. ring.
Qed.

Lemma sum_range_indicator f n a b keep : (a <= b <= n)%nat -> 
  (forall k, (k < n)%nat -> keep k = true <-> (a <= k < b)%nat) ->
  sum_range f a b = sum_below n (fun k => if keep k : bool then f k else 0).
Proof.
  intros Hab Hk. rewrite sum_below_vsum. unfold sum_range.
  replace n with (a + (b - a) + (n - b))%nat by lia. rewrite !seq_app, !map_app, !vsum_app. simpl.
  rewrite (vsum_ext (fun k => if keep k then f k else 0) (fun _ => 0) (seq 0 a)).
  2: { intros k H. apply in_seq in H. destruct (keep k) eqn:E; [|reflexivity]. apply Hk in E; lia. }
  rewrite (vsum_ext (fun k => if keep k then f k else 0) (fun _ => 0) (seq (a + (b - a)) (n - b))).
  2: { intros k H. apply in_seq in H. destruct (keep k) eqn:E; [|reflexivity]. apply Hk in E; lia. }
  rewrite (vsum_ext (fun k => if keep k then f k else 0) f (seq a (b - a))).
  2: { intros k H. apply in_seq in H. destruct (keep k) eqn:E; [reflexivity|].
       assert (keep k = true) by (apply Hk; lia). congruence. }
  assert (Z : forall l : list nat, vsum (map (fun _ => 0) l) = 0).
  { unfold vsum. induction l; simpl; [reflexivity|]. rewrite IHl. ring. }
  rewrite !Z. ring.
Qed.

(** ** Edges of tiles *)
Definition line (s g k : nat) : R := INR k * (INR s / INR g).
Lemma linspace_nth s g k : (1 <= g)%nat -> (k <= g)%nat -> nth_error (linspace reals s g) k = Some (line s g k).
Proof.
  intros Hg Hk. unfold linspace. erewrite map_nth_error.
  2: { rewrite nth_error_nth' with (d := 0%nat) by (rewrite seq_length; lia). rewrite seq_nth by lia. reflexivity. }
  cbn [of_nat times over reals Nat.add]. unfold line. destruct (Nat.eqb_spec k g) as [->|]; [|reflexivity].
  f_equal. field. apply not_0_INR. lia.
Qed.
Lemma line_succ s g k : line s g k + line s g 1 = line s g (S k).
Proof. unfold line. rewrite (S_INR k). change (INR 1) with 1. ring. Qed.
Lemma line_0 s g : line s g 0 = 0. Proof. unfold line. simpl. ring. Qed.
Lemma line_g s g : (1 <= g)%nat -> line s g g = INR s.
Proof. intros. unfold line. field. apply not_0_INR. lia. Qed.
Lemma line_mono s g k : (1 <= g)%nat -> line s g k <= line s g (S k).
Proof.
  intros Hg. rewrite <- line_succ. enough (0 <= line s g 1) by lra. unfold line. simpl.
  rewrite Rmult_1_l. apply Rmult_le_pos; [apply pos_INR|]. left. apply Rinv_0_lt_compat. apply lt_0_INR. lia.
Qed.

Lemma edges_eq s g d tiles lo hi : (1 <= g)%nat -> lmin tiles = Some lo -> lmax tiles = Some hi -> (lo <= g)%nat -> (hi < g)%nat ->
  edges reals s g d tiles = Some (line s g lo * d, line s g (S hi) * d).
Proof.
  intros Hg Hlo Hhi H1 H2. unfold edges. rewrite Hlo, Hhi. rewrite !linspace_nth by lia.
  cbn [reals times plus]. now rewrite line_succ.
Qed.

(** The pixel at which line k cuts. *)
Definition cut_at (rnd : R -> Z) (s g k : nat) : nat := Z.to_nat (Z.min (Z.of_nat s) (rnd (line s g k))).
Lemma axis_index_cut rnd s g d k : d <> 0 -> axis_index rnd (Axis s d 0) (line s g k * d) = cut_at rnd s g k.
Proof.
  intros Hd. unfold axis_index, cut_at. cbn [size scale offset]. do 3 f_equal. field. exact Hd.
Qed.
Lemma cut_0 rnd s g : rounding rnd -> cut_at rnd s g 0 = 0%nat.
Proof. intros [H _]. unfold cut_at. rewrite line_0, (H 0%Z). lia. Qed.
Lemma cut_g rnd s g : (1 <= g)%nat -> rounding rnd -> cut_at rnd s g g = s.
Proof. intros Hg [H _]. unfold cut_at. rewrite line_g by auto. rewrite INR_IZR_INZ, H. lia. Qed.
Lemma cut_mono1 rnd s g k : (1 <= g)%nat -> rounding rnd -> (cut_at rnd s g k <= cut_at rnd s g (S k))%nat.
Proof. intros Hg [_ H]. unfold cut_at. pose proof (H _ _ (line_mono s g k Hg)). lia. Qed.
Lemma cut_unclamped rnd s g k : (1 <= g)%nat -> (k <= g)%nat -> rounding rnd -> Z.of_nat (cut_at rnd s g k) = rnd (line s g k).
Proof.
  intros Hg Hk Hr. unfold cut_at.
  assert (Hl : forall j, (j <= g)%nat -> 0 <= line s g j <= INR s).
  { intros j Hj. unfold line. assert (0 < INR g) by (apply lt_0_INR; lia).
    assert (INR j <= INR g) by (apply le_INR; lia). assert (0 <= INR s) by apply pos_INR.
    assert (0 <= INR j) by apply pos_INR.
    assert (0 <= INR s / INR g) by (apply Rmult_le_pos; [lra|left; now apply Rinv_0_lt_compat]).
    split; [now apply Rmult_le_pos|]. apply Rle_trans with (INR g * (INR s / INR g)).
    - now apply Rmult_le_compat_r.
    - right. field. lra. }
  destruct (Hl k Hk) as [L1 L2]. destruct Hr as [Hi Hm].
  pose proof (Hm _ _ L1) as M1. pose proof (Hm _ _ L2) as M2. rewrite (Hi 0%Z) in M1.
  rewrite INR_IZR_INZ, Hi in M2. lia.
Qed.
