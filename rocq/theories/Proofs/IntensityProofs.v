From Coq Require Import List Reals ZArith Lra Lia Permutation Sorted.
From Verif Require Import Model.Pattern Model.Intensity Proofs.PatternProofs.
From Verif Require Model.Detector.
Import ListNotations.
Local Open Scope R_scope.

(** Truncation. *)
Lemma trunc_nonneg x : 0 <= x -> IZR (Detector.trunc x) <= x < IZR (Detector.trunc x) + 1 /\ (0 <= Detector.trunc x)%Z.
Proof.
  intros H. unfold Detector.trunc. destruct (Rle_dec 0 x); [|lra].
  destruct (archimed x) as [H1 H2]. rewrite minus_IZR. split; [lra|].
  assert (0 < up x)%Z by (apply lt_IZR; lra). lia.
Qed.
Lemma trunc_neg x : x < 0 -> IZR (Detector.trunc x) - 1 < x <= IZR (Detector.trunc x) /\ (Detector.trunc x <= 0)%Z.
Proof.
  intros H. unfold Detector.trunc. destruct (Rle_dec 0 x); [lra|].
  destruct (archimed (- x)) as [H1 H2]. rewrite opp_IZR, minus_IZR. split; [lra|].
  assert (0 < up (-x))%Z by (apply lt_IZR; lra). lia.
Qed.
Lemma IZR_lt_plus1 a b : IZR a < IZR b + 1 -> (a <= b)%Z.
Proof. intros H. rewrite <- plus_IZR in H. apply lt_IZR in H. lia. Qed.
Lemma trunc_le x y : x <= y -> (Detector.trunc x <= Detector.trunc y)%Z.
Proof.
  intros H. destruct (Rlt_le_dec x 0) as [Hx|Hx]; destruct (Rlt_le_dec y 0) as [Hy|Hy].
  - pose proof (trunc_neg x Hx) as [? _]. pose proof (trunc_neg y Hy) as [? _].
    apply IZR_lt_plus1. lra.
  - pose proof (trunc_neg x Hx) as [_ ?]. pose proof (trunc_nonneg y Hy) as [_ ?]. lia.
  - lra.
  - pose proof (trunc_nonneg x Hx) as [? _]. pose proof (trunc_nonneg y Hy) as [? _].
    apply IZR_lt_plus1. lra.
Qed.
Lemma trunc_IZR z : Detector.trunc (IZR z) = z.
Proof.
  destruct (Rlt_le_dec (IZR z) 0) as [H|H].
  - pose proof (trunc_neg _ H) as [[? ?] _]. apply Z.le_antisymm.
    + apply IZR_lt_plus1. lra.
    + apply le_IZR. lra.
  - pose proof (trunc_nonneg _ H) as [[? ?] _]. apply Z.le_antisymm.
    + apply le_IZR. lra.
    + apply IZR_lt_plus1. lra.
Qed.

(** Casting. *)
Lemma cast_le t x y : x <= y -> cast t x <= cast t y.
Proof. intros H. unfold cast. destruct (is_float t); [exact H|]. apply IZR_le, trunc_le, H. Qed.
Lemma cast_IZR t z : cast t (IZR z) = IZR z.
Proof. unfold cast. destruct (is_float t); [reflexivity|]. rewrite trunc_IZR. reflexivity. Qed.
Lemma cast_idem t x : cast t (cast t x) = cast t x.
Proof. unfold cast. destruct (is_float t); [reflexivity|]. rewrite trunc_IZR. reflexivity. Qed.
(** Values a data type can represent exactly as range ends: integers for integer types. *)
Definition representable (t : dtype) (x : R) : Prop := is_float t = false -> exists z, x = IZR z.
Lemma cast_representable t x : representable t x -> cast t x = x.
Proof.
  intros H. unfold cast. unfold representable in H. destruct (is_float t); [reflexivity|].
  destruct (H eq_refl) as [z ->]. rewrite trunc_IZR. reflexivity.
Qed.
Lemma representable_IZR t z : representable t (IZR z).
Proof. intros _. exists z. reflexivity. Qed.

Lemma cast_between t lo hi x :
  representable t lo -> representable t hi -> lo <= x <= hi -> lo <= cast t x <= hi.
Proof.
  intros R1 R2 [H1 H2]. apply (cast_le t) in H1. apply (cast_le t) in H2.
  rewrite (cast_representable t lo R1) in H1. rewrite (cast_representable t hi R2) in H2. lra.
Qed.

(** The map from intensity to intensity. *)
Definition rescale_map (imin imax omin omax x : R) : R :=
  (x - imin) / (imax - imin) * (omax - omin) + omin.
Lemma rescale_map_mono imin imax omin omax x y :
  imin < imax -> omin <= omax -> x <= y ->
  rescale_map imin imax omin omax x <= rescale_map imin imax omin omax y.
Proof.
  intros Hi Ho H. unfold rescale_map. apply Rplus_le_compat_r, Rmult_le_compat_r; [lra|].
  unfold Rdiv. apply Rmult_le_compat_r; [|lra]. apply Rlt_le, Rinv_0_lt_compat. lra.
Qed.
Lemma rescale_map_strict imin imax omin omax x y :
  imin < imax -> omin < omax -> x < y ->
  rescale_map imin imax omin omax x < rescale_map imin imax omin omax y.
Proof.
  intros Hi Ho H. unfold rescale_map. apply Rplus_lt_compat_r, Rmult_lt_compat_r; [lra|].
  unfold Rdiv. apply Rmult_lt_compat_r; [|lra]. apply Rinv_0_lt_compat. lra.
Qed.
Lemma rescale_map_min imin imax omin omax : rescale_map imin imax omin omax imin = omin.
Proof. unfold rescale_map. replace (imin - imin) with 0 by ring. unfold Rdiv. ring. Qed.
Lemma rescale_map_max imin imax omin omax : imin <> imax -> rescale_map imin imax omin omax imax = omax.
Proof. intros H. unfold rescale_map. field. lra. Qed.
Lemma rescale_map_range imin imax omin omax x :
  imin < imax -> omin <= omax -> imin <= x <= imax -> omin <= rescale_map imin imax omin omax x <= omax.
Proof.
  intros Hi Ho [H1 H2]. split.
  - pose proof (rescale_map_mono imin imax omin omax imin x Hi Ho H1) as H. rewrite rescale_map_min in H. exact H.
  - pose proof (rescale_map_mono imin imax omin omax x imax Hi Ho H2) as H.
    rewrite rescale_map_max in H by lra. exact H.
Qed.
Lemma rescale_map_id omin omax x : omin <> omax -> rescale_map omin omax omin omax x = x.
Proof. intros H. unfold rescale_map. field. lra. Qed.

Lemma clip_range lo hi x : lo <= hi -> lo <= clip lo hi x <= hi.
Proof.
  intros H. unfold clip. split; [|apply Rmin_l]. apply Rmin_glb; [exact H|apply Rmax_l].
Qed.
Lemma clip_inside lo hi x : lo <= x <= hi -> clip lo hi x = x.
Proof. intros [H1 H2]. unfold clip. rewrite Rmax_right by exact H1. apply Rmin_right. exact H2. Qed.
Lemma clip_mono lo hi x y : x <= y -> clip lo hi x <= clip lo hi y.
Proof. intros H. unfold clip. apply Rle_min_compat_l. apply Rle_max_compat_l. exact H. Qed.

(** Minimum and maximum of mapped patterns. *)
Lemma vmin_unique p m : In m p -> (forall x, In x p -> m <= x) -> vmin p = m.
Proof.
  intros Hm H. assert (p <> []) by (intros ->; destruct Hm).
  apply Rle_antisym; [apply vmin_le; exact Hm|]. apply H. apply vmin_in. assumption.
Qed.
Lemma vmax_unique p m : In m p -> (forall x, In x p -> x <= m) -> vmax p = m.
Proof.
  intros Hm H. assert (p <> []) by (intros ->; destruct Hm).
  apply Rle_antisym; [|apply vmax_ge; exact Hm]. apply H. apply vmax_in. assumption.
Qed.
Lemma vmin_map f p : p <> [] -> (forall x y, x <= y -> f x <= f y) -> vmin (map f p) = f (vmin p).
Proof.
  intros Hp Hf. apply vmin_unique.
  - apply in_map. apply vmin_in. exact Hp.
  - intros y Hy. apply in_map_iff in Hy as (x & <- & Hx). apply Hf. apply vmin_le. exact Hx.
Qed.
Lemma vmax_map f p : p <> [] -> (forall x y, x <= y -> f x <= f y) -> vmax (map f p) = f (vmax p).
Proof.
  intros Hp Hf. apply vmax_unique.
  - apply in_map. apply vmax_in. exact Hp.
  - intros y Hy. apply in_map_iff in Hy as (x & <- & Hx). apply Hf. apply vmax_ge. exact Hx.
Qed.

Lemma dtype_min_lt_max t : dtype_min t < dtype_max t.
Proof. destruct t; unfold dtype_min, dtype_max; simpl; lra. Qed.

(** The output of rescale_intensity as one map over the pixels. *)
Lemma rescale_default_eq out_range t p :
  rescale_intensity None out_range t None p =
  let (omin, omax) := match out_range with None => (dtype_min t, dtype_max t) | Some r => r end in
  map (fun x => cast t (rescale_map (vmin p) (vmax p) omin omax x)) p.
Proof.
  unfold rescale_intensity, rescale_with_min_max. destruct out_range as [[omin omax]|]; rewrite map_map; reflexivity.
Qed.
Lemma rescale_in_range_eq imin imax out_range t p :
  rescale_intensity (Some (imin, imax)) out_range t None p =
  let (omin, omax) := match out_range with None => (dtype_min t, dtype_max t) | Some r => r end in
  map (fun x => cast t (rescale_map imin imax omin omax (clip imin imax x))) p.
Proof.
  unfold rescale_intensity, rescale_with_min_max. destruct out_range as [[omin omax]|]; rewrite !map_map; reflexivity.
Qed.

(** Percentiles 0 and 100. *)
Lemma insert_in x y l : In y (insert x l) <-> y = x \/ In y l.
Proof.
  induction l as [|z l IH]; simpl; [intuition|].
  destruct (Rle_dec x z); simpl; [intuition|]. rewrite IH. intuition.
Qed.
Lemma sort_in y l : In y (sort l) <-> In y l.
Proof. induction l as [|x l IH]; simpl; [reflexivity|]. rewrite insert_in, IH. intuition. Qed.
Lemma insert_length x l : length (insert x l) = S (length l).
Proof. induction l as [|z l IH]; simpl; [reflexivity|]. destruct (Rle_dec x z); simpl; [reflexivity|]. rewrite IH. reflexivity. Qed.
Lemma sort_length l : length (sort l) = length l.
Proof. induction l as [|x l IH]; simpl; [reflexivity|]. rewrite insert_length, IH. reflexivity. Qed.
Fixpoint increasing (l : list R) : Prop :=
  match l with
  | [] => True
  | x :: r => (forall y, In y r -> x <= y) /\ increasing r
  end.
Lemma insert_increasing x l : increasing l -> increasing (insert x l).
Proof.
  induction l as [|z l IH]; simpl; intros H; [split; [intros y []|exact I]|].
  destruct H as [Hz Hl]. destruct (Rle_dec x z) as [H|H]; simpl.
  - split; [|split; assumption]. intros y [<-|Hy]; [exact H|]. specialize (Hz y Hy). lra.
  - split; [|apply IH; exact Hl]. intros y Hy. apply insert_in in Hy as [->|Hy]; [lra|apply Hz; exact Hy].
Qed.
Lemma sort_increasing l : increasing (sort l).
Proof. induction l as [|x l IH]; simpl; [exact I|]. apply insert_increasing. exact IH. Qed.
Lemma insert_permutation x l : Permutation (insert x l) (x :: l).
Proof.
  induction l as [|z l IH]; simpl; [reflexivity|]. destruct (Rle_dec x z); [reflexivity|].
  rewrite IH. apply perm_swap.
Qed.
Lemma sort_permutation l : Permutation (sort l) l.
Proof. induction l as [|x l IH]; simpl; [reflexivity|]. rewrite insert_permutation, IH. reflexivity. Qed.
Lemma Sorted_increasing l : Sorted Rle l -> increasing l.
Proof.
  intros H. apply Sorted_StronglySorted in H; [|intros x y z; apply Rle_trans].
  induction H as [|x l H IH F]; simpl; [exact I|]. split; [|exact IH]. now apply Forall_forall.
Qed.
Lemma increasing_unique l : forall m, increasing l -> increasing m -> Permutation l m -> l = m.
Proof.
  induction l as [|x l IH]; intros m Hl Hm P.
  - apply Permutation_nil in P. auto.
  - destruct m as [|y m]; [symmetry in P; apply Permutation_nil in P; discriminate P|].
    assert (E : x = y).
    { destruct Hl as [Hx _], Hm as [Hy _].
      assert (I1 : In x (y :: m)) by (apply (Permutation_in _ P); now left).
      assert (I2 : In y (x :: l)) by (apply (Permutation_in _ (Permutation_sym P)); now left).
      destruct I1 as [->|I1]; [reflexivity|]. destruct I2 as [->|I2]; [reflexivity|].
      apply Rle_antisym; auto. }
    subst y. f_equal. apply IH; [apply Hl|apply Hm|]. exact (Permutation_cons_inv P).
Qed.
Lemma increasing_nth l i j : increasing l -> (i <= j < length l)%nat -> nth i l 0 <= nth j l 0.
Proof.
  revert i j. induction l as [|x l IH]; simpl; intros i j H Hij; [lia|].
  destruct H as [Hx Hl]. destruct i as [|i]; destruct j as [|j]; simpl; try lia; try lra.
  - apply Hx. apply nth_In. lia.
  - apply IH; [exact Hl|lia].
Qed.
Lemma sort_first p : p <> [] -> nth 0 (sort p) 0 = vmin p.
Proof.
  intros H. symmetry. apply vmin_unique.
  - apply sort_in. apply nth_In. rewrite sort_length. destruct p; [congruence|simpl; lia].
  - intros x Hx. apply sort_in in Hx. apply (In_nth _ _ 0) in Hx as (i & Hi & <-).
    apply increasing_nth; [apply sort_increasing|lia].
Qed.
Lemma sort_last p : p <> [] -> nth (length p - 1) (sort p) 0 = vmax p.
Proof.
  intros H. assert (0 < length p)%nat by (destruct p; [congruence|simpl; lia]). symmetry. apply vmax_unique.
  - apply sort_in. apply nth_In. rewrite sort_length. lia.
  - intros x Hx. apply sort_in in Hx. apply (In_nth _ _ 0) in Hx as (i & Hi & <-).
    rewrite sort_length in Hi. apply increasing_nth; [apply sort_increasing|rewrite sort_length; lia].
Qed.
Lemma percentile_0 p : p <> [] -> percentile 0 p = vmin p.
Proof.
  intros H. unfold percentile. replace (0 / 100 * INR (length p - 1)) with (IZR 0) by lra.
  rewrite trunc_IZR. simpl Z.to_nat. rewrite sort_first by exact H. simpl INR. ring.
Qed.
Lemma percentile_100 p : p <> [] -> percentile 100 p = vmax p.
Proof.
  intros H. unfold percentile.
  replace (100 / 100 * INR (length p - 1)) with (IZR (Z.of_nat (length p - 1))) by (rewrite <- INR_IZR_INZ; lra).
  rewrite trunc_IZR, Nat2Z.id, sort_last by exact H. rewrite <- INR_IZR_INZ. ring.
Qed.
(** A percentile is between the minimum and the maximum. *)
Lemma percentile_range q p : p <> [] -> 0 <= q <= 100 -> vmin p <= percentile q p <= vmax p.
Proof.
  intros Hp Hq. assert (Hn : (0 < length p)%nat) by (destruct p; [congruence|simpl; lia]).
  unfold percentile. set (v := q / 100 * INR (length p - 1)).
  assert (Hv : 0 <= v <= INR (length p - 1)).
  { unfold v. pose proof (pos_INR (length p - 1)). split; [apply Rmult_le_pos; lra|].
    rewrite <- (Rmult_1_l (INR (length p - 1))) at 2. apply Rmult_le_compat_r; lra. }
  destruct (trunc_nonneg v) as [Ht Hz]; [lra|].
  set (k := Z.to_nat (Detector.trunc v)).
  assert (Hk : INR k = IZR (Detector.trunc v)) by (unfold k; rewrite INR_IZR_INZ, Z2Nat.id by exact Hz; reflexivity).
  assert (Hkn : (k <= length p - 1)%nat) by (apply INR_le; lra).
  set (s := sort p). assert (Hs : increasing s) by apply sort_increasing.
  assert (Ls : length s = length p) by apply sort_length.
  assert (Ha : vmin p <= nth k s 0 <= nth (Nat.min (k + 1) (length p - 1)) s 0).
  { split.
    - rewrite <- sort_first by exact Hp. apply increasing_nth; [exact Hs|fold s; lia].
    - apply increasing_nth; [exact Hs|lia]. }
  assert (Hb : nth (Nat.min (k + 1) (length p - 1)) s 0 <= vmax p).
  { rewrite <- sort_last by exact Hp. apply increasing_nth; [exact Hs|fold s; lia]. }
  set (a := nth k s 0) in *. set (b := nth (Nat.min (k + 1) (length p - 1)) s 0) in *.
  assert (Hf : 0 <= v - INR k < 1) by lra. nra.
Qed.

(** combine_pixels *)
Lemma combine_pixels_length op p bg : length p = length bg -> length (combine_pixels op p bg) = length p.
Proof. intros H. unfold combine_pixels. rewrite map_length, combine_length. lia. Qed.
