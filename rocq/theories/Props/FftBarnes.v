(** C44: filtering in the frequency domain. *)
From Coq Require Import Reals Arith ZArith Bool Lia Lra Ring.
From Verif Require Import Model.FftBarnes Spec.FilterSpec Proofs.FourierProofs.
Local Open Scope R_scope.

Lemma total_ext : forall n f g, (forall i, (i < n)%nat -> f i = g i) -> total n f = total n g.
Proof. induction n as [|n IH]; intros f g H; cbn [total]; [reflexivity|]. rewrite (IH f g) by (intros; apply H; lia). now rewrite H by lia. Qed.
Lemma total_shift : forall n f, total (S n) f = f 0%nat + total n (fun i => f (S i)).
Proof. induction n as [|n IH]; intros f; [cbn; ring|]. cbn [total] in *. rewrite IH. ring. Qed.
Lemma total_rev : forall n f, total n f = total n (fun i => f (n - 1 - i)%nat).
Proof.
  induction n as [|n IH]; intros f; [reflexivity|]. rewrite (total_shift n (fun i => f (S n - 1 - i)%nat)). cbn [total]. rewrite IH.
  replace (S n - 1 - 0)%nat with n by lia. rewrite Rplus_comm. f_equal. apply total_ext. intros i I. f_equal. lia.
Qed.
Lemma total_short : forall m n f, (n <= m)%nat -> (forall i, (n <= i)%nat -> (i < m)%nat -> f i = 0) -> total m f = total n f.
Proof.
  induction m as [|m IH]; intros n f L H; [now replace n with 0%nat by lia|]. destruct (Nat.eq_dec n (S m)) as [->|N]; [reflexivity|].
  cbn [total]. rewrite (IH n f) by (try lia; intros; apply H; lia). rewrite H by lia. ring.
Qed.
Lemma total_zero : forall n, total n (fun _ => 0) = 0.
Proof. induction n as [|n IH]; cbn [total]; [reflexivity|]. rewrite IH. ring. Qed.
Lemma csum_total : forall n f, csum n (fun i => real (f i)) = real (total n f).
Proof. induction n as [|n IH]; intros f; cbn [csum total]; [reflexivity|]. rewrite IH. apply Cext; unfold Cadd, real; cbn; ring. Qed.
Lemma before_half : forall w, (0 < w)%nat -> before w = (w / 2)%nat /\ (before w + after w + 1 = w)%nat.
Proof.
  intros w W. unfold before, after. pose proof (Nat.div_mod w 2 ltac:(lia)). pose proof (Nat.mod_upper_bound w 2 ltac:(lia)).
  pose proof (Nat.div_mod (w - 1) 2 ltac:(lia)). pose proof (Nat.mod_upper_bound (w - 1) 2 ltac:(lia)). lia.
Qed.

(** One axis of the padded image: where the wrapped index falls. *)
Lemma place : forall n w f i u, (0 < n)%nat -> (0 < w)%nat -> (n + w - 1 <= f)%nat -> (i < n)%nat -> (u < w)%nat ->
  let p := wrap f (after w + i) (w - 1 - u) in let t := (Z.of_nat i + Z.of_nat u - Z.of_nat (w / 2))%Z in
  ((p < n)%nat /\ nearest n t = p) \/ ((n <= p)%nat /\ (p < n + after w)%nat /\ (p < f - before w)%nat /\ nearest n t = (n - 1)%nat) \/
  ((f - before w <= p)%nat /\ (n + after w <= p)%nat /\ (p < f)%nat /\ nearest n t = 0%nat).
Proof.
  intros n w f i u N W F I U p t. destruct (before_half w W) as [B1 B2]. unfold nearest.
  assert (P : Z.of_nat p = (t mod Z.of_nat f)%Z).
  { unfold p, wrap. rewrite Nat2Z.inj_mod. replace (Z.of_nat (after w + i + f - (w - 1 - u))) with (t + 1 * Z.of_nat f)%Z by (unfold t; lia).
    apply Z.mod_add. lia. }
  assert (T : (- Z.of_nat (before w) <= t < Z.of_nat n + Z.of_nat (after w))%Z) by (unfold t; lia).
  destruct (Z_lt_dec t 0) as [L|L].
  - assert (E : (t mod Z.of_nat f = t + Z.of_nat f)%Z) by (symmetry; apply Z.mod_unique with (q := (-1)%Z); lia). right; right. lia.
  - assert (E : (t mod Z.of_nat f = t)%Z) by (apply Z.mod_small; lia). destruct (Z_lt_dec t (Z.of_nat n)); [left|right; left]; lia.
Qed.

Lemma padded : forall iy ix wy wx fy fx image y x u v, (0 < iy)%nat -> (0 < ix)%nat -> (iy + wy - 1 <= fy)%nat -> (ix + wx - 1 <= fx)%nat ->
  (y < iy)%nat -> (x < ix)%nat -> (u < wy)%nat -> (v < wx)%nat ->
  pad_image iy ix wy wx fy fx image (wrap fy (after wy + y) (wy - 1 - u)) (wrap fx (after wx + x) (wx - 1 - v)) =
  extended iy ix image (Z.of_nat y + Z.of_nat u - Z.of_nat (wy / 2)) (Z.of_nat x + Z.of_nat v - Z.of_nat (wx / 2)).
Proof.
  intros iy ix wy wx fy fx image y x u v IY IX FY FX Y X U V.
  pose proof (place iy wy fy y u IY ltac:(lia) FY Y U) as PY. pose proof (place ix wx fx x v IX ltac:(lia) FX X V) as PX. cbv zeta in PY, PX.
  unfold extended. set (p := wrap fy _ _) in *. set (q := wrap fx _ _) in *.
  destruct (before_half wy ltac:(lia)) as [_ BY]. destruct (before_half wx ltac:(lia)) as [_ BX].
  unfold pad_image. fold (after wy) (after wx). unfold assign.
  repeat match goal with |- context [(?a <=? ?b)%nat] => destruct (Nat.leb_spec a b) end; cbn [andb];
  repeat match goal with |- context [(?a <? ?b)%nat] => destruct (Nat.ltb_spec a b) end; cbn [andb]; try lia;
  destruct PY as [(?&->) | [(?&?&?&->) | (?&?&?&->)]]; try lia; destruct PX as [(?&->) | [(?&?&?&->) | (?&?&?&->)]]; try lia; reflexivity.
Qed.

(** Filtering in the frequency domain gives at every pixel the window-weighted sum over the pattern continued by its edge
    pixels: for every pattern, every window (odd or even, larger or smaller than the pattern) and every transform size of at
    least the sum of the sizes less one. Nothing from the opposite edge enters. *)
Theorem C44_frequency_filter_is_the_weighted_sum : forall iy ix wy wx fy fx (image window : array) y x,
  (0 < wy)%nat -> (0 < wx)%nat -> (iy + wy - 1 <= fy)%nat -> (ix + wx - 1 <= fx)%nat -> (y < iy)%nat -> (x < ix)%nat ->
  fft_filter iy ix wy wx fy fx image window y x = weighted iy ix wy wx image window y x.
Proof.
  intros iy ix wy wx fy fx image window y x WY WX FY FX Y X. unfold fft_filter.
  destruct (before_half wy WY) as [_ BY]. destruct (before_half wx WX) as [_ BX].
  rewrite convolution by lia.
  rewrite (csum_ext fy _ (fun p => real (total fx (fun q => pad_window wy wx window p q * pad_image iy ix wy wx fy fx image (wrap fy (after wy + y) p) (wrap fx (after wx + x) q))))).
  2: { intros p _. rewrite <- csum_total. apply csum_ext. intros q _. apply Cext; unfold Cmul, real; cbn; ring. }
  rewrite csum_total. cbn [fst real]. rewrite (total_short fy wy).
  2: lia.
  2: { intros p P1 P2. transitivity (total fx (fun _ => 0)); [|apply total_zero]. apply total_ext. intros q _. unfold pad_window, assign.
       destruct (Nat.ltb_spec p wy); [lia|]. rewrite andb_false_r. cbn. ring. }
  rewrite total_rev. unfold weighted. apply total_ext. intros u U. rewrite (total_short fx wx).
  2: lia.
  2: { intros q Q1 Q2. unfold pad_window, assign. destruct (Nat.ltb_spec q wx); [lia|]. rewrite !andb_false_r. ring. }
  rewrite total_rev. apply total_ext. intros v V. rewrite padded by lia. unfold pad_window, assign.
  destruct (Nat.ltb_spec (wy - 1 - u) wy); [|lia]. destruct (Nat.ltb_spec (wx - 1 - v) wx); [|lia]. cbn [andb Nat.leb].
  replace (wy - 1 - (wy - 1 - u))%nat with u by lia. replace (wx - 1 - (wx - 1 - v))%nat with v by lia. reflexivity.
Qed.

(** A constant pattern stays constant times the sum of the window, at the edges too. *)
Theorem C44_constant_pattern : forall iy ix wy wx fy fx c (window : array) y x,
  (0 < wy)%nat -> (0 < wx)%nat -> (iy + wy - 1 <= fy)%nat -> (ix + wx - 1 <= fx)%nat -> (y < iy)%nat -> (x < ix)%nat ->
  fft_filter iy ix wy wx fy fx (fun _ _ => c) window y x = c * total wy (fun u => total wx (fun v => window u v)).
Proof.
  intros. rewrite C44_frequency_filter_is_the_weighted_sum by assumption. unfold weighted, extended.
  assert (M : forall n f, c * total n f = total n (fun i => c * f i)) by (induction n as [|n IH]; intros f; cbn [total]; [ring|rewrite <- IH; ring]).
  rewrite M. apply total_ext. intros u _. rewrite M. apply total_ext. intros v _. ring.
Qed.

(** A pixel depends only on pattern pixels under the window: patterns that agree there give the same value. *)
Theorem C44_only_pixels_under_the_window_matter : forall iy ix wy wx fy fx (image image' window : array) y x,
  (0 < wy)%nat -> (0 < wx)%nat -> (iy + wy - 1 <= fy)%nat -> (ix + wx - 1 <= fx)%nat -> (y < iy)%nat -> (x < ix)%nat ->
  (forall a b, (a < iy)%nat -> (b < ix)%nat -> (a + wy / 2 < y + wy)%nat -> (y <= a + wy / 2)%nat -> (b + wx / 2 < x + wx)%nat -> (x <= b + wx / 2)%nat -> image a b = image' a b) ->
  fft_filter iy ix wy wx fy fx image window y x = fft_filter iy ix wy wx fy fx image' window y x.
Proof.
  intros iy ix wy wx fy fx image image' window y x WY WX FY FX Y X H. rewrite !C44_frequency_filter_is_the_weighted_sum by assumption. unfold weighted.
  pose proof (Nat.div_lt wy 2 WY ltac:(lia)). pose proof (Nat.div_lt wx 2 WX ltac:(lia)).
  apply total_ext. intros u U. apply total_ext. intros v V. f_equal. unfold extended. apply H; unfold nearest; lia.
Qed.

(** A 2 x 3 pattern with a 3 x 2 window and transforms of 4 x 4: the value at the first pixel. *)
Example C44_case : let image := fun y x : nat => INR (3 * y + x)%nat in let window := fun u v : nat => INR (2 * u + v)%nat in
  fft_filter 2 3 3 2 4 4 image window 0%nat 0%nat = 27 /\ weighted 2 3 3 2 image window 0%nat 0%nat = 27.
Proof.
  cbv zeta. rewrite C44_frequency_filter_is_the_weighted_sum by lia. unfold weighted, extended, nearest. cbn. change (Pos.to_nat 1) with 1%nat. cbn. lra.
Qed.
Print Assumptions C44_frequency_filter_is_the_weighted_sum.
