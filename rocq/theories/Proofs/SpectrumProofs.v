(** Sums over an axis in another order, and how transforms change with the pattern. *)
From Coq Require Import Reals Arith ZArith List Bool Lia Lra.
From Verif Require Import Model.FftBarnes Model.PatternSpectrum Proofs.FourierProofs.
Import ListNotations.
Local Open Scope R_scope.

Lemma rsum_ext n f g : (forall i, (i < n)%nat -> f i = g i) -> rsum n f = rsum n g.
Proof. induction n as [|n IH]; intros H; cbn; [reflexivity|]. rewrite IH by (intros; apply H; lia). now rewrite H by lia. Qed.
Lemma rsum_add n f g : rsum n (fun i => f i + g i) = rsum n f + rsum n g.
Proof. induction n as [|n IH]; cbn; [ring|]. rewrite IH. ring. Qed.
Lemma rsum_mul n c f : rsum n (fun i => c * f i) = c * rsum n f.
Proof. induction n as [|n IH]; cbn; [ring|]. rewrite IH. ring. Qed.
Lemma rsum_const n c : rsum n (fun _ => c) = INR n * c.
Proof. induction n as [|n IH]; [cbn; ring|]. cbn [rsum]. rewrite IH, S_INR. ring. Qed.
Lemma rsum_shift n f : rsum (S n) f = f 0%nat + rsum n (fun i => f (S i)).
Proof. induction n as [|n IH]; [cbn; ring|]. cbn [rsum] in *. rewrite IH. ring. Qed.
Lemma rsum_rev n f : rsum n f = rsum n (fun i => f (n - 1 - i)%nat).
Proof.
  revert f. induction n as [|n IH]; intros f; [reflexivity|]. rewrite (rsum_shift n (fun i => f (S n - 1 - i)%nat)). cbn [rsum]. rewrite IH.
  replace (S n - 1 - 0)%nat with n by lia. rewrite Rplus_comm. f_equal. apply rsum_ext. intros i I. f_equal. lia.
Qed.
Lemma rsum_swap n m f : rsum n (fun i => rsum m (fun j => f i j)) = rsum m (fun j => rsum n (fun i => f i j)).
Proof. induction n as [|n IH]; cbn; [rewrite rsum_const; ring|]. now rewrite IH, <- rsum_add. Qed.
Lemma rsum_le n f g : (forall i, (i < n)%nat -> f i <= g i) -> rsum n f <= rsum n g.
Proof. induction n as [|n IH]; intros H; cbn; [lra|]. apply Rplus_le_compat; [apply IH; intros; apply H; lia|apply H; lia]. Qed.
Lemma rsum_zero n f : (forall i, (i < n)%nat -> 0 <= f i) -> rsum n f = 0 -> forall i, (i < n)%nat -> f i = 0.
Proof.
  induction n as [|n IH]; intros P E i I; [lia|]. cbn in E.
  assert (A : 0 <= rsum n f) by (replace 0 with (rsum n (fun _ => 0)) by (rewrite rsum_const; ring); apply rsum_le; intros; apply P; lia).
  pose proof (P n ltac:(lia)) as B. destruct (Nat.eq_dec i n) as [->|N]; [lra|]. apply IH; [intros; apply P; lia|lra|lia].
Qed.
(** Cyclic order *)
Lemma rsum_cycle1 n f : rsum n (fun i => f ((i + 1) mod n)%nat) = rsum n f.
Proof.
  destruct n as [|n]; [reflexivity|]. rewrite (rsum_shift n f). cbn [rsum]. rewrite (rsum_ext n _ (fun i => f (S i))).
  - replace ((n + 1) mod S n)%nat with 0%nat; [ring|]. replace (n + 1)%nat with (S n) by lia. now rewrite Nat.mod_same by lia.
  - intros i I. f_equal. rewrite Nat.mod_small; lia.
Qed.
Lemma rsum_cycle n d f : rsum n (fun i => f ((i + d) mod n)%nat) = rsum n f.
Proof.
  revert f. induction d as [|d IH]; intros f.
  - apply rsum_ext. intros i I. now rewrite Nat.add_0_r, Nat.mod_small by exact I.
  - destruct n as [|n]; [reflexivity|]. rewrite <- (IH f), <- (rsum_cycle1 (S n) (fun i => f ((i + d) mod S n)%nat)). apply rsum_ext. intros i I. f_equal.
    rewrite Nat.add_mod_idemp_l by lia. f_equal. lia.
Qed.
Lemma rsum_reflect n f : rsum n (fun i => f ((n - i) mod n)%nat) = rsum n f.
Proof.
  rewrite <- (rsum_cycle1 n f), (rsum_rev n (fun i => f ((i + 1) mod n)%nat)). apply rsum_ext. intros i I. f_equal. f_equal. lia.
Qed.
Lemma csum_parts n f : csum n f = (rsum n (fun i => fst (f i)), rsum n (fun i => snd (f i))).
Proof. induction n as [|n IH]; [reflexivity|]. cbn. rewrite IH. reflexivity. Qed.
Lemma csum_cycle n d f : csum n (fun i => f ((i + d) mod n)%nat) = csum n f.
Proof. rewrite !csum_parts, (rsum_cycle n d (fun i => fst (f i))), (rsum_cycle n d (fun i => snd (f i))). reflexivity. Qed.
Lemma csum_rev n f : csum n (fun i => f (n - 1 - i)%nat) = csum n f.
Proof. rewrite !csum_parts, <- (rsum_rev n (fun i => fst (f i))), <- (rsum_rev n (fun i => snd (f i))). reflexivity. Qed.

(** Modulus and conjugate *)
Lemma modulus_nonneg c : 0 <= modulus c.
Proof. apply sqrt_pos. Qed.
Lemma modulus_mul a b : modulus (Cmul a b) = modulus a * modulus b.
Proof.
  unfold modulus, Cmul. cbn. rewrite <- sqrt_mult; [f_equal; ring| |]; apply Rplus_le_le_0_compat; apply Rle_0_sqr.
Qed.
Lemma modulus_cis t : modulus (cis t) = 1.
Proof. unfold modulus, cis. cbn. replace (cos t * cos t + sin t * sin t) with 1; [apply sqrt_1|]. pose proof (sin2_cos2 t) as H. unfold Rsqr in H. lra. Qed.
Lemma modulus_real a : modulus (real a) = Rabs a.
Proof. unfold modulus, real. cbn. rewrite Rmult_0_l, Rplus_0_r. apply sqrt_Rsqr_abs. Qed.
Lemma modulus_conj c : modulus (conj c) = modulus c.
Proof. unfold modulus, conj. cbn. f_equal. ring. Qed.
Lemma modulus_0 c : modulus c = 0 -> c = (0, 0).
Proof.
  intros H. unfold modulus in H. apply sqrt_eq_0 in H; [|apply Rplus_le_le_0_compat; apply Rle_0_sqr]. apply Cext; cbn.
  - apply Rsqr_0_uniq. unfold Rsqr. pose proof (Rle_0_sqr (snd c)) as A. pose proof (Rle_0_sqr (fst c)) as B. unfold Rsqr in *. lra.
  - apply Rsqr_0_uniq. unfold Rsqr. pose proof (Rle_0_sqr (snd c)) as A. pose proof (Rle_0_sqr (fst c)) as B. unfold Rsqr in *. lra.
Qed.
Lemma conj_mul a b : conj (Cmul a b) = Cmul (conj a) (conj b).
Proof. apply Cext; unfold conj, Cmul; cbn; ring. Qed.
Lemma conj_cis t : conj (cis t) = cis (- t).
Proof. apply Cext; unfold conj, cis; cbn; [now rewrite cos_neg|now rewrite sin_neg]. Qed.
Lemma conj_csum n f : conj (csum n f) = csum n (fun i => conj (f i)).
Proof. induction n as [|n IH]; cbn; [apply Cext; cbn; ring|]. rewrite <- IH. apply Cext; cbn; ring. Qed.

(** An exponential depends on the index up to multiples of the size. *)
Lemma cis_mod n k i : (0 < n)%nat -> cis (- (2 * PI * (INR k * INR (i mod n) / INR n))) = cis (- (2 * PI * (INR k * INR i / INR n))).
Proof.
  intros N. assert (P : 0 < INR n) by (apply lt_0_INR; lia). rewrite (Nat.div_mod i n) at 2 by lia.
  replace (- (2 * PI * (INR k * INR (n * (i / n) + i mod n) / INR n))) with (- (2 * PI * (INR k * INR (i mod n) / INR n)) + 2 * PI * IZR (- (Z.of_nat k * Z.of_nat (i / n)))).
  - rewrite cis_add, cis_period. apply Cext; unfold Cmul, C1; cbn; ring.
  - rewrite plus_INR, mult_INR, opp_IZR, mult_IZR, <- !INR_IZR_INZ. field. lra.
Qed.
Lemma cis_mod' n k i : (0 < n)%nat -> cis (- (2 * PI * (INR (k mod n) * INR i / INR n))) = cis (- (2 * PI * (INR k * INR i / INR n))).
Proof. intros N. rewrite !(Rmult_comm (INR _) (INR i)). now apply cis_mod. Qed.
Lemma split_cis a b : cis (- (2 * PI * (a + b))) = Cmul (cis (- (2 * PI * a))) (cis (- (2 * PI * b))).
Proof. rewrite <- cis_add. f_equal. ring. Qed.

Lemma dft2_ext h w a b k l : (forall y x, (y < h)%nat -> (x < w)%nat -> a y x = b y x) -> dft2 h w a k l = dft2 h w b k l.
Proof. intros H. unfold dft2. apply csum_ext. intros y Y. apply csum_ext. intros x X. now rewrite H. Qed.
Lemma dft2_scale h w c a k l : dft2 h w (fun y x => c * a y x) k l = Cmul (real c) (dft2 h w a k l).
Proof.
  unfold dft2. rewrite csum_mul. apply csum_ext. intros y _. rewrite csum_mul. apply csum_ext. intros x _. apply Cext; unfold Cmul, real; cbn; ring.
Qed.
(** Negative frequencies of real arrays *)
Lemma dft2_conj h w a k l : (0 < h)%nat -> (0 < w)%nat -> (k < h)%nat -> (l < w)%nat ->
  dft2 h w a ((h - k) mod h) ((w - l) mod w) = conj (dft2 h w a k l).
Proof.
  intros H W K L. assert (PH : 0 < INR h) by (apply lt_0_INR; lia). assert (PW : 0 < INR w) by (apply lt_0_INR; lia).
  unfold dft2. rewrite conj_csum. apply csum_ext. intros y _. rewrite conj_csum. apply csum_ext. intros x _.
  rewrite conj_mul, conj_cis. f_equal; [apply Cext; unfold real, conj; cbn; ring|].
  rewrite split_cis, cis_mod', cis_mod' by assumption. rewrite <- split_cis. rewrite !minus_INR by lia.
  replace (- (2 * PI * ((INR h - INR k) * INR y / INR h + (INR w - INR l) * INR x / INR w))) with (- - (2 * PI * (INR k * INR y / INR h + INR l * INR x / INR w)) + 2 * PI * IZR (- (Z.of_nat y + Z.of_nat x))).
  - rewrite cis_add, cis_period. apply Cext; unfold Cmul, C1; cbn; ring.
  - rewrite opp_IZR, plus_IZR, <- !INR_IZR_INZ. field. lra.
Qed.
(** Cyclic translation *)
Lemma dft2_cycle h w a dy dx k l : (0 < h)%nat -> (0 < w)%nat ->
  dft2 h w (fun y x => a ((y + dy) mod h)%nat ((x + dx) mod w)%nat) k l = Cmul (cis (2 * PI * (INR k * INR dy / INR h + INR l * INR dx / INR w))) (dft2 h w a k l).
Proof.
  intros H W. assert (PH : 0 < INR h) by (apply lt_0_INR; lia). assert (PW : 0 < INR w) by (apply lt_0_INR; lia).
  unfold dft2. rewrite csum_mul. symmetry. rewrite <- (csum_cycle h dy). apply csum_ext. intros y _. rewrite csum_mul. rewrite <- (csum_cycle w dx). apply csum_ext. intros x _. symmetry.
  rewrite (split_cis (INR k * INR ((y + dy) mod h) / INR h)), cis_mod, cis_mod by assumption. rewrite <- split_cis.
  set (t := cis (- (2 * PI * (INR k * INR (y + dy) / INR h + INR l * INR (x + dx) / INR w)))).
  transitivity (Cmul (real (a ((y + dy) mod h)%nat ((x + dx) mod w)%nat)) (Cmul (cis (2 * PI * (INR k * INR dy / INR h + INR l * INR dx / INR w))) t)).
  - f_equal. unfold t. rewrite <- cis_add. f_equal. rewrite !plus_INR. field. lra.
  - apply Cext; unfold Cmul; cbn; ring.
Qed.
(** Mirror images *)
Lemma dft2_mirror h w a k l : (0 < h)%nat -> (0 < w)%nat -> (k < h)%nat -> (l < w)%nat ->
  modulus (dft2 h w (fun y x => a y (w - 1 - x)%nat) k l) = modulus (dft2 h w a k ((w - l) mod w)%nat).
Proof.
  intros H W K L. assert (PH : 0 < INR h) by (apply lt_0_INR; lia). assert (PW : 0 < INR w) by (apply lt_0_INR; lia).
  assert (E : dft2 h w (fun y x => a y (w - 1 - x)%nat) k l = Cmul (cis (- (2 * PI * (INR l * (INR w - 1) / INR w)))) (dft2 h w a k ((w - l) mod w)%nat)).
  { unfold dft2. rewrite csum_mul. apply csum_ext. intros y _. rewrite csum_mul.
    rewrite <- (csum_rev w (fun x => Cmul (cis (- (2 * PI * (INR l * (INR w - 1) / INR w)))) _)). apply csum_ext. intros x X.
    rewrite (split_cis (INR k * INR y / INR h) (INR ((w - l) mod w) * INR (w - 1 - x) / INR w)), cis_mod' by assumption. rewrite <- split_cis.
    rewrite (split_cis (INR k * INR y / INR h) (INR l * INR x / INR w)).
    set (c1 := cis (- (2 * PI * (INR k * INR y / INR h)))).
    assert (F : Cmul (cis (- (2 * PI * (INR l * (INR w - 1) / INR w)))) (cis (- (2 * PI * (INR k * INR y / INR h + INR (w - l) * INR (w - 1 - x) / INR w)))) = Cmul c1 (cis (- (2 * PI * (INR l * INR x / INR w))))).
    { unfold c1. rewrite <- !cis_add. rewrite !minus_INR by lia. replace (INR 1) with 1 by reflexivity.
      replace (- (2 * PI * (INR l * (INR w - 1) / INR w)) + - (2 * PI * (INR k * INR y / INR h + (INR w - INR l) * (INR w - 1 - INR x) / INR w)))
        with (- (2 * PI * (INR k * INR y / INR h)) + - (2 * PI * (INR l * INR x / INR w)) + 2 * PI * IZR (- (Z.of_nat w - 1 - Z.of_nat x))).
      - rewrite (cis_add _ (2 * PI * IZR _)), cis_period. apply Cext; unfold Cmul, C1; cbn; ring.
      - rewrite opp_IZR, !minus_IZR, <- !INR_IZR_INZ. field. lra. }
    rewrite <- F. apply Cext; unfold Cmul; cbn; ring. }
  rewrite E, modulus_mul, modulus_cis. ring.
Qed.
Lemma dft2_transpose h w a k l : dft2 h w a k l = dft2 w h (fun x y => a y x) l k.
Proof. unfold dft2. rewrite csum_swap. apply csum_ext. intros x _. apply csum_ext. intros y _. f_equal. f_equal. f_equal. f_equal. ring. Qed.

(** The inverse transform inverts. *)
Lemma csum_first n f : (0 < n)%nat -> (forall i, (0 < i)%nat -> (i < n)%nat -> f i = C0) -> csum n f = f 0%nat.
Proof.
  intros N H. rewrite (csum_ext n f (fun i => if (i =? 0)%nat then f i else C0)); [now apply csum_single|].
  intros i I. destruct (Nat.eqb_spec i 0); [reflexivity|]. apply H; lia.
Qed.
Definition unit_array : array := fun y x => if (y =? 0)%nat && (x =? 0)%nat then 1 else 0.
Lemma dft2_unit h w k l : (0 < h)%nat -> (0 < w)%nat -> dft2 h w unit_array k l = C1.
Proof.
  intros H W. unfold dft2. rewrite csum_first; [|exact H|].
  - rewrite csum_first; [|exact W|].
    + cbn [unit_array Nat.eqb andb]. unfold unit_array. cbn. rewrite !Rmult_0_r. unfold Rdiv. rewrite !Rmult_0_l, Rplus_0_r, Rmult_0_r, Ropp_0, cis_0. apply Cext; unfold Cmul, real, C1; cbn; ring.
    + intros x X _. unfold unit_array. cbn [Nat.eqb andb]. destruct (Nat.eqb_spec x 0); [lia|]. apply Cext; unfold Cmul, real, C0; cbn; ring.
  - intros y Y _. rewrite (csum_ext w _ (fun _ => C0)); [apply csum_0|]. intros x _. unfold unit_array. destruct (Nat.eqb_spec y 0); [lia|]. apply Cext; unfold Cmul, real, C0; cbn; ring.
Qed.
Lemma idft2_ext h w s t y x : (forall k l, (k < h)%nat -> (l < w)%nat -> s k l = t k l) -> idft2 h w s y x = idft2 h w t y x.
Proof. intros H. unfold idft2. f_equal. apply csum_ext. intros k K. apply csum_ext. intros l L. now rewrite H. Qed.
Lemma inversion h w a y x : (y < h)%nat -> (x < w)%nat -> idft2 h w (dft2 h w a) y x = real (a y x).
Proof.
  intros Y X. transitivity (idft2 h w (fun k l => Cmul (dft2 h w a k l) (dft2 h w unit_array k l)) y x).
  - apply idft2_ext. intros k l _ _. rewrite dft2_unit by lia. apply Cext; unfold Cmul, C1; cbn; ring.
  - rewrite convolution by assumption. rewrite csum_first; [|lia|].
    + rewrite csum_first; [|lia|].
      * unfold wrap. rewrite !Nat.sub_0_r. replace (y + h)%nat with (y + 1 * h)%nat by lia. replace (x + w)%nat with (x + 1 * w)%nat by lia.
        rewrite !Nat.mod_add by lia. rewrite !Nat.mod_small by assumption. unfold unit_array. cbn. apply Cext; unfold Cmul, real; cbn; ring.
      * intros q Q _. unfold unit_array. cbn [Nat.eqb andb]. destruct (Nat.eqb_spec q 0); [lia|]. apply Cext; unfold Cmul, real, C0; cbn; ring.
    + intros p P _. rewrite (csum_ext w _ (fun _ => C0)); [apply csum_0|]. intros q _. unfold unit_array. destruct (Nat.eqb_spec p 0); [lia|]. apply Cext; unfold Cmul, real, C0; cbn; ring.
Qed.

(** Sums over arrays *)
Lemma sum2_ext h w a b : (forall y x, (y < h)%nat -> (x < w)%nat -> a y x = b y x) -> sum2 h w a = sum2 h w b.
Proof. intros H. apply rsum_ext. intros y Y. apply rsum_ext. intros x X. now apply H. Qed.
Lemma sum2_mul h w c a : sum2 h w (fun y x => c * a y x) = c * sum2 h w a.
Proof. unfold sum2. rewrite <- rsum_mul. apply rsum_ext. intros y _. apply rsum_mul. Qed.
Lemma sum2_add h w a b : sum2 h w (fun y x => a y x + b y x) = sum2 h w a + sum2 h w b.
Proof. unfold sum2. rewrite <- rsum_add. apply rsum_ext. intros y _. apply rsum_add. Qed.
Lemma sum2_const h w c : sum2 h w (fun _ _ => c) = INR h * INR w * c.
Proof. unfold sum2. rewrite (rsum_ext h _ (fun _ => INR w * c)) by (intros; apply rsum_const). rewrite rsum_const. ring. Qed.
Lemma sum2_le h w a b : (forall y x, (y < h)%nat -> (x < w)%nat -> a y x <= b y x) -> sum2 h w a <= sum2 h w b.
Proof. intros H. apply rsum_le. intros y Y. apply rsum_le. intros x X. now apply H. Qed.
Lemma sum2_nonneg h w a : (forall y x, (y < h)%nat -> (x < w)%nat -> 0 <= a y x) -> 0 <= sum2 h w a.
Proof. intros H. replace 0 with (sum2 h w (fun _ _ => 0)) by (rewrite sum2_const; ring). now apply sum2_le. Qed.
Lemma sum2_zero h w a : (forall y x, (y < h)%nat -> (x < w)%nat -> 0 <= a y x) -> sum2 h w a = 0 -> forall y x, (y < h)%nat -> (x < w)%nat -> a y x = 0.
Proof.
  intros P E y x Y X. assert (R : rsum w (fun x => a y x) = 0).
  { apply (rsum_zero h (fun y => rsum w (fun x => a y x))); [|exact E|exact Y]. intros i I. replace 0 with (rsum w (fun _ => 0)) by (rewrite rsum_const; ring). apply rsum_le. intros j J. now apply P. }
  apply (rsum_zero w (fun x => a y x)); [intros j J; now apply P|exact R|exact X].
Qed.
Lemma sum2_cycle h w dy dx a : sum2 h w (fun y x => a ((y + dy) mod h)%nat ((x + dx) mod w)%nat) = sum2 h w a.
Proof. unfold sum2. rewrite <- (rsum_cycle h dy (fun y => rsum w (fun x => a y x))). apply rsum_ext. intros y _. apply (rsum_cycle w dx). Qed.
Lemma sum2_flip h w a : sum2 h w (fun y x => a y (w - 1 - x)%nat) = sum2 h w a.
Proof. unfold sum2. apply rsum_ext. intros y _. symmetry. apply (rsum_rev w (fun x => a y x)). Qed.
Lemma sum2_transpose h w a : sum2 h w a = sum2 w h (fun x y => a y x).
Proof. apply rsum_swap. Qed.
