(** The convolution theorem for the two-dimensional discrete Fourier transform. *)
From Coq Require Import Reals Arith ZArith Bool Lia Lra Ring Ring_theory.
From Verif Require Import Model.FftBarnes.
Local Open Scope R_scope.

Definition C0 : C := (0, 0).
Definition C1 : C := (1, 0).
Definition Copp (a : C) : C := (- fst a, - snd a).
Definition Csub (a b : C) : C := Cadd a (Copp b).
Lemma Cext : forall a b : C, fst a = fst b -> snd a = snd b -> a = b.
Proof. intros [? ?] [? ?]; cbn; congruence. Qed.
Lemma C_ring : ring_theory C0 C1 Cadd Cmul Csub Copp (@eq C).
Proof. constructor; intros; apply Cext; unfold Csub, Copp, Cadd, Cmul, C0, C1; cbn; ring. Qed.
Add Ring C_ring : C_ring.

Lemma csum_ext : forall n f g, (forall i, (i < n)%nat -> f i = g i) -> csum n f = csum n g.
Proof. induction n as [|n IH]; intros f g H; cbn [csum]; [reflexivity|]. rewrite (IH f g) by (intros; apply H; lia). now rewrite H by lia. Qed.
Lemma csum_add : forall n f g, csum n (fun i => Cadd (f i) (g i)) = Cadd (csum n f) (csum n g).
Proof. induction n as [|n IH]; intros; cbn [csum]; [change (0, 0) with C0; ring|]. rewrite IH. ring. Qed.
Lemma csum_mul : forall n c f, Cmul c (csum n f) = csum n (fun i => Cmul c (f i)).
Proof. induction n as [|n IH]; intros; cbn [csum]; [change (0, 0) with C0; ring|]. rewrite <- IH. ring. Qed.
Lemma csum_0 : forall n, csum n (fun _ => C0) = C0.
Proof. induction n as [|n IH]; cbn [csum]; [reflexivity|]. rewrite IH. ring. Qed.
Lemma csum_swap : forall n m f, csum n (fun i => csum m (fun j => f i j)) = csum m (fun j => csum n (fun i => f i j)).
Proof.
  induction n as [|n IH]; intros m f; cbn [csum].
  - symmetry. rewrite (csum_ext m _ (fun _ => C0)) by reflexivity. apply csum_0.
  - rewrite IH. now rewrite <- csum_add.
Qed.
Lemma csum_single : forall n p c, (p < n)%nat -> csum n (fun i => if (i =? p)%nat then c i else C0) = c p.
Proof.
  induction n as [|n IH]; intros p c H; [lia|]. cbn [csum]. destruct (Nat.eqb_spec n p) as [->|N].
  - rewrite (csum_ext p _ (fun _ => C0)); [rewrite csum_0; ring|]. intros i I. destruct (Nat.eqb_spec i p); [lia|reflexivity].
  - rewrite IH by lia. ring.
Qed.
Lemma csum_real : forall n f, csum n (fun i => real (f i)) = real (fst (csum n (fun i => real (f i)))).
Proof.
  intros n f. apply Cext; [reflexivity|]. cbn. induction n as [|n IH]; cbn [csum]; [reflexivity|]. cbn. rewrite IH. ring.
Qed.

Lemma cis_add : forall a b, cis (a + b) = Cmul (cis a) (cis b).
Proof. intros. apply Cext; unfold cis, Cmul; cbn; [rewrite cos_plus; ring|rewrite sin_plus; ring]. Qed.
Lemma cis_0 : cis 0 = C1.
Proof. unfold cis. now rewrite cos_0, sin_0. Qed.
Lemma cis_period : forall z, cis (2 * PI * IZR z) = C1.
Proof.
  assert (P : forall n, cis (2 * PI * INR n) = C1).
  { induction n as [|n IH]; [cbn; rewrite Rmult_0_r; apply cis_0|]. rewrite S_INR, Rmult_plus_distr_l, Rmult_1_r, cis_add, IH.
    unfold cis. rewrite cos_2PI, sin_2PI. fold C1. ring. }
  intros z. destruct (Z_le_dec 0 z) as [H|H].
  - rewrite <- (Z2Nat.id z) by exact H. rewrite <- INR_IZR_INZ. apply P.
  - assert (E : Cmul (cis (2 * PI * IZR z)) (cis (2 * PI * INR (Z.to_nat (- z)))) = C1).
    { rewrite <- cis_add, INR_IZR_INZ, Z2Nat.id by lia. rewrite opp_IZR. replace (2 * PI * IZR z + 2 * PI * - IZR z) with 0 by ring. apply cis_0. }
    rewrite P in E. rewrite <- E. ring.
Qed.

Lemma C_integral : forall a b, Cmul a b = C0 -> a <> C0 -> b = C0.
Proof.
  intros [a1 a2] [b1 b2] H N. unfold Cmul, C0 in *. cbn in H. injection H as H1 H2.
  assert (D : a1 * a1 + a2 * a2 <> 0).
  { intros E. apply N. assert (a1 = 0) by nra. assert (a2 = 0) by nra. congruence. }
  assert (X1 : (a1 * a1 + a2 * a2) * b1 = 0).
  { replace ((a1 * a1 + a2 * a2) * b1) with (a1 * (a1 * b1 - a2 * b2) + a2 * (a1 * b2 + a2 * b1)) by ring. rewrite H1, H2. ring. }
  assert (X2 : (a1 * a1 + a2 * a2) * b2 = 0).
  { replace ((a1 * a1 + a2 * a2) * b2) with (a1 * (a1 * b2 + a2 * b1) - a2 * (a1 * b1 - a2 * b2)) by ring. rewrite H1, H2. ring. }
  apply Rmult_integral in X1 as [X1|X1]; [contradiction|]. apply Rmult_integral in X2 as [X2|X2]; [contradiction|]. congruence.
Qed.
Lemma cis_one : forall n m, (0 < n)%nat -> cis (2 * PI * (IZR m / INR n)) = C1 -> exists k, m = (k * Z.of_nat n)%Z.
Proof.
  intros n m N H. unfold cis, C1 in H. injection H as HC _.
  assert (P : 0 < INR n) by (apply lt_0_INR; lia).
  set (t := PI * (IZR m / INR n)). assert (S : sin t = 0).
  { replace (2 * PI * (IZR m / INR n)) with (2 * t) in HC by (unfold t; ring). rewrite cos_2a_sin in HC. nra. }
  apply sin_eq_0_0 in S as [k K]. exists k. unfold t in K.
  assert (E : IZR m = IZR k * INR n).
  { apply Rmult_eq_reg_l with PI; [|pose proof PI_RGT_0; lra]. replace (PI * (IZR k * INR n)) with (IZR k * PI * INR n) by ring. rewrite <- K. field. lra. }
  rewrite INR_IZR_INZ, <- mult_IZR in E. now apply eq_IZR in E.
Qed.

(** Sums of roots of unity. *)
Lemma geometric : forall n t, Cmul (Csub (cis t) C1) (csum n (fun k => cis (INR k * t))) = Csub (cis (INR n * t)) C1.
Proof.
  induction n as [|n IH]; intros t; cbn [csum].
  - cbn [INR]. rewrite Rmult_0_l, cis_0. change (0, 0) with C0. ring.
  - replace (Cmul (Csub (cis t) C1) (Cadd (csum n (fun k => cis (INR k * t))) (cis (INR n * t))))
      with (Cadd (Cmul (Csub (cis t) C1) (csum n (fun k => cis (INR k * t)))) (Cmul (Csub (cis t) C1) (cis (INR n * t)))) by ring.
    rewrite IH. rewrite S_INR, Rmult_plus_distr_r, Rmult_1_l, cis_add. ring.
Qed.
Lemma roots : forall n m, (0 < n)%nat ->
  csum n (fun k => cis (2 * PI * (INR k * IZR m / INR n))) = if (m mod Z.of_nat n =? 0)%Z then real (INR n) else C0.
Proof.
  intros n m N. assert (P : 0 < INR n) by (apply lt_0_INR; lia).
  set (t := 2 * PI * (IZR m / INR n)).
  rewrite (csum_ext n _ (fun k => cis (INR k * t))) by (intros; f_equal; unfold t; field; lra).
  destruct (Z.eqb_spec (m mod Z.of_nat n) 0) as [E|E].
  - apply Z.mod_divide in E as [k ->]; [|lia].
    assert (T : forall i, cis (INR i * t) = C1).
    { intros i. unfold t. rewrite mult_IZR, <- INR_IZR_INZ. replace (INR i * (2 * PI * (IZR k * INR n / INR n))) with (2 * PI * (INR i * IZR k)) by (field; lra).
      rewrite INR_IZR_INZ, <- mult_IZR. apply cis_period. }
    rewrite (csum_ext n _ (fun _ => C1)) by (intros; apply T). clear. induction n as [|n IH]; [reflexivity|]. rewrite S_INR. cbn [csum]. rewrite IH.
    apply Cext; unfold Cadd, real, C1; cbn; ring.
  - apply (C_integral (Csub (cis t) C1)).
    + rewrite geometric. unfold t. replace (INR n * (2 * PI * (IZR m / INR n))) with (2 * PI * IZR m) by (field; lra). rewrite cis_period. ring.
    + intros Z. apply E. destruct (cis_one n m N) as [k ->].
      * fold t. replace (cis t) with (Cadd (Csub (cis t) C1) C1) by ring. rewrite Z. ring.
      * apply Z.mod_mul. lia.
Qed.

(** Circular distance. *)
Definition wrap (n y p : nat) : nat := ((y + n - p) mod n)%nat.
Lemma wrap_spec : forall n y p q, (y < n)%nat -> (p < n)%nat -> (q < n)%nat ->
  (((Z.of_nat y - Z.of_nat q - Z.of_nat p) mod Z.of_nat n =? 0)%Z = (q =? wrap n y p)%nat).
Proof.
  intros n y p q Y P Q. unfold wrap.
  assert (E : Z.of_nat ((y + n - p) mod n) = ((Z.of_nat y - Z.of_nat p) mod Z.of_nat n)%Z).
  { rewrite Nat2Z.inj_mod. replace (Z.of_nat (y + n - p)) with (Z.of_nat y - Z.of_nat p + 1 * Z.of_nat n)%Z by lia. apply Z.mod_add. lia. }
  pose proof (Z.mod_pos_bound (Z.of_nat y - Z.of_nat p) (Z.of_nat n) ltac:(lia)) as B.
  pose proof (Z.div_mod (Z.of_nat y - Z.of_nat p) (Z.of_nat n) ltac:(lia)) as D.
  destruct (Nat.eqb_spec q ((y + n - p) mod n)) as [->|N].
  - apply Z.eqb_eq. rewrite E. replace (Z.of_nat y - (Z.of_nat y - Z.of_nat p) mod Z.of_nat n - Z.of_nat p)%Z with (((Z.of_nat y - Z.of_nat p) / Z.of_nat n) * Z.of_nat n)%Z by lia.
    apply Z.mod_mul. lia.
  - apply Z.eqb_neq. intros M. apply N. apply Nat2Z.inj. rewrite E. apply Z.mod_divide in M as [k K]; [|lia].
    apply Z.mod_unique with (q := k); [lia|]. lia.
Qed.

(** One axis: summing over a frequency picks the wrapped index. *)
Lemma pick : forall n y p (c : nat -> C), (y < n)%nat -> (p < n)%nat ->
  csum n (fun q => Cmul (c q) (csum n (fun k => cis (2 * PI * (INR k * (INR y - INR q - INR p) / INR n))))) = Cmul (real (INR n)) (c (wrap n y p)).
Proof.
  intros n y p c Y P. rewrite <- (csum_single n (wrap n y p) (fun q => Cmul (real (INR n)) (c q))).
  2: { unfold wrap. apply Nat.mod_upper_bound. lia. }
  apply csum_ext. intros q Q. rewrite (csum_ext n _ (fun k => cis (2 * PI * (INR k * IZR (Z.of_nat y - Z.of_nat q - Z.of_nat p) / INR n)))).
  - rewrite roots by lia. rewrite wrap_spec by assumption. destruct (q =? wrap n y p)%nat; ring.
  - intros k _. rewrite !minus_IZR, <- !INR_IZR_INZ. reflexivity.
Qed.

Lemma csum_mul_r : forall n c f, Cmul (csum n f) c = csum n (fun i => Cmul (f i) c).
Proof. intros. replace (Cmul (csum n f) c) with (Cmul c (csum n f)) by ring. rewrite csum_mul. apply csum_ext. intros. ring. Qed.

(** The convolution theorem: the inverse transform of the product of two transforms is the circular convolution. *)
Theorem convolution : forall fy fx (a b : array) y x, (y < fy)%nat -> (x < fx)%nat ->
  idft2 fy fx (fun k l => Cmul (dft2 fy fx a k l) (dft2 fy fx b k l)) y x =
  csum fy (fun p => csum fx (fun q => Cmul (real (b p q)) (real (a (wrap fy y p) (wrap fx x q))))).
Proof.
  intros fy fx a b y x Y X. unfold idft2, dft2.
  assert (PY : 0 < INR fy) by (apply lt_0_INR; lia). assert (PX : 0 < INR fx) by (apply lt_0_INR; lia).
  set (ey := fun k r p : nat => cis (2 * PI * (INR k * (INR y - INR r - INR p) / INR fy))).
  set (ex := fun l s q : nat => cis (2 * PI * (INR l * (INR x - INR s - INR q) / INR fx))).
  (* move all sums out *)
  assert (T : csum fy (fun k => csum fx (fun l => Cmul (Cmul
      (csum fy (fun y0 => csum fx (fun x0 => Cmul (real (a y0 x0)) (cis (- (2 * PI * (INR k * INR y0 / INR fy + INR l * INR x0 / INR fx)))))))
      (csum fy (fun y0 => csum fx (fun x0 => Cmul (real (b y0 x0)) (cis (- (2 * PI * (INR k * INR y0 / INR fy + INR l * INR x0 / INR fx))))))))
      (cis (2 * PI * (INR k * INR y / INR fy + INR l * INR x / INR fx)))))
    = csum fy (fun p => csum fx (fun q => csum fy (fun r => csum fx (fun s =>
        Cmul (Cmul (real (a r s)) (real (b p q))) (Cmul (csum fy (fun k => ey k r p)) (csum fx (fun l => ex l s q)))))))).
  { transitivity (csum fy (fun k => csum fx (fun l => csum fy (fun p => csum fx (fun q => csum fy (fun r => csum fx (fun s =>
        Cmul (Cmul (real (a r s)) (real (b p q))) (Cmul (ey k r p) (ex l s q))))))))).
    - apply csum_ext; intros k _. apply csum_ext; intros l _.
      rewrite (csum_mul fy). rewrite csum_mul_r. apply csum_ext; intros p _.
      rewrite (csum_mul fx). rewrite csum_mul_r. apply csum_ext; intros q _.
      rewrite csum_mul_r, csum_mul_r. apply csum_ext; intros r _. rewrite csum_mul_r, csum_mul_r. apply csum_ext; intros s _.
      assert (E : Cmul (ey k r p) (ex l s q) = Cmul (Cmul (cis (- (2 * PI * (INR k * INR r / INR fy + INR l * INR s / INR fx)))) (cis (- (2 * PI * (INR k * INR p / INR fy + INR l * INR q / INR fx)))))
         (cis (2 * PI * (INR k * INR y / INR fy + INR l * INR x / INR fx)))).
      { unfold ey, ex. rewrite <- !cis_add. f_equal. field. lra. }
      rewrite E. ring.
    - rewrite (csum_ext fy _ (fun k => csum fy (fun p => csum fx (fun l => csum fx (fun q => csum fy (fun r => csum fx (fun s =>
        Cmul (Cmul (real (a r s)) (real (b p q))) (Cmul (ey k r p) (ex l s q))))))))) by (intros; apply csum_swap).
      rewrite csum_swap. apply csum_ext; intros p _.
      rewrite (csum_ext fy _ (fun k => csum fx (fun q => csum fx (fun l => csum fy (fun r => csum fx (fun s =>
        Cmul (Cmul (real (a r s)) (real (b p q))) (Cmul (ey k r p) (ex l s q)))))))) by (intros; apply csum_swap).
      rewrite csum_swap. apply csum_ext; intros q _.
      rewrite (csum_ext fy _ (fun k => csum fy (fun r => csum fx (fun l => csum fx (fun s =>
        Cmul (Cmul (real (a r s)) (real (b p q))) (Cmul (ey k r p) (ex l s q))))))) by (intros; apply csum_swap).
      rewrite csum_swap. apply csum_ext; intros r _.
      rewrite (csum_ext fy _ (fun k => csum fx (fun s => csum fx (fun l =>
        Cmul (Cmul (real (a r s)) (real (b p q))) (Cmul (ey k r p) (ex l s q)))))) by (intros; apply csum_swap).
      rewrite csum_swap. apply csum_ext; intros s _.
      rewrite csum_mul_r, csum_mul. apply csum_ext; intros k _. rewrite csum_mul, csum_mul. reflexivity. }
  rewrite T. clear T.
  transitivity (Cmul (real (/ (INR fy * INR fx))) (csum fy (fun p => csum fx (fun q => Cmul (Cmul (real (INR fy)) (real (INR fx))) (Cmul (real (b p q)) (real (a (wrap fy y p) (wrap fx x q)))))))).
  - f_equal. apply csum_ext; intros p P. apply csum_ext; intros q Q.
    rewrite (csum_ext fy _ (fun r => Cmul (Cmul (real (b p q)) (Cmul (real (INR fx)) (real (a r (wrap fx x q))))) (csum fy (fun k => ey k r p)))).
    + unfold ey. rewrite (pick fy y p (fun r => Cmul (real (b p q)) (Cmul (real (INR fx)) (real (a r (wrap fx x q)))))) by assumption. ring.
    + intros r R. rewrite <- (pick fx x q (fun s => real (a r s)) X Q). rewrite (csum_mul fx (real (b p q))). rewrite (csum_mul_r fx). apply csum_ext; intros s _. unfold ex. ring.
  - rewrite (csum_ext fy _ (fun p => Cmul (Cmul (real (INR fy)) (real (INR fx))) (csum fx (fun q => Cmul (real (b p q)) (real (a (wrap fy y p) (wrap fx x q))))))) by (intros; now rewrite csum_mul).
    rewrite <- csum_mul.
    set (S := csum fy _). replace (Cmul (real (/ (INR fy * INR fx))) (Cmul (Cmul (real (INR fy)) (real (INR fx))) S))
      with (Cmul (Cmul (real (/ (INR fy * INR fx))) (Cmul (real (INR fy)) (real (INR fx)))) S) by ring.
    assert (O : Cmul (real (/ (INR fy * INR fx))) (Cmul (real (INR fy)) (real (INR fx))) = C1).
    { apply Cext; unfold Cmul, real, C1; cbn; [field; lra|ring]. }
    rewrite O. ring.
Qed.
