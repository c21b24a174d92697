(** C76: Fourier transforms of patterns and filtering in the frequency domain. *)
From Coq Require Import String Reals Arith ZArith List Bool Lia Lra.
From Verif Require Import Model.FftBarnes Model.PatternSpectrum Proofs.FourierProofs Proofs.SpectrumProofs Proofs.ImageQualityProofs Spec.FilterSpec Spec.QualitySpec.
Import ListNotations.
Local Open Scope R_scope.

(** Shifting back and forth *)
Lemma roll_spec n i : (0 < n)%nat -> roll n (n / 2) i = ((i + (n - n / 2)) mod n)%nat.
Proof.
  intros N. unfold roll. assert (n / 2 < n)%nat by (apply Nat.div_lt; lia). rewrite (Nat.mod_small (n / 2)) by lia. f_equal. lia.
Qed.
Lemma roll_back n i : (0 < n)%nat -> (i < n)%nat -> roll n (n / 2) ((i + n / 2) mod n) = i.
Proof.
  intros N I. rewrite roll_spec by exact N. assert (n / 2 < n)%nat by (apply Nat.div_lt; lia). rewrite Nat.add_mod_idemp_l by lia.
  replace (i + n / 2 + (n - n / 2))%nat with (i + 1 * n)%nat by lia. rewrite Nat.mod_add by lia. now apply Nat.mod_small.
Qed.
Lemma back_roll n i : (0 < n)%nat -> (i < n)%nat -> ((roll n (n / 2) i + n / 2) mod n = i)%nat.
Proof.
  intros N I. rewrite roll_spec by exact N. assert (n / 2 < n)%nat by (apply Nat.div_lt; lia). rewrite Nat.add_mod_idemp_l by lia.
  replace (i + (n - n / 2) + n / 2)%nat with (i + 1 * n)%nat by lia. rewrite Nat.mod_add by lia. now apply Nat.mod_small.
Qed.
Lemma unshift s k l : (0 < rows s)%nat -> (0 < columns s)%nat -> (k < rows s)%nat -> (l < columns s)%nat -> at_frequency (ifftshift (fftshift s)) k l = at_frequency s k l.
Proof. intros. cbn. rewrite !roll_back by assumption. reflexivity. Qed.

(** Real spectra *)
Definition apodized (p : array) (a : option array) : array := match a with None => p | Some a => fun y x => p y x * a y x end.
Definition agree (h w : nat) (r : nat * nat * array) (p : array) : Prop := fst r = (h, w) /\ forall y x, (y < h)%nat -> (x < w)%nat -> snd r y x = p y x.

(** The pattern comes back, times the apodization window, whatever the shift. *)
Theorem C76_round_trip h w p a shift : agree h w (ifft (fft h w p a shift false) shift false) (apodized p a).
Proof.
  unfold agree, ifft, fft, fft2. destruct shift; cbn [ifft2 rows columns at_frequency ifftshift fftshift fst snd]; split; try reflexivity; intros y x Y X.
  - rewrite (idft2_ext h w _ (dft2 h w (apodized p a))); [rewrite inversion by assumption; reflexivity|].
    intros k l K L. rewrite !roll_back by lia. reflexivity.
  - rewrite (idft2_ext h w _ (dft2 h w (apodized p a))) by reflexivity. rewrite inversion by assumption. reflexivity.
Qed.
(** With real_fft_only the same for even widths, *)
Theorem C76_real_round_trip_even_width h m p a shift : (0 < h)%nat -> (0 < m)%nat ->
  agree h (2 * m) (ifft (fft h (2 * m) p a shift true) shift true) (apodized p a).
Proof.
  intros H M. assert (HALF : (2 * m / 2 + 1 = m + 1)%nat) by (replace (2 * m)%nat with (m * 2)%nat by lia; rewrite Nat.div_mul; lia).
  assert (G : forall t, (forall k l, (k < h)%nat -> (l < m + 1)%nat -> t k l = dft2 h (2 * m) (apodized p a) k l) ->
    forall y x, (y < h)%nat -> (x < 2 * m)%nat ->
    idft2 h (2 * m) (fun k l => if (l <? m + 1)%nat then t k l else conj (t ((h - k) mod h)%nat (2 * m - l)%nat)) y x = real (apodized p a y x)).
  { intros t T y x Y X. rewrite <- (inversion h (2 * m)) by assumption. apply idft2_ext. intros k l K L.
    destruct (Nat.ltb_spec l (m + 1)) as [B|B]; [now apply T|]. rewrite T; [|apply Nat.mod_upper_bound; lia|lia].
    rewrite <- dft2_conj; [|lia|lia|apply Nat.mod_upper_bound; lia|lia].
    f_equal; [|rewrite Nat.mod_small; lia]. destruct (Nat.eq_dec k 0) as [->|N]; [now rewrite Nat.sub_0_r, Nat.mod_same, Nat.sub_0_r, Nat.mod_same by lia|].
    rewrite (Nat.mod_small (h - k)) by lia. rewrite Nat.mod_small; lia. }
  unfold agree, ifft, fft, rfft2. destruct shift; cbn [irfft2 rows columns at_frequency ifftshift fftshift fst snd]; rewrite HALF.
  - replace (2 * (m + 1 - 1))%nat with (2 * m)%nat by lia. split; [reflexivity|]. intros y x Y X.
    rewrite (G (fun k l => dft2 h (2 * m) (apodized p a) (roll h (h / 2) ((k + h / 2) mod h)) (roll (m + 1) ((m + 1) / 2) ((l + (m + 1) / 2) mod (m + 1))))); [reflexivity| |exact Y|exact X].
    intros k l K L. rewrite !roll_back by lia. reflexivity.
  - replace (2 * (m + 1 - 1))%nat with (2 * m)%nat by lia. split; [reflexivity|]. intros y x Y X. rewrite (G (dft2 h (2 * m) (apodized p a))); [reflexivity|reflexivity|exact Y|exact X].
Qed.
(** but for odd widths a column is lost. *)
Theorem C76_real_round_trip_odd_width_refuted h m p a shift : fst (ifft (fft h (2 * m + 1) p a shift true) shift true) = (h, (2 * m)%nat).
Proof.
  assert (HALF : ((2 * m + 1) / 2 = m)%nat) by (symmetry; apply (Nat.div_unique _ _ _ 1); lia).
  unfold ifft, fft, rfft2. destruct shift; cbn [irfft2 rows columns at_frequency ifftshift fftshift fst snd]; rewrite HALF; f_equal; lia.
Qed.
(** After a shift the sum of the pattern is in the middle. *)
Theorem C76_zero_frequency h w p a : (0 < h)%nat -> (0 < w)%nat ->
  let sum := (total2 h w (apodized p a), 0) in
  at_frequency (fft h w p a false false) 0 0 = sum /\ at_frequency (fft h w p a true false) (h / 2) (w / 2) = sum /\
  at_frequency (fft h w p a false true) 0 0 = sum /\ at_frequency (fft h w p a true true) (h / 2) ((w / 2 + 1) / 2) = sum.
Proof.
  intros H W. assert (Z : dft2 h w (apodized p a) 0 0 = (total2 h w (apodized p a), 0)).
  { rewrite <- (sum2_total2 h w (apodized p a)). unfold dft2, sum2. rewrite csum_parts. apply Cext; cbn [fst snd].
    - apply rsum_ext. intros y _. rewrite csum_parts. cbn [fst]. apply rsum_ext. intros x _. cbn [INR]. unfold Rdiv. rewrite !Rmult_0_l, Rplus_0_r, Rmult_0_r, Ropp_0, cis_0. unfold Cmul, real, C1. cbn. ring.
    - rewrite (rsum_ext h _ (fun _ => 0)); [rewrite rsum_const; ring|]. intros y _. rewrite csum_parts. cbn [snd]. rewrite (rsum_ext w _ (fun _ => 0)); [rewrite rsum_const; ring|].
      intros x _. cbn [INR]. unfold Rdiv. rewrite !Rmult_0_l, Rplus_0_r, Rmult_0_r, Ropp_0, cis_0. unfold Cmul, real, C1. cbn. ring. }
  assert (R0 : forall n, (0 < n)%nat -> roll n (n / 2) (n / 2) = 0%nat).
  { intros n N. pose proof (roll_back n 0 N N) as E. rewrite Nat.add_0_l, (Nat.mod_small (n / 2)) in E by (apply Nat.div_lt; lia). exact E. }
  cbv zeta. repeat split; cbn [fft fft2 rfft2 fftshift at_frequency rows columns]; rewrite ?R0 by lia; exact Z.
Qed.
(** Keyword arguments *)
Theorem C76_options h w p a shift real_only options s : fft_with h w p a shift real_only options = Some s ->
  s = fft h w p a shift real_only /\ ifft_with s false real_only options = Some (ifft s false real_only).
Proof. unfold fft_with, ifft_with. destruct (forallb _ options); [|discriminate]. intros E. injection E as <-. now split. Qed.
Theorem C76_options_with_shift_refuted s real_only o options : ifft_with s true real_only (o :: options) = None.
Proof. reflexivity. Qed.

(** * Filtering *)
(** What a filter does: the spectrum of the result is that of the pattern times the transfer function, averaged over a frequency and
    its opposite since the result is real. *)
Lemma inversion' h w t k l : (k < h)%nat -> (l < w)%nat ->
  csum h (fun y => csum w (fun x => Cmul (idft2 h w t y x) (cis (- (2 * PI * (INR k * INR y / INR h + INR l * INR x / INR w)))))) = t k l.
Proof.
  intros K L. assert (PH : 0 < INR h) by (apply lt_0_INR; lia). assert (PW : 0 < INR w) by (apply lt_0_INR; lia).
  assert (ONE : forall n j, (j < n)%nat -> forall f : nat -> C, csum n (fun i => Cmul (f i) (csum n (fun y => cis (2 * PI * (INR y * IZR (Z.of_nat i - Z.of_nat j) / INR n))))) = Cmul (real (INR n)) (f j)).
  { clear. intros n j J f. rewrite <- (csum_single n j (fun i => Cmul (real (INR n)) (f i))) by exact J. apply csum_ext. intros i I. rewrite roots by lia.
    destruct (Nat.eqb_spec i j) as [->|N].
    - rewrite Z.sub_diag, Z.mod_0_l by lia. cbn [Z.eqb]. apply Cext; unfold Cmul, real; cbn; ring.
    - destruct (Z.eqb_spec ((Z.of_nat i - Z.of_nat j) mod Z.of_nat n) 0) as [E|_]; [|apply Cext; unfold Cmul, C0; cbn; ring].
      exfalso. apply Z.mod_divide in E; [|lia]. destruct E as [d E]. assert (d <= -1 \/ d = 0 \/ 1 <= d)%Z as [?|[?|?]] by lia; nia. }
  transitivity (Cmul (real (/ (INR h * INR w))) (csum h (fun k' => Cmul (csum w (fun l' => Cmul (t k' l') (csum w (fun x => cis (2 * PI * (INR x * IZR (Z.of_nat l' - Z.of_nat l) / INR w)))))) (csum h (fun y => cis (2 * PI * (INR y * IZR (Z.of_nat k' - Z.of_nat k) / INR h))))))).
  - rewrite (csum_ext h _ (fun y => Cmul (real (/ (INR h * INR w))) (csum h (fun k' => Cmul (csum w (fun l' => Cmul (t k' l') (csum w (fun x => cis (2 * PI * (INR x * IZR (Z.of_nat l' - Z.of_nat l) / INR w)))))) (cis (2 * PI * (INR y * IZR (Z.of_nat k' - Z.of_nat k) / INR h))))))).
    + rewrite <- csum_mul. f_equal. rewrite csum_swap. apply csum_ext. intros k' _. rewrite <- csum_mul. reflexivity.
    + intros y _. unfold idft2.
      rewrite (csum_ext w _ (fun x => Cmul (real (/ (INR h * INR w))) (csum h (fun k' => csum w (fun l' => Cmul (t k' l') (Cmul (cis (2 * PI * (INR x * IZR (Z.of_nat l' - Z.of_nat l) / INR w))) (cis (2 * PI * (INR y * IZR (Z.of_nat k' - Z.of_nat k) / INR h))))))))).
      * rewrite <- csum_mul. f_equal. rewrite csum_swap. apply csum_ext. intros k' _. rewrite csum_swap, csum_mul_r. apply csum_ext. intros l' _.
        rewrite <- csum_mul, <- csum_mul_r. apply Cext; unfold Cmul; cbn; ring.
      * intros x _. transitivity (Cmul (real (/ (INR h * INR w))) (Cmul (csum h (fun k0 => csum w (fun l0 => Cmul (t k0 l0) (cis (2 * PI * (INR k0 * INR y / INR h + INR l0 * INR x / INR w)))))) (cis (- (2 * PI * (INR k * INR y / INR h + INR l * INR x / INR w)))))).
        { apply Cext; unfold Cmul; cbn; ring. }
        f_equal. rewrite csum_mul_r. apply csum_ext. intros k' _. rewrite csum_mul_r. apply csum_ext. intros l' _.
        transitivity (Cmul (t k' l') (Cmul (cis (2 * PI * (INR k' * INR y / INR h + INR l' * INR x / INR w))) (cis (- (2 * PI * (INR k * INR y / INR h + INR l * INR x / INR w)))))); [apply Cext; unfold Cmul; cbn; ring|].
        f_equal. rewrite <- !cis_add. f_equal. rewrite !minus_IZR, <- !INR_IZR_INZ. field. lra.
  - rewrite (ONE h k K), (ONE w l L). apply Cext; unfold Cmul, real; cbn; field; lra.
Qed.
Lemma conj_idft2 h w t y x : (0 < h)%nat -> (0 < w)%nat -> conj (idft2 h w t y x) = idft2 h w (fun k l => conj (t ((h - k) mod h)%nat ((w - l) mod w)%nat)) y x.
Proof.
  intros H W. assert (PH : 0 < INR h) by (apply lt_0_INR; lia). assert (PW : 0 < INR w) by (apply lt_0_INR; lia).
  unfold idft2. rewrite conj_mul, conj_csum. f_equal; [apply Cext; unfold conj, real; cbn; ring|].
  assert (REF : forall n f, csum n (fun i => f ((n - i) mod n)%nat) = csum n f) by (intros n f; rewrite !csum_parts, (rsum_reflect n (fun i => fst (f i))), (rsum_reflect n (fun i => snd (f i))); reflexivity).
  rewrite <- (REF h). apply csum_ext. intros k K. rewrite conj_csum. rewrite <- (REF w). apply csum_ext. intros l L.
  rewrite conj_mul, conj_cis. f_equal. rewrite split_cis, cis_mod', cis_mod' by assumption. rewrite <- split_cis. rewrite !minus_INR by lia.
  replace (- (2 * PI * ((INR h - INR k) * INR y / INR h + (INR w - INR l) * INR x / INR w))) with (2 * PI * (INR k * INR y / INR h + INR l * INR x / INR w) + 2 * PI * IZR (- (Z.of_nat y + Z.of_nat x))).
  - rewrite cis_add, cis_period. apply Cext; unfold Cmul, C1; cbn; ring.
  - rewrite opp_IZR, plus_IZR, <- !INR_IZR_INZ. field. lra.
Qed.
Lemma idft2_add h w s t y x : idft2 h w (fun k l => Cadd (s k l) (t k l)) y x = Cadd (idft2 h w s y x) (idft2 h w t y x).
Proof.
  unfold idft2. rewrite (csum_ext h _ (fun k => Cadd (csum w (fun l => Cmul (s k l) (cis (2 * PI * (INR k * INR y / INR h + INR l * INR x / INR w))))) (csum w (fun l => Cmul (t k l) (cis (2 * PI * (INR k * INR y / INR h + INR l * INR x / INR w))))))).
  - rewrite csum_add. apply Cext; unfold Cmul, Cadd; cbn; ring.
  - intros k _. rewrite <- csum_add. apply csum_ext. intros l _. apply Cext; unfold Cmul, Cadd; cbn; ring.
Qed.
Lemma idft2_mul h w c t y x : idft2 h w (fun k l => Cmul (real c) (t k l)) y x = Cmul (real c) (idft2 h w t y x).
Proof.
  unfold idft2. rewrite (csum_ext h _ (fun k => Cmul (real c) (csum w (fun l => Cmul (t k l) (cis (2 * PI * (INR k * INR y / INR h + INR l * INR x / INR w))))))).
  - rewrite <- csum_mul. apply Cext; unfold Cmul; cbn; ring.
  - intros k _. rewrite csum_mul. apply csum_ext. intros l _. apply Cext; unfold Cmul; cbn; ring.
Qed.
(** The transfer function with the zero frequency in the corner *)
Definition unshifted (h w : nat) (shift : bool) (t : array) : array := if shift then fun k l => t ((k + h / 2) mod h)%nat ((l + w / 2) mod w)%nat else t.
Lemma filter_unfold h w p t a shift y x : (0 < h)%nat -> (0 < w)%nat ->
  snd (fft_filter h w p t a shift) y x = fst (idft2 h w (fun k l => Cmul (dft2 h w (apodized p a) k l) (real (unshifted h w shift t k l))) y x).
Proof.
  intros H W. unfold fft_filter, ifft, times, fft, fft2, unshifted. destruct shift; cbn [ifft2 rows columns at_frequency ifftshift fftshift fst snd].
  - f_equal. apply idft2_ext. intros k l K L. rewrite !roll_back by assumption. reflexivity.
  - reflexivity.
Qed.
Definition opposite (n k : nat) : nat := ((n - k) mod n)%nat.
Theorem C76_filter_spectrum h w p t a shift k l : (k < h)%nat -> (l < w)%nat ->
  let d := dft2 h w (apodized p a) k l in let t' := unshifted h w shift t in
  let r := dft2 h w (snd (fft_filter h w p t a shift)) k l in
  r = Cmul (real ((t' k l + t' (opposite h k) (opposite w l)) / 2)) d.
Proof.
  intros K L d t' r. assert (H : (0 < h)%nat) by lia. assert (W : (0 < w)%nat) by lia.
  set (D := dft2 h w (apodized p a)).
  transitivity (csum h (fun y => csum w (fun x => Cmul (idft2 h w (fun k l => Cmul (real ((t' k l + t' (opposite h k) (opposite w l)) / 2)) (D k l)) y x) (cis (- (2 * PI * (INR k * INR y / INR h + INR l * INR x / INR w))))))).
  2: now rewrite inversion' by assumption.
  unfold r, dft2. apply csum_ext. intros y Y. apply csum_ext. intros x X. f_equal. rewrite filter_unfold by assumption. fold D t'.
  set (z := idft2 h w (fun k l => Cmul (D k l) (real (t' k l))) y x).
  assert (Cz : conj z = idft2 h w (fun k l => Cmul (D k l) (real (t' (opposite h k) (opposite w l)))) y x).
  { unfold z. rewrite conj_idft2 by assumption. apply idft2_ext. intros k' l' K' L'. rewrite conj_mul. unfold D. rewrite dft2_conj by assumption.
    unfold opposite. apply Cext; unfold conj, Cmul, real; cbn; ring. }
  assert (RE : forall c, real (fst c) = Cmul (real (/ 2)) (Cadd c (conj c))) by (intros c; apply Cext; unfold Cmul, Cadd, conj, real; cbn; field).
  rewrite RE.
  rewrite Cz. unfold z. rewrite <- idft2_add, <- idft2_mul. apply idft2_ext. intros k' l' _ _. generalize (D k' l'). intros e. apply Cext; unfold Cmul, Cadd, real; cbn; field.
Qed.
(** A pattern is determined by its spectrum, so that nothing else can be said about the result. *)
Theorem C76_spectrum_determines h w p p' : (forall k l, (k < h)%nat -> (l < w)%nat -> dft2 h w p k l = dft2 h w p' k l) -> forall y x, (y < h)%nat -> (x < w)%nat -> p y x = p' y x.
Proof.
  intros E y x Y X. pose proof (inversion h w p y x Y X) as A. pose proof (inversion h w p' y x Y X) as B. rewrite (idft2_ext h w _ (dft2 h w p')) in A by exact E. rewrite A in B. now apply (f_equal fst) in B.
Qed.
(** Passing all frequencies changes nothing. *)
Theorem C76_filter_all_pass h w p a shift : agree h w (fft_filter h w p (fun _ _ => 1) a shift) (apodized p a).
Proof.
  split; [unfold fft_filter, ifft; destruct shift; reflexivity|]. intros y x Y X. rewrite filter_unfold by lia. unfold unshifted.
  rewrite (idft2_ext h w _ (dft2 h w (apodized p a))); [now rewrite inversion by assumption|]. intros k l _ _. destruct shift; apply Cext; unfold Cmul, real; cbn; ring.
Qed.
(** With shift=True the transfer function has the zero frequency in its middle: passing only this frequency leaves the mean. *)
Theorem C76_filter_zero_frequency_only h w p a (shift : bool) (t : array) : (0 < h)%nat -> (0 < w)%nat ->
  (forall k l, (k < h)%nat -> (l < w)%nat -> t k l = if (k =? (if shift then h / 2 else 0))%nat && (l =? (if shift then w / 2 else 0))%nat then 1 else 0) ->
  forall y x, (y < h)%nat -> (x < w)%nat -> snd (fft_filter h w p t a shift) y x = total2 h w (apodized p a) / (INR h * INR w).
Proof.
  intros H W T y x Y X. pose proof (lt_0_INR h H) as PH. pose proof (lt_0_INR w W) as PW. rewrite filter_unfold by assumption.
  assert (MID : forall n i, (0 < n)%nat -> (i < n)%nat -> (((i + n / 2) mod n =? n / 2) = (i =? 0))%nat).
  { intros n i N I. assert (n / 2 < n)%nat by (apply Nat.div_lt; lia). destruct (Nat.eqb_spec i 0) as [->|NE]; [rewrite Nat.add_0_l, Nat.mod_small by lia; apply Nat.eqb_refl|].
    apply Nat.eqb_neq. intros E. pose proof (roll_back n i N I) as B. rewrite E in B. pose proof (roll_back n 0 N N) as B0. rewrite Nat.add_0_l, (Nat.mod_small (n / 2)) in B0 by lia. congruence. }
  assert (U : forall k l, (k < h)%nat -> (l < w)%nat -> unshifted h w shift t k l = if (k =? 0)%nat && (l =? 0)%nat then 1 else 0).
  { intros k l K L. unfold unshifted. destruct shift; rewrite T by (try assumption; apply Nat.mod_upper_bound; lia); [rewrite !MID by assumption|]; reflexivity. }
  pose proof (C76_zero_frequency h w p a H W) as [Z _]. cbn [fft fft2 at_frequency] in Z. fold (apodized p a) in Z.
  unfold idft2. rewrite csum_first; [|exact H|].
  - rewrite csum_first; [|exact W|].
    + rewrite U by assumption. cbn [Nat.eqb andb INR]. replace (dft2 h w (apodized p a) 0 0) with (total2 h w (apodized p a), 0) by (symmetry; exact Z).
      unfold Rdiv. rewrite !Rmult_0_l, Rplus_0_r, Rmult_0_r, cis_0. unfold Cmul, real, C1. cbn. ring.
    + intros l L L'. rewrite U by assumption. destruct (Nat.eqb_spec l 0); [lia|]. cbn [Nat.eqb andb]. apply Cext; unfold Cmul, real, C0; cbn; ring.
  - intros k K K'. rewrite (csum_ext w _ (fun _ => C0)); [apply csum_0|]. intros l L. rewrite U by assumption. destruct (Nat.eqb_spec k 0); [lia|]. cbn [andb]. apply Cext; unfold Cmul, real, C0; cbn; ring.
Qed.
(** Linear in the pattern *)
Theorem C76_filter_linear h w p q t win shift c y x : (0 < h)%nat -> (0 < w)%nat ->
  snd (fft_filter h w (fun y x => c * p y x + q y x) t win shift) y x = c * snd (fft_filter h w p t win shift) y x + snd (fft_filter h w q t win shift) y x.
Proof.
  intros H W. rewrite !filter_unfold by assumption.
  assert (A : forall k l, dft2 h w (apodized (fun y x => c * p y x + q y x) win) k l = Cadd (Cmul (real c) (dft2 h w (apodized p win) k l)) (dft2 h w (apodized q win) k l)).
  { intros k l. rewrite <- dft2_scale. unfold dft2. rewrite <- csum_add. apply csum_ext. intros y' _. rewrite <- csum_add. apply csum_ext. intros x' _. destruct win; apply Cext; unfold apodized, Cmul, Cadd, real; cbn; ring. }
  rewrite (idft2_ext h w _ (fun k l => Cadd (Cmul (real c) (Cmul (dft2 h w (apodized p win) k l) (real (unshifted h w shift t k l)))) (Cmul (dft2 h w (apodized q win) k l) (real (unshifted h w shift t k l))))).
  - rewrite idft2_add, idft2_mul. unfold Cadd, Cmul, real. cbn. ring.
  - intros k l _ _. rewrite A. apply Cext; unfold Cadd, Cmul, real; cbn; ring.
Qed.
Print Assumptions C76_filter_spectrum.

(** Half of a Gaussian-like window on a small pattern *)
Example C76_example : ifft_with (fft 2 3 (fun y x => INR (y + x)) None false false) false false ["workers"%string] <> None /\
  fst (ifft (fft 4 5 (fun y x => INR (y * x)) None true true) true true) = (4, 4)%nat.
Proof. split; [discriminate|]. apply (C76_real_round_trip_odd_width_refuted 4 2). Qed.
