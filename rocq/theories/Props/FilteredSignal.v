(** Filtering of a signal: property C115. *)
From Coq Require Import String List Arith ZArith Reals Bool Lra Lia.
From Verif Require Import Model.FftBarnes Model.Pattern Model.Intensity Model.FlatPatterns Model.FilteredSignal.
From Verif Require Import Spec.FilterSpec Spec.Intensity Proofs.PatternProofs Proofs.IntensityProofs Proofs.FourierProofs Proofs.SpectrumProofs.
From Verif Require Import Props.FftBarnes Props.PatternFourier.
From Verif Require Model.PatternSpectrum Props.FlatPatterns.
Import ListNotations.
Local Open Scope R_scope.

(** ** Specification *)

(** All pixels of an image of h x w pixels are equal. *)
Definition uniform (h w : nat) (p : nat -> nat -> R) : Prop :=
  forall y x y' x', (y < h)%nat -> (x < w)%nat -> (y' < h)%nat -> (x' < w)%nat -> p y x = p y' x'.
(** Every pixel has lost its intensity. *)
Definition lost (q : list (option R)) : Prop := forall x, In x q -> x = None.
(** The pixels of an image in reading order. *)
Definition in_order (h w : nat) (p : nat -> nat -> R) : list R :=
  flat_map (fun y => map (fun x => p y x) (seq 0 w)) (seq 0 h).
(** A frequency other than zero that the pattern has and the transfer function passes (on average with the opposite
    frequency, as patterns are real). With shift the zero frequency of the transfer function is in its middle. *)
Definition passes (h w : nat) (shift : bool) (t p : nat -> nat -> R) : Prop :=
  exists k l, (k < h)%nat /\ (l < w)%nat /\ ~ (k = 0%nat /\ l = 0%nat) /\ dft2 h w p k l <> (0, 0) /\
    let value k l := if shift then t ((k + h / 2) mod h)%nat ((l + w / 2) mod w)%nat else t k l in
    value k l + value ((h - k) mod h)%nat ((w - l) mod w)%nat <> 0.

(** ** Lemmas *)

Lemma in_pixels h w p v : In v (in_order h w p) <-> exists y x, (y < h)%nat /\ (x < w)%nat /\ p y x = v.
Proof.
  unfold in_order. rewrite in_flat_map. split.
  - intros (y & Hy & Hv). apply in_map_iff in Hv as (x & <- & Hx). apply in_seq in Hy, Hx. exists y, x. repeat split; lia.
  - intros (y & x & Hy & Hx & <-). exists y. split; [apply in_seq; lia|]. apply in_map_iff. exists x. split; [reflexivity|]. apply in_seq. lia.
Qed.
Lemma flat_uniform h w p : Props.FlatPatterns.flat (in_order h w p) <-> uniform h w p.
Proof.
  split.
  - intros F y x y' x' Hy Hx Hy' Hx'. apply F; apply in_pixels; eauto.
  - intros U a b Ha Hb. apply in_pixels in Ha as (y & x & Hy & Hx & <-). apply in_pixels in Hb as (y' & x' & Hy' & Hx' & <-). now apply U.
Qed.
Lemma not_empty h w p : (0 < h)%nat -> (0 < w)%nat -> in_order h w p <> [].
Proof. intros H W E. assert (I : In (p 0%nat 0%nat) (in_order h w p)) by (apply in_pixels; eauto). rewrite E in I. destruct I. Qed.

(** Passing the zero frequency only. *)
Definition zero_only (k l : nat) : R := if (k =? 0)%nat && (l =? 0)%nat then 1 else 0.
Lemma zero_only_spectrum h w p k l : (k < h)%nat -> (l < w)%nat ->
  dft2 h w (snd (PatternSpectrum.fft_filter h w p zero_only None false)) k l
  = if (k =? 0)%nat && (l =? 0)%nat then dft2 h w p k l else (0, 0).
Proof.
  intros K L. rewrite C76_filter_spectrum by assumption. cbn [apodized unshifted]. unfold zero_only, opposite.
  assert (O : forall n i, (i < n)%nat -> ((n - i) mod n =? 0)%nat = (i =? 0)%nat).
  { intros n i I. destruct i as [|i].
    - now rewrite Nat.sub_0_r, Nat.mod_same by lia.
    - rewrite Nat.mod_small by lia. destruct (Nat.eqb_spec (n - S i) 0); [lia|reflexivity]. }
  rewrite !O by assumption. destruct ((k =? 0)%nat && (l =? 0)%nat).
  - replace ((1 + 1) / 2) with 1 by field. apply Cext; unfold Cmul, real; cbn; ring.
  - replace ((0 + 0) / 2) with 0 by field. apply Cext; unfold Cmul, real; cbn; ring.
Qed.
Lemma zero_only_mean h w p y x : (y < h)%nat -> (x < w)%nat ->
  snd (PatternSpectrum.fft_filter h w p zero_only None false) y x
  = snd (PatternSpectrum.fft_filter h w p zero_only None false) 0%nat 0%nat.
Proof.
  intros Y X.
  rewrite !(C76_filter_zero_frequency_only h w p None false zero_only); try lia; [reflexivity| |]; intros; reflexivity.
Qed.
Lemma zero_only_uniform h w p : uniform h w p -> forall y x, (y < h)%nat -> (x < w)%nat ->
  snd (PatternSpectrum.fft_filter h w p zero_only None false) y x = p y x.
Proof.
  intros U y x Y X. rewrite (C76_filter_zero_frequency_only h w p None false zero_only); try lia; try (intros; reflexivity).
  cbn [apodized]. rewrite <- (ImageQualityProofs.sum2_total2 h w p).
  rewrite (sum2_ext h w p (fun _ _ => p y x)) by (intros; apply U; assumption). rewrite sum2_const.
  assert (INR h <> 0) by (apply not_0_INR; lia). assert (INR w <> 0) by (apply not_0_INR; lia). field. now split.
Qed.

(** An image is uniform exactly if it has no frequency but zero. *)
Lemma uniform_spectrum h w p :
  uniform h w p <-> forall k l, (k < h)%nat -> (l < w)%nat -> ~ (k = 0%nat /\ l = 0%nat) -> dft2 h w p k l = (0, 0).
Proof.
  split.
  - intros U k l K L N. rewrite <- (dft2_ext h w (snd (PatternSpectrum.fft_filter h w p zero_only None false)) p k l)
      by (intros; now apply zero_only_uniform).
    rewrite zero_only_spectrum by assumption. destruct (Nat.eqb_spec k 0), (Nat.eqb_spec l 0); try reflexivity. now contradict N.
  - intros Z.
    assert (E : forall y x, (y < h)%nat -> (x < w)%nat -> p y x = snd (PatternSpectrum.fft_filter h w p zero_only None false) y x).
    { apply C76_spectrum_determines. intros k l K L. rewrite zero_only_spectrum by assumption.
      destruct (Nat.eqb_spec k 0), (Nat.eqb_spec l 0); try reflexivity; apply Z; lia. }
    intros y x y' x' Hy Hx Hy' Hx'. rewrite !E by assumption. rewrite (zero_only_mean h w p y x), (zero_only_mean h w p y' x') by assumption.
    reflexivity.
Qed.
Lemma C_zero_dec (c : C) : {c = (0, 0)} + {c <> (0, 0)}.
Proof.
  destruct c as [a b]. destruct (Req_EM_T a 0) as [->|A]; [|right; congruence].
  destruct (Req_EM_T b 0) as [->|B]; [now left|right; congruence].
Qed.
Lemma passes_iff h w shift t p :
  (passes h w shift t p -> ~ uniform h w (snd (PatternSpectrum.fft_filter h w p t None shift))) /\
  (~ passes h w shift t p -> uniform h w (snd (PatternSpectrum.fft_filter h w p t None shift))).
Proof.
  split.
  - intros (k & l & K & L & N & D & V) U. rewrite uniform_spectrum in U. specialize (U k l K L N).
    rewrite C76_filter_spectrum in U by assumption. cbn [apodized] in U. apply D.
    apply C_integral in U; [exact U|]. intros E. apply V. unfold unshifted, opposite in E.
    apply (f_equal fst) in E. destruct shift; cbn [fst real C0] in E |- *; lra.
  - intros N. apply uniform_spectrum. intros k l K L Z. rewrite C76_filter_spectrum by assumption. cbn [apodized].
    destruct (C_zero_dec (dft2 h w p k l)) as [E|E].
    + rewrite E. apply Cext; unfold Cmul, real; cbn; ring.
    + assert (V : unshifted h w shift t k l + unshifted h w shift t (opposite h k) (opposite w l) = 0).
      { destruct (Req_EM_T (unshifted h w shift t k l + unshifted h w shift t (opposite h k) (opposite w l)) 0) as [V|V]; [exact V|].
        exfalso. apply N. exists k, l. repeat split; try assumption.
        intros value. unfold unshifted, opposite in V. unfold value. destruct shift; exact V. }
      rewrite V. apply Cext; unfold Cmul, real; cbn [fst snd]; lra.
Qed.

(** ** C115 *)

(** Which calls are refused. *)
Theorem C115_refused_iff : forall nfl domain shift t inplace lazy_output dt h w data,
  filtered_signal nfl domain shift t inplace lazy_output dt h w data = None <->
  (lazy_output = Some true /\ inplace = true) \/
  (domain <> "frequency" /\ domain <> "spatial")%string \/
  (domain = "frequency"%string /\ ~ (t_rows t = h /\ t_cols t = w)).
Proof.
  intros nfl domain shift t inplace lazy_output dt h w data. unfold filtered_signal, filter_of.
  destruct (match lazy_output with Some true => true | _ => false end && inplace)%bool eqn:B.
  - apply andb_prop in B as [B ->]. destruct lazy_output as [[|]|]; try discriminate. split; auto.
  - assert (NB : ~ (lazy_output = Some true /\ inplace = true)). { intros [-> ->]. discriminate. }
    destruct (String.eqb_spec domain "frequency") as [->|N1].
    + destruct (Nat.eqb_spec (t_rows t) h) as [E1|E1], (Nat.eqb_spec (t_cols t) w) as [E2|E2]; cbn.
      2-4: split; [intros _; right; right; split; [reflexivity|tauto]|reflexivity].
      split; [discriminate|]. intros [A|[[A _]|[_ A]]]; [contradiction|now contradict A|exfalso; now apply A].
    + destruct (String.eqb_spec domain "spatial") as [->|N2]; cbn.
      * split; [discriminate|]. intros [A|[[_ A]|[A _]]]; [contradiction|now contradict A|discriminate].
      * split; [intros _; right; left; now split|reflexivity].
Qed.
Print Assumptions C115_refused_iff.

(** With a transfer function in the frequency domain, a pattern keeps intensities exactly if it has a frequency other than
    zero that is passed. Then the filtered pattern of C76, rescaled as in C23, is given, otherwise all pixels are lost. *)
Theorem C115_frequency_iff : forall nfl shift t inplace lazy_output dt h w data out,
  (0 < h)%nat -> (0 < w)%nat ->
  filtered_signal nfl "frequency" shift t inplace lazy_output dt h w data = Some out ->
  length out = length data /\
  forall i p q, nth_error data i = Some p -> nth_error out i = Some q ->
    (passes h w shift (t_at t) p ->
       q = map Some (rescale_intensity None None dt None (in_order h w (snd (PatternSpectrum.fft_filter h w p (t_at t) None shift))))) /\
    (~ passes h w shift (t_at t) p -> lost q).
Proof.
  intros nfl shift t inplace lazy_output dt h w data out H W E. unfold filtered_signal in E.
  destruct (_ && _)%bool; [discriminate|]. unfold filter_of in E. cbn [String.eqb Ascii.eqb Bool.eqb] in E.
  destruct ((t_rows t =? h) && (t_cols t =? w))%nat%bool; [|discriminate]. cbn [option_map] in E. injection E as <-.
  split; [apply map_length|]. intros i p q Hp Hq. rewrite nth_error_map, Hp in Hq. cbn [option_map] in Hq. injection Hq as <-.
  change (PatternSpectrum.pixels h w ?f) with (in_order h w f).
  destruct (Props.FlatPatterns.C111_rescale_iff None dt (in_order h w (snd (PatternSpectrum.fft_filter h w p (t_at t) None shift)))
    (not_empty h w _ H W)) as [A B]. destruct (passes_iff h w shift (t_at t) p) as [P N]. split; intros V.
  - apply A. rewrite flat_uniform. now apply P.
  - apply B. rewrite flat_uniform. now apply N.
Qed.
Print Assumptions C115_frequency_iff.

(** With a window in the spatial domain, it keeps them exactly if the weighted sums of C44 are not all equal. *)
Theorem C115_spatial_iff : forall nfl shift t inplace lazy_output dt h w data out,
  (0 < h)%nat -> (0 < w)%nat -> (0 < t_rows t)%nat -> (0 < t_cols t)%nat -> (forall n, (n <= nfl n)%nat) ->
  filtered_signal nfl "spatial" shift t inplace lazy_output dt h w data = Some out ->
  length out = length data /\
  forall i p q, nth_error data i = Some p -> nth_error out i = Some q ->
    let sums := weighted h w (t_rows t) (t_cols t) p (t_at t) in
    (~ uniform h w sums -> q = map Some (rescale_intensity None None dt None (in_order h w sums))) /\
    (uniform h w sums -> lost q).
Proof.
  intros nfl shift t inplace lazy_output dt h w data out H W Tr Tc Hn E. unfold filtered_signal in E.
  destruct (_ && _)%bool; [discriminate|]. unfold filter_of in E. cbn [String.eqb Ascii.eqb Bool.eqb] in E.
  cbn [option_map] in E. injection E as <-.
  split; [apply map_length|]. intros i p q Hp Hq. rewrite nth_error_map, Hp in Hq. cbn [option_map] in Hq. injection Hq as <-.
  intros sums. change (PatternSpectrum.pixels h w ?f) with (in_order h w f).
  replace (in_order h w (fft_filter h w (t_rows t) (t_cols t) (nfl (h + t_rows t - 1)%nat) (nfl (w + t_cols t - 1)%nat) p (t_at t)))
    with (in_order h w sums).
  - destruct (Props.FlatPatterns.C111_rescale_iff None dt (in_order h w sums) (not_empty h w _ H W)) as [A B].
    rewrite flat_uniform in A, B. now split.
  - unfold in_order. rewrite !flat_map_concat_map. f_equal. apply map_ext_in. intros y Hy. apply map_ext_in. intros x Hx. apply in_seq in Hy, Hx.
    unfold sums. symmetry. apply C44_frequency_filter_is_the_weighted_sum; try assumption; try lia; apply Hn.
Qed.
Print Assumptions C115_spatial_iff.

(** So patterns with contrast are lost: every pattern, with a transfer function that passes the zero frequency only. *)
Theorem C115_mean_lost_refuted : forall nfl (shift : bool) t inplace lazy_output dt h w data out i p q,
  (0 < h)%nat -> (0 < w)%nat ->
  (forall k l, (k < h)%nat -> (l < w)%nat -> ~ (k = (if shift then h / 2 else 0)%nat /\ l = (if shift then w / 2 else 0)%nat) -> t_at t k l = 0) ->
  filtered_signal nfl "frequency" shift t inplace lazy_output dt h w data = Some out ->
  nth_error data i = Some p -> nth_error out i = Some q -> lost q.
Proof.
  intros nfl shift t inplace lazy_output dt h w data out i p q H W T E Hp Hq.
  destruct (C115_frequency_iff nfl shift t inplace lazy_output dt h w data out H W E) as [_ F].
  apply (F i p q Hp Hq). intros (k & l & K & L & N & _ & V). apply V.
  assert (O : forall n j, (j < n)%nat -> ((n - j) mod n < n)%nat /\ ((n - j) mod n = 0 -> j = 0)%nat).
  { intros n j J. split; [apply Nat.mod_upper_bound; lia|]. intros Z. destruct j; [reflexivity|]. rewrite Nat.mod_small in Z by lia. lia. }
  assert (M : forall n j, (j < n -> (j + n / 2) mod n = n / 2 -> j = 0)%nat).
  { intros n j J Z. assert (n / 2 < n)%nat by (apply Nat.div_lt; lia).
    destruct (Nat.lt_ge_cases (j + n / 2) n) as [S|S].
    - rewrite Nat.mod_small in Z by exact S. lia.
    - replace (j + n / 2)%nat with (j + n / 2 - n + 1 * n)%nat in Z by lia. rewrite Nat.mod_add in Z by lia.
      rewrite Nat.mod_small in Z by lia. lia. }
  destruct (O h k K) as [Kb Kz]. destruct (O w l L) as [Lb Lz].
  destruct shift.
  - rewrite !T; try lra; try (apply Nat.mod_upper_bound; lia); intros [A B]; apply N; split.
    + apply Kz. now apply M in A.
    + apply Lz. now apply M in B.
    + now apply M in A.
    + now apply M in B.
  - rewrite !T; try lra; try assumption; intros [A B]; apply N; split; auto.
Qed.
Print Assumptions C115_mean_lost_refuted.

(** A uniform pattern is lost with every filter in either domain. *)
Theorem C115_uniform_pattern_refuted : forall nfl domain shift t inplace lazy_output dt h w data out i p q,
  (0 < h)%nat -> (0 < w)%nat -> (0 < t_rows t)%nat -> (0 < t_cols t)%nat -> (forall n, (n <= nfl n)%nat) ->
  uniform h w p -> filtered_signal nfl domain shift t inplace lazy_output dt h w data = Some out ->
  nth_error data i = Some p -> nth_error out i = Some q -> lost q.
Proof.
  intros nfl domain shift t inplace lazy_output dt h w data out i p q H W Tr Tc Hn U E Hp Hq.
  assert (D : (domain = "frequency" \/ domain = "spatial")%string).
  { destruct (String.eqb_spec domain "frequency"); [now left|]. destruct (String.eqb_spec domain "spatial"); [now right|].
    assert (X : filtered_signal nfl domain shift t inplace lazy_output dt h w data = None) by (apply C115_refused_iff; tauto).
    congruence. }
  destruct D as [->| ->].
  - destruct (C115_frequency_iff nfl shift t inplace lazy_output dt h w data out H W E) as [_ F].
    apply (F i p q Hp Hq). intros (k & l & K & L & N & V & _). apply V. now apply uniform_spectrum.
  - destruct (C115_spatial_iff nfl shift t inplace lazy_output dt h w data out H W Tr Tc Hn E) as [_ F].
    apply (F i p q Hp Hq).
    assert (S : forall y x, (y < h)%nat -> (x < w)%nat -> weighted h w (t_rows t) (t_cols t) p (t_at t) y x
      = weighted h w (t_rows t) (t_cols t) p (t_at t) 0%nat 0%nat).
    { intros y x Hy Hx. unfold weighted.
      assert (X : forall n f g, (forall i, f i = g i) -> total n f = total n g).
      { induction n as [|n IH]; intros f g X; [reflexivity|]. cbn. now rewrite X, (IH f g X). }
      apply X. intros u. apply X. intros v. f_equal. unfold extended.
      assert (R : forall n i, (0 < n)%nat -> (nearest n i < n)%nat).
      { intros n j Hj. unfold nearest. lia. }
      apply U; now apply R. }
    intros y x y' x' Hy Hx Hy' Hx'. rewrite (S y x), (S y' x') by assumption. reflexivity.
Qed.
Print Assumptions C115_uniform_pattern_refuted.

(** A pattern that keeps its intensities: one bright pixel of four, with all frequencies passed. *)
Example C115_kept_case :
  passes 2 2 false (fun _ _ => 1) (fun y x => if ((y =? 0) && (x =? 0))%nat then 1 else 0)
  /\ exists out, filtered_signal (fun n => n) "frequency" false (Transfer 2 2 (fun _ _ => 1)) false None UInt8 2 2
       [fun y x => if ((y =? 0) && (x =? 0))%nat then 1 else 0] = Some out.
Proof.
  split; [|eexists; reflexivity]. exists 0%nat, 1%nat. repeat split; try lia; [|cbn; lra].
  intros E. assert (U : dft2 2 2 (fun y x => if ((y =? 0) && (x =? 0))%nat then 1 else 0) 0 1 = C1).
  { unfold dft2. cbn [csum Nat.eqb andb INR].
    replace (- (2 * PI * (0 * 0 / (1 + 1) + 1 * 0 / (1 + 1)))) with 0 by field. rewrite cis_0.
    apply Cext; unfold Cadd, Cmul, real, C1; cbn [fst snd]; ring. }
  rewrite U in E. injection E. lra.
Qed.
