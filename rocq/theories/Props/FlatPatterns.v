(** Intensity operations and patterns without contrast: property C111. *)
From Coq Require Import List Reals ZArith Lra Lia Bool Permutation.
From Verif Require Import Spec.Intensity Model.Pattern Model.Intensity Model.FlatPatterns.
From Verif Require Import Proofs.PatternProofs Proofs.IntensityProofs Proofs.DictIndexProofs.
From Verif Require Model.Detector.
Import ListNotations.
Local Open Scope R_scope.

(** ** Specification *)

(** All pixels of a pattern are equal. *)
Definition flat (p : list R) : Prop := forall x y, In x p -> In y p -> x = y.
(** Every pixel has lost its intensity. *)
Definition lost (q : list (option R)) : Prop := forall x, In x q -> x = None.
(** All pixels are numbers. *)
Definition intact (q : list (option R)) : Prop := forall x, In x q -> x <> None.

(** ** Lemmas *)

Lemma flat_limits p : p <> [] -> vmax p - vmin p = 0 <-> flat p.
Proof.
  intros Hp. split.
  - intros E x y Hx Hy. pose proof (vmin_le p x Hx). pose proof (vmax_ge p x Hx).
    pose proof (vmin_le p y Hy). pose proof (vmax_ge p y Hy). lra.
  - intros F. rewrite (F (vmax p) (vmin p)); [lra|now apply vmax_in|now apply vmin_in].
Qed.
Lemma rescaled_same imin imax omin omax t p : imax - imin <> 0 ->
  map (option_map (cast t)) (rescaled imin imax omin omax p)
  = map Some (map (cast t) (rescale_with_min_max imin imax omin omax p)).
Proof.
  intros H. unfold rescaled, rescale_with_min_max, divided. rewrite !map_map. apply map_ext.
  intros x. destruct (Req_EM_T (imax - imin) 0); [contradiction|reflexivity].
Qed.
Lemma rescaled_lost imin imax omin omax t p : imax - imin = 0 ->
  lost (map (option_map (cast t)) (rescaled imin imax omin omax p)).
Proof.
  intros H x Hx. unfold rescaled, divided in Hx. rewrite map_map in Hx.
  apply in_map_iff in Hx as (y & <- & _). destruct (Req_EM_T (imax - imin) 0); [reflexivity|contradiction].
Qed.
Lemma intact_map {A} (f : A -> R) l : intact (map Some (map f l)).
Proof. intros x Hx. apply in_map_iff in Hx as (y & <- & _). discriminate. Qed.

(** ** Rescaling *)

(** A pattern is rescaled as in C23, or loses all intensities: the latter exactly if all
    its pixels are equal. *)
Theorem C111_rescale_iff : forall out_range t p, p <> [] ->
  (~ flat p -> rescaled_pattern None out_range t None p
               = map Some (rescale_intensity None out_range t None p)) /\
  (flat p -> lost (rescaled_pattern None out_range t None p)).
Proof.
  intros out_range t p Hp. unfold rescaled_pattern, rescale_intensity.
  destruct (match out_range with None => _ | Some r => r end) as [omin omax].
  split; intros F.
  - apply rescaled_same. rewrite (flat_limits p Hp). exact F.
  - apply rescaled_lost. now apply flat_limits.
Qed.
Print Assumptions C111_rescale_iff.

(** With an intensity range given, it loses them exactly if the range is empty. *)
Theorem C111_rescale_range_iff : forall a b out_range t p,
  (a <> b -> rescaled_pattern (Some (a, b)) out_range t None p
             = map Some (rescale_intensity (Some (a, b)) out_range t None p)) /\
  (a = b -> lost (rescaled_pattern (Some (a, b)) out_range t None p)).
Proof.
  intros a b out_range t p. unfold rescaled_pattern, rescale_intensity.
  destruct (match out_range with None => _ | Some r => r end) as [omin omax].
  split; intros F; [apply rescaled_same; lra|apply rescaled_lost; lra].
Qed.
Print Assumptions C111_rescale_range_iff.

(** With percentiles, it loses them exactly if the two percentiles are the same. *)
Theorem C111_percentiles_iff : forall a b out_range t p,
  (percentile a p <> percentile b p ->
     rescaled_pattern None out_range t (Some (a, b)) p
     = map Some (rescale_intensity None out_range t (Some (a, b)) p)) /\
  (percentile a p = percentile b p -> lost (rescaled_pattern None out_range t (Some (a, b)) p)).
Proof. intros a b out_range t p. apply (C111_rescale_range_iff (percentile a p) (percentile b p)). Qed.
Print Assumptions C111_percentiles_iff.

(** The number of pixels with a given intensity. *)
Definition pixels_of (c : R) (p : list R) : nat :=
  length (filter (fun x => if Req_EM_T x c then true else false) p).

Lemma sorted_smallest c p i : is_min p c -> (i < pixels_of c p)%nat -> nth i (sort p) 0 = c.
Proof.
  intros [_ Hm] Hi. unfold pixels_of in Hi.
  set (f := fun x => if Req_EM_T x c then true else false) in *.
  rewrite <- (filter_perm_length f _ _ (sort_permutation p)) in Hi.
  destruct (Req_dec (nth i (sort p) 0) c) as [E|E]; [exact E|exfalso].
  rewrite <- (firstn_skipn i (sort p)), filter_app, app_length in Hi.
  assert (L1 : (length (filter f (firstn i (sort p))) <= i)%nat).
  { assert (forall l, (length (filter f l) <= length l)%nat).
    { induction l as [|x l IH]; cbn; [lia|]. destruct (f x); cbn; lia. }
    specialize (H (firstn i (sort p))). rewrite firstn_length in H. lia. }
  assert (L2 : filter f (skipn i (sort p)) = []).
  { apply filter_none. intros x Hx. unfold f. destruct (Req_EM_T x c) as [->|]; [exfalso|reflexivity].
    apply (In_nth _ _ 0) in Hx as (j & Hj & Ej). rewrite skipn_length in Hj.
    assert (Nj : nth j (skipn i (sort p)) 0 = nth (i + j) (sort p) 0).
    { clear. revert i. induction (sort p) as [|y l IH]; intros [|i]; cbn; try reflexivity.
      - destruct j; reflexivity.
      - apply IH. }
    rewrite Nj in Ej. pose proof (increasing_nth (sort p) i (i + j) (sort_increasing p) ltac:(lia)) as Le.
    assert (In (nth i (sort p) 0) p) by (apply sort_in, nth_In; lia).
    specialize (Hm _ H). lra. }
  rewrite L2 in Hi. cbn in Hi. lia.
Qed.
Lemma percentile_smallest c p q : is_min p c -> 0 <= q <= 100 ->
  q / 100 * INR (length p - 1) <= INR (pixels_of c p - 1) -> (1 <= pixels_of c p)%nat ->
  percentile q p = c.
Proof.
  intros Hm Hq Hv Hc. unfold percentile. set (v := q / 100 * INR (length p - 1)) in *.
  assert (V0 : 0 <= v) by (unfold v; pose proof (pos_INR (length p - 1)); apply Rmult_le_pos; lra).
  destruct (trunc_nonneg v V0) as [Ht Hz]. set (k := Z.to_nat (Detector.trunc v)) in *.
  assert (Hk : INR k = IZR (Detector.trunc v))
    by (unfold k; rewrite INR_IZR_INZ, Z2Nat.id by exact Hz; reflexivity).
  assert (Kc : (k <= pixels_of c p - 1)%nat) by (apply INR_le; lra).
  rewrite (sorted_smallest c p k Hm) by lia.
  destruct (Nat.eq_dec k (pixels_of c p - 1)) as [E|E].
  - assert (v - INR k = 0) as -> by (rewrite <- E in Hv; lra). lra.
  - rewrite (sorted_smallest c p _ Hm) by lia. lra.
Qed.

(** So a pattern with contrast loses all intensities too if so many of its pixels have
    the smallest intensity that the upper percentile is among them, for example a dark
    pattern with a few bright pixels. *)
Theorem C111_mostly_dark_pattern_refuted : forall a b out_range t p c,
  is_min p c -> 0 <= a <= b -> b <= 100 -> (1 <= pixels_of c p)%nat ->
  b / 100 * INR (length p - 1) <= INR (pixels_of c p - 1) ->
  lost (rescaled_pattern None out_range t (Some (a, b)) p).
Proof.
  intros a b out_range t p c Hm Ha Hb Hc Hv. apply C111_percentiles_iff.
  rewrite (percentile_smallest c p b), (percentile_smallest c p a); try assumption; try lra.
  apply Rle_trans with (2 := Hv). apply Rmult_le_compat_r; [apply pos_INR|lra].
Qed.
Print Assumptions C111_mostly_dark_pattern_refuted.

(** One bright pixel in four, percentiles 1 and 60. *)
Example C111_dark_case : let p := [200; 3; 3; 3] in
  is_min p 3 /\ ~ flat p /\ 60 / 100 * INR (length p - 1) <= INR (pixels_of 3 p - 1) /\
  lost (rescaled_pattern None None UInt8 (Some (1, 60)) p).
Proof.
  intros p. assert (M : is_min p 3).
  { split; [right; now left|]. intros x Hx. cbn in Hx. lra. }
  assert (N : ~ flat p).
  { intros F. specialize (F 200 3 (or_introl eq_refl) (or_intror (or_introl eq_refl))). lra. }
  assert (C : pixels_of 3 p = 3%nat).
  { unfold pixels_of, p. cbn [filter]. destruct (Req_EM_T 200 3); [lra|].
    destruct (Req_EM_T 3 3); [reflexivity|contradiction]. }
  assert (V : 60 / 100 * INR (length p - 1) <= INR (pixels_of 3 p - 1)).
  { rewrite C. cbn [length p Nat.sub INR]. lra. }
  split; [exact M|]. split; [exact N|split; [exact V|]].
  refine (C111_mostly_dark_pattern_refuted 1 60 None UInt8 p 3 M _ _ _ V); [lra|lra|rewrite C; lia].
Qed.

(** relative=True: all patterns are rescaled as in C23, or, exactly if all pixels of all
    patterns are equal, all lose their intensities. So flat patterns are fine there. *)
Theorem C111_relative_iff : forall out_range t data, concat data <> [] ->
  (~ flat (concat data) -> exists out,
     rescale_signal true None out_range t None data = Some out /\
     rescaled_relative out_range t data = map (map Some) out) /\
  (flat (concat data) -> forall q, In q (rescaled_relative out_range t data) -> lost q).
Proof.
  intros out_range t data Hd. unfold rescaled_relative, rescale_signal. split; intros F.
  - eexists. split; [reflexivity|]. rewrite map_map. apply map_ext. intros u.
    destruct (C111_rescale_range_iff (vmin (concat data)) (vmax (concat data)) out_range t u) as [H _].
    rewrite H by (intros E; apply F, flat_limits; [exact Hd|lra]). unfold rescale_intensity.
    now destruct out_range.
  - intros q Hq. apply in_map_iff in Hq as (u & <- & Hu).
    apply C111_rescale_range_iff. apply flat_limits in F; [lra|exact Hd].
Qed.
Print Assumptions C111_relative_iff.

(** ** Normalizing *)

Lemma vstd_zero p : p <> [] -> vstd p = 0 <-> flat p.
Proof.
  intros Hp. assert (Hn : INR (length p) <> 0) by (apply not_0_INR; destruct p; [congruence|discriminate]).
  assert (Sum : forall m l, vsum (map (fun x => (x - m) * (x - m)) l) = 0 <-> (forall x, In x l -> x = m)).
  { intros m l. assert (P : forall l, 0 <= vsum (map (fun x => (x - m) * (x - m)) l)).
    { induction l0 as [|x l0 IH]; cbn; [lra|]. fold (vsum (map (fun x => (x - m) * (x - m)) l0)).
      pose proof (Rle_0_sqr (x - m)) as Q. unfold Rsqr in Q. lra. }
    induction l as [|x l IH]; cbn; [split; [easy|reflexivity]|].
    fold (vsum (map (fun x => (x - m) * (x - m)) l)). specialize (P l).
    pose proof (Rle_0_sqr (x - m)) as Q. unfold Rsqr in Q. split.
    - intros E y [<-|Hy].
      + assert (x - m = 0) by (apply Rsqr_0_uniq; unfold Rsqr; lra). lra.
      + apply IH; [lra|exact Hy].
    - intros A. rewrite (proj2 IH) by (intros; apply A; now right).
      rewrite (A x (or_introl eq_refl)). lra. }
  assert (Mean : flat p -> forall x, In x p -> vmean p = x).
  { intros F x Hx. unfold vmean.
    assert (E : forall l, (forall y, In y l -> y = x) -> vsum l = INR (length l) * x).
    { induction l as [|y l IH]; intros A; [cbn; lra|].
      change (vsum (y :: l)) with (y + vsum l). rewrite IH by (intros; apply A; now right).
      rewrite (A y (or_introl eq_refl)). cbn [length]. rewrite S_INR. lra. }
    rewrite E by (intros y Hy; now apply F). field. exact Hn. }
  unfold vstd. split.
  - intros E. apply sqrt_eq_0 in E.
    + unfold vmean at 1 in E. rewrite map_length in E.
      assert (Z : vsum (map (fun x => (x - vmean p) * (x - vmean p)) p) = 0).
      { unfold Rdiv in E. apply Rmult_integral in E as [E|E]; [exact E|].
        exfalso. exact (Rinv_neq_0_compat _ Hn E). }
      rewrite Sum in Z. intros x y Hx Hy. rewrite (Z x Hx), (Z y Hy). reflexivity.
    + unfold vmean at 1. rewrite map_length. unfold Rdiv. apply Rmult_le_pos.
      * generalize (vmean p) as m. intros m. clear. induction p as [|x p IH]; [cbn; lra|].
        change (vsum (map (fun x => (x - m) * (x - m)) (x :: p)))
          with ((x - m) * (x - m) + vsum (map (fun x => (x - m) * (x - m)) p)).
        pose proof (Rle_0_sqr (x - m)) as Q. unfold Rsqr in Q. lra.
      * left. apply Rinv_0_lt_compat. pose proof (pos_INR (length p)). lra.
  - intros F. rewrite <- sqrt_0. f_equal. unfold vmean at 1. rewrite (proj2 (Sum (vmean p) p)).
    + lra.
    + intros x Hx. symmetry. now apply Mean.
Qed.

(** A pattern is normalized as in C64, or loses all intensities: exactly if all its pixels
    are equal. *)
Theorem C111_normalize_iff : forall num_std root p, p <> [] -> num_std <> 0 ->
  (~ flat p -> normalized_pattern num_std root p = map Some (normalize_intensity num_std root p)) /\
  (flat p -> lost (normalized_pattern num_std root p)).
Proof.
  intros num_std root p Hp Hs. unfold normalized_pattern, normalize_intensity, divided.
  assert (Hl : 0 < INR (length p)) by (apply lt_0_INR; destruct p; [congruence|cbn; lia]).
  pose proof (sqrt_lt_R0 _ Hl) as Hr. split; intros F.
  - rewrite map_map. apply map_ext. intros x. rewrite <- (vstd_zero p Hp) in F.
    destruct root; (destruct (Req_EM_T _ 0) as [E|E]; [exfalso|reflexivity]).
    + apply Rmult_integral in E as [E|E]; [|lra]. apply Rmult_integral in E as [E|E]; contradiction.
    + apply Rmult_integral in E as [E|E]; contradiction.
  - intros x Hx. apply in_map_iff in Hx as (y & <- & _). apply (vstd_zero p Hp) in F.
    destruct root; rewrite F; (destruct (Req_EM_T _ 0) as [E|E]; [reflexivity|exfalso; apply E; ring]).
Qed.
Print Assumptions C111_normalize_iff.

(** ** Backgrounds *)

Lemma combined_in op p bg z : length p = length bg ->
  In z (combine_pixels op p bg) <-> exists i x b, nth_error p i = Some x /\ nth_error bg i = Some b /\
    z = match op with Subtract => x - b | Divide => x / b end.
Proof.
  revert bg. induction p as [|y p IH]; intros [|c bg] L; cbn in L; try lia; cbn [combine_pixels combine map].
  - split; [intros []|]. intros (i & x & b & H & _). destruct i; discriminate.
  - change (map _ (combine p bg)) with (combine_pixels op p bg). cbn [In]. rewrite IH by lia. split.
    + intros [<-|(i & x & b & H1 & H2 & ->)].
      * exists 0%nat, y, c. repeat split; now destruct op.
      * exists (S i), x, b. repeat split; assumption.
    + intros (i & x & b & H1 & H2 & ->). destruct i as [|i].
      * left. cbn in H1, H2. injection H1 as ->. injection H2 as ->. now destruct op.
      * right. exists i, x, b. repeat split; assumption.
Qed.

(** Subtracting a background: all intensities are lost exactly if the pattern is the
    background but for its brightness. *)
Theorem C111_subtract_iff : forall t bg p omin omax, p <> [] -> length p = length bg ->
  let equal_but_for_brightness := exists d, forall i x b,
    nth_error p i = Some x -> nth_error bg i = Some b -> x = b + d in
  (~ equal_but_for_brightness ->
     without_background Subtract t omin omax bg p
     = map Some (map (cast t) (fst (remove_background Subtract p bg omin omax)))) /\
  (equal_but_for_brightness -> lost (without_background Subtract t omin omax bg p)).
Proof.
  intros t bg p omin omax Hp L eq. unfold without_background, remove_background.
  assert (Hc : combine_pixels Subtract p bg <> []).
  { intros E. apply (f_equal (@length R)) in E. rewrite combine_pixels_length in E by exact L.
    destruct p; [congruence|discriminate]. }
  assert (Fl : flat (combine_pixels Subtract p bg) <-> eq).
  { split.
    - intros F. destruct (combine_pixels Subtract p bg) as [|d l] eqn:E; [congruence|].
      exists d. intros i x b Hx Hb.
      assert (x - b = d); [|lra]. apply F; [|now left]. rewrite <- E.
      apply (combined_in Subtract p bg _ L). exists i, x, b. repeat split; assumption.
    - intros (d & D) u w Hu Hw. apply (combined_in Subtract p bg _ L) in Hu as (i & x & b & H1 & H2 & ->).
      apply (combined_in Subtract p bg _ L) in Hw as (j & y & c & H3 & H4 & ->).
      rewrite (D i x b H1 H2), (D j y c H3 H4). ring. }
  split; intros F; cbn [fst].
  - apply rescaled_same. rewrite (flat_limits _ Hc), Fl. exact F.
  - apply rescaled_lost. apply flat_limits; [exact Hc|]. now apply Fl.
Qed.
Print Assumptions C111_subtract_iff.

(** Dividing by a background without zeros: exactly if it is the background but for a
    factor. *)
Theorem C111_divide_iff : forall t bg p omin omax, p <> [] -> length p = length bg ->
  (forall b, In b bg -> b <> 0) ->
  let equal_but_for_factor := exists d, forall i x b,
    nth_error p i = Some x -> nth_error bg i = Some b -> x = d * b in
  (~ equal_but_for_factor ->
     without_background Divide t omin omax bg p
     = map Some (map (cast t) (fst (remove_background Divide p bg omin omax)))) /\
  (equal_but_for_factor -> lost (without_background Divide t omin omax bg p)).
Proof.
  intros t bg p omin omax Hp L Hz eq. unfold without_background, remove_background.
  assert (Ez : existsb (fun b => if Req_EM_T b 0 then true else false) bg = false).
  { destruct (existsb _ bg) eqn:E; [exfalso|reflexivity]. apply existsb_exists in E as (b & Hb & E).
    destruct (Req_EM_T b 0); [|discriminate]. now apply (Hz b). }
  rewrite Ez.
  assert (Hc : combine_pixels Divide p bg <> []).
  { intros E. apply (f_equal (@length R)) in E. rewrite combine_pixels_length in E by exact L.
    destruct p; [congruence|discriminate]. }
  assert (Fl : flat (combine_pixels Divide p bg) <-> eq).
  { split.
    - intros F. destruct (combine_pixels Divide p bg) as [|d l] eqn:E; [congruence|].
      exists d. intros i x b Hx Hb.
      assert (Q : x / b = d).
      { apply F; [|now left]. rewrite <- E. apply (combined_in Divide p bg _ L). exists i, x, b. repeat split; assumption. }
      rewrite <- Q. field. apply Hz. eapply nth_error_In. exact Hb.
    - intros (d & D) u w Hu Hw. apply (combined_in Divide p bg _ L) in Hu as (i & x & b & H1 & H2 & ->).
      apply (combined_in Divide p bg _ L) in Hw as (j & y & c & H3 & H4 & ->).
      rewrite (D i x b H1 H2), (D j y c H3 H4). field.
      split; apply Hz; eapply nth_error_In; eassumption. }
  split; intros F; cbn [fst].
  - apply rescaled_same. rewrite (flat_limits _ Hc), Fl. exact F.
  - apply rescaled_lost. apply flat_limits; [exact Hc|]. now apply Fl.
Qed.
Print Assumptions C111_divide_iff.

(** A static background scaled to each pattern cannot be divided by if the smallest
    intensity of the pattern is 0, as that of the scaled background then is as well: every
    such pattern with at least one pixel loses all intensities, whatever the background. *)
Theorem C111_divide_by_scaled_background_refuted : forall t omin omax bg p,
  bg <> [] -> is_min p 0 ->
  lost (without_static_background Divide t omin omax true bg p).
Proof.
  intros t omin omax bg p Hb Hm. unfold without_static_background.
  assert (All : lost (map (fun _ : R => None) p)).
  { intros x Hx. apply in_map_iff in Hx as (y & <- & _). reflexivity. }
  destruct (Req_EM_T _ _) as [E|E]; [exact All|].
  unfold without_background.
  destruct (existsb _ _) eqn:Ex; [exact All|exfalso].
  rewrite <- not_true_iff_false in Ex. apply Ex. apply existsb_exists.
  exists (vmin p). rewrite (vmin_unique p 0 (proj1 Hm) (proj2 Hm)). split.
  - unfold rescale_with_min_max. apply in_map_iff. exists (vmin bg). split; [field; lra|now apply vmin_in].
  - destruct (Req_EM_T 0 0); [reflexivity|contradiction].
Qed.
Print Assumptions C111_divide_by_scaled_background_refuted.

(** A pattern that is a scaled static background but for brightness and contrast loses
    all intensities, by either operation. *)
Theorem C111_pattern_is_background_refuted : forall op t omin omax bg p a b,
  bg <> [] -> 0 < a -> p = map (fun x => a * x + b) bg ->
  lost (without_static_background op t omin omax true bg p).
Proof.
  intros op t omin omax bg p a b Hb Ha ->. unfold without_static_background.
  assert (All : lost (map (fun _ : R => None) (map (fun x => a * x + b) bg))).
  { intros x Hx. apply in_map_iff in Hx as (y & <- & _). reflexivity. }
  destruct (Req_EM_T _ _) as [E|E]; [exact All|].
  assert (Mono : forall x y, x <= y -> a * x + b <= a * y + b) by (intros; nra).
  rewrite (vmin_map _ bg Hb Mono), (vmax_map _ bg Hb Mono).
  replace (rescale_with_min_max (vmin bg) (vmax bg) (a * vmin bg + b) (a * vmax bg + b) bg)
    with (map (fun x => a * x + b) bg).
  2:{ unfold rescale_with_min_max. apply map_ext. intros x. field. lra. }
  set (p := map (fun x => a * x + b) bg).
  assert (Hp : p <> []) by (unfold p; destruct bg; [congruence|discriminate]).
  destruct op.
  - apply C111_subtract_iff; [exact Hp|reflexivity|]. exists 0. intros i x c H1 H2. lra || (rewrite H1 in H2; injection H2 as ->; lra).
  - destruct (existsb (fun b => if Req_EM_T b 0 then true else false) p) eqn:Ex.
    + unfold without_background. rewrite Ex. intros x Hx. apply in_map_iff in Hx as (y & <- & _). reflexivity.
    + apply C111_divide_iff; [exact Hp|reflexivity| |].
      * intros c Hc ->. rewrite <- not_true_iff_false in Ex. apply Ex, existsb_exists. exists 0.
        split; [exact Hc|]. destruct (Req_EM_T 0 0); [reflexivity|contradiction].
      * exists 1. intros i x c H1 H2. rewrite H1 in H2. injection H2 as ->. lra.
Qed.
Print Assumptions C111_pattern_is_background_refuted.

(** The dynamic background of a flat pattern is the pattern (C82), so that it loses its
    intensities. *)
Theorem C111_dynamic_flat_refuted : forall op t omin omax blur p,
  p <> [] -> flat p -> blur p = p ->
  lost (without_dynamic_background op t omin omax blur p).
Proof.
  intros op t omin omax blur p Hp F E. unfold without_dynamic_background. rewrite E.
  destruct op.
  - apply C111_subtract_iff; [exact Hp|reflexivity|]. exists 0. intros i x c H1 H2.
    rewrite H1 in H2. injection H2 as ->. lra.
  - destruct (existsb (fun b => if Req_EM_T b 0 then true else false) p) eqn:Ex.
    + unfold without_background. rewrite Ex. intros x Hx. apply in_map_iff in Hx as (y & <- & _). reflexivity.
    + apply C111_divide_iff; [exact Hp|reflexivity| |].
      * intros c Hc ->. rewrite <- not_true_iff_false in Ex. apply Ex, existsb_exists. exists 0.
        split; [exact Hc|]. destruct (Req_EM_T 0 0); [reflexivity|contradiction].
      * exists 1. intros i x c H1 H2. rewrite H1 in H2. injection H2 as ->. lra.
Qed.
Print Assumptions C111_dynamic_flat_refuted.

(** The static background, as it is: the pattern is corrected as in C24, or loses all intensities. *)
Theorem C111_static_subtract_iff : forall t bg p omin omax, p <> [] -> length p = length bg ->
  let equal_but_for_brightness := exists d, forall i x b,
    nth_error p i = Some x -> nth_error bg i = Some b -> x = b + d in
  (~ equal_but_for_brightness ->
     without_static_background Subtract t omin omax false bg p
     = map Some (fst (remove_static_background_1 Subtract t omin omax false bg p))) /\
  (equal_but_for_brightness -> lost (without_static_background Subtract t omin omax false bg p)).
Proof. intros t bg p omin omax Hp L. exact (C111_subtract_iff t bg p omin omax Hp L). Qed.
Theorem C111_static_divide_iff : forall t bg p omin omax, p <> [] -> length p = length bg ->
  (forall b, In b bg -> b <> 0) ->
  let equal_but_for_factor := exists d, forall i x b,
    nth_error p i = Some x -> nth_error bg i = Some b -> x = d * b in
  (~ equal_but_for_factor ->
     without_static_background Divide t omin omax false bg p
     = map Some (fst (remove_static_background_1 Divide t omin omax false bg p))) /\
  (equal_but_for_factor -> lost (without_static_background Divide t omin omax false bg p)).
Proof. intros t bg p omin omax Hp L Hz. exact (C111_divide_iff t bg p omin omax Hp L Hz). Qed.

(** Scaled to the pattern and subtracted, if it has contrast: all intensities are lost exactly if
    the pattern is the background but for brightness and (positive or no) contrast. *)
Theorem C111_scaled_subtract_iff : forall t bg p omin omax, p <> [] -> length p = length bg -> ~ flat bg ->
  let equal_but_for_contrast := exists a d, 0 <= a /\ forall i x b,
    nth_error p i = Some x -> nth_error bg i = Some b -> x = a * b + d in
  (~ equal_but_for_contrast ->
     without_static_background Subtract t omin omax true bg p
     = map Some (fst (remove_static_background_1 Subtract t omin omax true bg p))) /\
  (equal_but_for_contrast -> lost (without_static_background Subtract t omin omax true bg p)).
Proof.
  intros t bg p omin omax Hp L F eq.
  assert (Hb : bg <> []) by (intros ->; apply F; intros x y []).
  assert (Ne : vmax bg - vmin bg <> 0) by (intros E; apply F; now apply flat_limits).
  set (k := (vmax p - vmin p) / (vmax bg - vmin bg)).
  set (scaled := rescale_with_min_max (vmin bg) (vmax bg) (vmin p) (vmax p) bg).
  assert (Sc : forall i z, nth_error scaled i = Some z <-> exists b, nth_error bg i = Some b /\ z = k * b + (vmin p - k * vmin bg)).
  { intros i z. unfold scaled, rescale_with_min_max. rewrite nth_error_map. destruct (nth_error bg i) as [b|]; cbn.
    - split.
      + intros E. injection E as <-. exists b. split; [reflexivity|]. unfold k. field. exact Ne.
      + intros (b' & E & ->). injection E as <-. f_equal. unfold k. field. exact Ne.
    - split; [discriminate|]. intros (b' & E & _). discriminate. }
  assert (Ls : length p = length scaled) by (unfold scaled, rescale_with_min_max; rewrite map_length; exact L).
  assert (K0 : 0 <= k).
  { unfold k. assert (vmin bg <= vmax bg) by (apply vmin_le; now apply vmax_in).
    assert (vmin p <= vmax p) by (apply vmin_le; now apply vmax_in).
    unfold Rdiv. apply Rmult_le_pos; [lra|]. left. apply Rinv_0_lt_compat. lra. }
  assert (Q : (exists d, forall i x b, nth_error p i = Some x -> nth_error scaled i = Some b -> x = b + d) <-> eq).
  { split.
    - intros (d & D). exists k, (vmin p - k * vmin bg + d). split; [exact K0|]. intros i x b Hx Hbi.
      rewrite (D i x (k * b + (vmin p - k * vmin bg)) Hx); [ring|]. apply Sc. exists b. split; [exact Hbi|reflexivity].
    - intros (a & d & Ha & D).
      assert (P : p = map (fun b => a * b + d) bg).
      { clear - D L. revert bg L D. induction p as [|x p IH]; intros [|b bg] L D; try discriminate L; [reflexivity|]. cbn. f_equal.
        - exact (D 0%nat x b eq_refl eq_refl).
        - apply IH; [now injection L|]. intros i u v Hu Hv. exact (D (S i) u v Hu Hv). }
      assert (Mono : forall x y, x <= y -> a * x + d <= a * y + d) by (intros; nra).
      assert (Vm : vmin p = a * vmin bg + d) by (rewrite P at 1; now rewrite (vmin_map _ bg Hb Mono)).
      assert (VM : vmax p = a * vmax bg + d) by (rewrite P at 1; now rewrite (vmax_map _ bg Hb Mono)).
      assert (Ka : k = a) by (unfold k; rewrite Vm, VM; field; exact Ne).
      exists 0. intros i x z Hx Hz. apply Sc in Hz as (b & Hbi & ->). rewrite (D i x b Hx Hbi), Ka, Vm. ring. }
  unfold without_static_background, remove_static_background_1. fold scaled.
  destruct (Req_EM_T (vmax bg) (vmin bg)) as [E|_]; [exfalso; apply Ne; lra|].
  destruct (C111_subtract_iff t scaled p omin omax Hp Ls) as [H1 H2]. rewrite Q in H1, H2. split; assumption.
Qed.
Print Assumptions C111_scaled_subtract_iff.

(** The dynamic background: the blurred pattern decides. *)
Theorem C111_dynamic_subtract_iff : forall t blur p omin omax, p <> [] -> length p = length (blur p) ->
  let equal_but_for_brightness := exists d, forall i x b,
    nth_error p i = Some x -> nth_error (blur p) i = Some b -> x = b + d in
  (~ equal_but_for_brightness ->
     without_dynamic_background Subtract t omin omax blur p
     = map Some (map (cast t) (fst (remove_background Subtract p (blur p) omin omax)))) /\
  (equal_but_for_brightness -> lost (without_dynamic_background Subtract t omin omax blur p)).
Proof. intros t blur p omin omax Hp L. exact (C111_subtract_iff t (blur p) p omin omax Hp L). Qed.
Print Assumptions C111_dynamic_subtract_iff.

(** Cases: not everything is lost. *)
Example C111_background_case :
  intact (without_background Subtract UInt8 0 255 [1; 2; 3] [4; 9; 5]) /\
  lost (without_background Subtract UInt8 0 255 [1; 2; 3] [4; 5; 6]) /\
  intact (without_background Divide UInt8 0 255 [1; 2; 4] [4; 9; 5]).
Proof.
  split; [|split].
  - rewrite (proj1 (C111_subtract_iff UInt8 [1; 2; 3] [4; 9; 5] 0 255 ltac:(discriminate) eq_refl)).
    + apply intact_map.
    + intros (d & D). pose proof (D 0%nat 4 1 eq_refl eq_refl). pose proof (D 1%nat 9 2 eq_refl eq_refl). lra.
  - apply C111_subtract_iff; [discriminate|reflexivity|]. exists 3.
    intros [|[|[|[|i]]]] x b Hx Hb; cbn in Hx, Hb; try discriminate; injection Hx as <-; injection Hb as <-; lra.
  - rewrite (proj1 (C111_divide_iff UInt8 [1; 2; 4] [4; 9; 5] 0 255 ltac:(discriminate) eq_refl
                      ltac:(cbn; intros b [<-|[<-|[<-|[]]]]; lra))).
    + apply intact_map.
    + intros (d & D). pose proof (D 0%nat 4 1 eq_refl eq_refl). pose proof (D 1%nat 9 2 eq_refl eq_refl). lra.
Qed.
