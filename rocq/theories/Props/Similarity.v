(** Similarity metrics: properties C07 and C08. *)
From Coq Require Import List Reals Lra Lia.
From Verif Require Import Spec.Correlation Model.Pattern Model.Similarity
  Proofs.PatternProofs Proofs.SimilarityProofs.
Import ListNotations.
Local Open Scope R_scope.

Lemma used_apply_mask {A} mask (l : list A) : used mask l = apply_mask mask l.
Proof.
  destruct mask as [m|]; [|reflexivity]. unfold used, apply_mask.
  revert l. induction m as [|b m IH]; intros [|x l]; simpl; try reflexivity.
  destruct b; simpl; rewrite IH; reflexivity.
Qed.

(** Concrete patterns for the hypotheses below. *)
Definition pat1 : pattern := [1; 2; 3; 7].
Definition pat2 : pattern := [4; 4; 0; 5].
Definition mask1 : option (list bool) := Some [false; true; false; false].
Example pat1_used_not_constant : ~ constant (used mask1 pat1).
Proof. apply (not_constant_pair _ 1 3); simpl; [tauto|tauto|lra]. Qed.
Example pat2_used_not_constant : ~ constant (used mask1 pat2).
Proof. apply (not_constant_pair _ 4 0); simpl; [tauto|tauto|lra]. Qed.

(** ** C07 *)

(** The score of experimental pattern i (of those kept by the navigation mask) and dictionary
    pattern j is Pearson's coefficient (NCC) or the cosine (NDP) of their used pixels. *)
Theorem C07_scores_are_the_documented_coefficients :
  forall nav_mask sig_mask E D i j e d,
    nth_error (used nav_mask E) i = Some e -> nth_error D j = Some d -> length e = length d ->
    (exists row, nth_error (scores NCC nav_mask sig_mask E D) i = Some row /\
       nth_error row j = Some (pearson (length (used sig_mask e)) (px (used sig_mask e)) (px (used sig_mask d))))
    /\
    (exists row, nth_error (scores NDP nav_mask sig_mask E D) i = Some row /\
       nth_error row j = Some (cosine (length (used sig_mask e)) (px (used sig_mask e)) (px (used sig_mask d)))).
Proof.
  intros nm sm E D i j e d He Hd Hl. rewrite used_apply_mask in He. rewrite !(used_apply_mask sm).
  split.
  - destruct (scores_nth NCC nm sm E D i j e d He Hd) as (row & H1 & H2). exists row. split; [exact H1|].
    rewrite H2. f_equal. apply ncc_is_pearson. apply apply_mask_length. exact Hl.
  - destruct (scores_nth NDP nm sm E D i j e d He Hd) as (row & H1 & H2). exists row. split; [exact H1|].
    rewrite H2. f_equal. apply ndp_is_cosine. apply apply_mask_length. exact Hl.
Qed.
Print Assumptions C07_scores_are_the_documented_coefficients.

(** One row of scores per kept experimental pattern, one column per dictionary pattern. *)
Theorem C07_scores_shape :
  forall m nav_mask sig_mask E D,
    length (scores m nav_mask sig_mask E D) = length (used nav_mask E)
    /\ Forall (fun row => length row = length D) (scores m nav_mask sig_mask E D).
Proof.
  intros m nm sm E D. rewrite used_apply_mask.
  unfold scores, match_patterns, prepare_experimental, prepare_dictionary. split.
  - rewrite !map_length. reflexivity.
  - apply Forall_forall. intros r Hr. apply in_map_iff in Hr as (e & <- & _).
    rewrite !map_length. reflexivity.
Qed.

(** Both coefficients are in [-1, 1]. *)
Theorem C07_ncc_bounded :
  forall p q, length p = length q -> ~ constant p -> ~ constant q ->
    -1 <= pearson (length p) (px p) (px q) <= 1.
Proof.
  intros p q H Hp Hq. unfold px. rewrite <- ncc_is_pearson by exact H.
  apply dot_normalize_bounded.
  - rewrite !zero_mean_length. exact H.
  - apply zero_mean_pos. exact Hp.
  - apply zero_mean_pos. exact Hq.
Qed.
Lemma nonzero_pos p : (exists x, In x p /\ x <> 0) -> 0 < dot p p.
Proof.
  intros (x & Hx & Hn). pose proof (dot_self_nonneg p) as [H|H]; [exact H|].
  symmetry in H. apply dot_self_zero in H. rewrite Forall_forall in H. elim Hn. apply H. exact Hx.
Qed.
Theorem C07_ndp_bounded :
  forall p q, length p = length q ->
    (exists x, In x p /\ x <> 0) -> (exists x, In x q /\ x <> 0) ->
    -1 <= cosine (length p) (px p) (px q) <= 1.
Proof.
  intros p q H Hp Hq. unfold px. rewrite <- ndp_is_cosine by exact H.
  apply dot_normalize_bounded; [exact H| |]; apply nonzero_pos; assumption.
Qed.
Theorem C07_ndp_of_nonnegative_patterns :
  forall p q, length p = length q ->
    Forall (fun x => 0 <= x) p -> Forall (fun x => 0 <= x) q ->
    (exists x, In x p /\ x <> 0) -> (exists x, In x q /\ x <> 0) ->
    0 <= cosine (length p) (px p) (px q) <= 1.
Proof.
  intros p q H Hp Hq Np Nq. split; [|apply C07_ndp_bounded; assumption].
  unfold px. rewrite <- ndp_is_cosine by exact H. rewrite dot_normalize.
  pose proof (sqrt_lt_R0 _ (nonzero_pos p Np)). pose proof (sqrt_lt_R0 _ (nonzero_pos q Nq)).
  unfold Rdiv. apply Rmult_le_pos; [apply dot_nonneg; assumption|].
  apply Rlt_le, Rinv_0_lt_compat, Rmult_lt_0_compat; assumption.
Qed.
(** Hence every entry of the array of scores, and the objective of refinement. *)
Theorem C07_all_scores_bounded :
  forall nav_mask sig_mask E D i j row s,
    (forall e d, In e E -> In d D -> length e = length d) ->
    (forall p, In p E \/ In p D -> ~ constant (used sig_mask p)) ->
    nth_error (scores NCC nav_mask sig_mask E D) i = Some row -> nth_error row j = Some s ->
    -1 <= s <= 1.
Proof.
  intros nm sm E D i j row s Hl Hc Hi Hj.
  destruct (C07_scores_shape NCC nm sm E D) as [L1 L2].
  assert (Hi' : (i < length (used nm E))%nat).
  { rewrite <- L1. apply nth_error_Some. congruence. }
  assert (Hj' : (j < length D)%nat).
  { rewrite Forall_forall in L2. rewrite <- (L2 row); [|eapply nth_error_In; exact Hi].
    apply nth_error_Some. congruence. }
  destruct (nth_error (used nm E) i) as [e|] eqn:Ee; [|apply nth_error_None in Ee; lia].
  destruct (nth_error D j) as [d|] eqn:Ed; [|apply nth_error_None in Ed; lia].
  assert (Ie : In e E).
  { apply nth_error_In in Ee. rewrite used_apply_mask in Ee.
    pose proof (apply_mask_Forall (fun x => In x E) nm E) as F. rewrite !Forall_forall in F.
    apply F; [auto|exact Ee]. }
  assert (Id : In d D) by (eapply nth_error_In; exact Ed).
  destruct (C07_scores_are_the_documented_coefficients nm sm E D i j e d Ee Ed (Hl e d Ie Id))
    as [(row' & H1 & H2) _].
  rewrite Hi in H1. injection H1 as <-. rewrite Hj in H2. injection H2 as ->.
  apply C07_ncc_bounded.
  - rewrite !used_apply_mask. apply apply_mask_length. apply Hl; assumption.
  - apply Hc. left. exact Ie.
  - apply Hc. right. exact Id.
Qed.
Print Assumptions C07_all_scores_bounded.
Theorem C07_objective_is_one_minus_pearson_and_bounded :
  forall rescale exp sim, length exp = length sim -> ~ constant exp -> ~ constant sim ->
    objective rescale exp sim = 1 - pearson (length exp) (px exp) (px sim)
    /\ 0 <= objective rescale exp sim <= 2.
Proof.
  intros r p q H Hp Hq.
  assert (E : objective r p q = 1 - pearson (length p) (px p) (px q)).
  { unfold px. rewrite <- ncc_is_pearson by exact H.
    destruct r; [apply objective_rescale; exact Hp|apply objective_no_rescale]. }
  split; [exact E|]. rewrite E. pose proof (C07_ncc_bounded p q H Hp Hq). lra.
Qed.
Print Assumptions C07_objective_is_one_minus_pearson_and_bounded.
(** Without the condition on the variance there is no score: the denominator is zero, in the code
    a division 0/0 (NaN). *)
Theorem C07_constant_pattern_has_no_score :
  forall p, constant p ->
    Sum (length p) (fun i => (px p i - average (length p) (px p)) ^ 2) = 0.
Proof.
  intros p H. rewrite <- (zero_mean_constant p H), dot_Sum by reflexivity.
  rewrite zero_mean_length. apply Sum_ext. intros i Hi. rewrite zero_mean_nth by exact Hi.
  unfold px. rewrite <- vmean_average. ring.
Qed.

Example C07_case : exists row s, nth_error (scores NCC None mask1 [pat2; pat1] [pat2; pat2]) 1 = Some row
  /\ nth_error row 0 = Some s /\ -1 <= s <= 1.
Proof.
  eexists _, _. split; [reflexivity|]. split; [reflexivity|].
  eapply (C07_all_scores_bounded None mask1 [pat2; pat1] [pat2; pat2] 1 0); try reflexivity.
  - intros e d He Hd. simpl in *. intuition subst; reflexivity.
  - intros p Hp. assert (p = pat1 \/ p = pat2) as [->| ->] by (simpl in Hp; intuition).
    + apply pat1_used_not_constant.
    + apply pat2_used_not_constant.
Qed.

(** ** C08 *)
Definition affine (a b : R) (p : pattern) : pattern := map (fun x => a * x + b) p.

(** Changing contrast and brightness of all experimental and all dictionary patterns (each by its
    own amount) changes no score. *)
Theorem C08_scores_ignore_contrast_and_brightness :
  forall nav_mask sig_mask E D (aE bE aD bD : pattern -> R),
    (forall p, 0 < aE p) -> (forall p, 0 < aD p) ->
    scores NCC nav_mask sig_mask (map (fun p => affine (aE p) (bE p) p) E)
                                 (map (fun p => affine (aD p) (bD p) p) D)
    = scores NCC nav_mask sig_mask E D.
Proof.
  intros nm sm E D aE bE aD bD HE HD.
  unfold scores, prepare_experimental, prepare_dictionary.
  rewrite apply_mask_map, !map_map. f_equal.
  - apply map_ext. intros p. unfold affine. rewrite apply_mask_map. simpl.
    apply zero_mean_normalize_affine_pos. apply HE.
  - apply map_ext. intros p. unfold affine. rewrite apply_mask_map. simpl.
    apply zero_mean_normalize_affine_pos. apply HD.
Qed.
Print Assumptions C08_scores_ignore_contrast_and_brightness.

(** The same about Pearson's coefficient: positive and negative factor, and self match. *)
Theorem C08_pearson_affine :
  forall a b p q, length p = length q -> a <> 0 ->
    pearson (length p) (px (affine a b p)) (px q)
    = (if Rlt_dec 0 a then 1 else -1) * pearson (length p) (px p) (px q).
Proof.
  intros a b p q H Ha. unfold px.
  replace (length p) with (length (affine a b p)) at 1 by apply map_length.
  rewrite <- (ncc_is_pearson (affine a b p)) by (unfold affine; rewrite map_length; exact H).
  rewrite <- ncc_is_pearson by exact H. unfold affine.
  destruct (Rlt_dec 0 a) as [Hp|Hp].
  - rewrite zero_mean_normalize_affine_pos by exact Hp. ring.
  - rewrite zero_mean_normalize_affine_neg by lra. rewrite dot_opp_l. ring.
Qed.
Theorem C08_self_match_is_one :
  forall p, ~ constant p -> pearson (length p) (px p) (px p) = 1.
Proof.
  intros p H. unfold px. rewrite <- ncc_is_pearson by reflexivity.
  apply dot_normalize_self. apply zero_mean_pos. exact H.
Qed.
(** A pattern that is in the dictionary up to contrast and brightness gets the highest score. *)
Theorem C08_match_up_to_contrast_is_best :
  forall p q a b, 0 < a -> ~ constant p -> ~ constant q -> length p = length q ->
    pearson (length p) (px p) (px q) <= pearson (length p) (px p) (px (affine a b p)).
Proof.
  intros p q a b Ha Hp Hq Hl. unfold px.
  rewrite <- (ncc_is_pearson p (affine a b p)) by (unfold affine; rewrite map_length; reflexivity).
  unfold affine. rewrite zero_mean_normalize_affine_pos by exact Ha.
  unfold zero_mean_normalize at 2. unfold zero_mean_normalize.
  rewrite dot_normalize_self by (apply zero_mean_pos; exact Hp).
  apply C07_ncc_bounded; assumption.
Qed.
(** Rescaling the experimental pattern before refinement does not change the objective. *)
Theorem C08_rescale_does_not_change_objective :
  forall exp sim, ~ constant exp -> objective true exp sim = objective false exp sim.
Proof. intros p q H. rewrite objective_rescale, objective_no_rescale by exact H. reflexivity. Qed.
Theorem C08_objective_ignores_contrast_and_brightness :
  forall rescale exp sim a b a' b', ~ constant exp -> 0 < a -> 0 < a' ->
    objective rescale (affine a b exp) (affine a' b' sim) = objective rescale exp sim.
Proof.
  intros r p q a b a' b' H Ha Ha'.
  assert (Hn : ~ constant (affine a b p)).
  { intros Hc. apply H. intros x y Hx Hy.
    assert (E : a * x + b = a * y + b).
    { apply Hc; unfold affine; apply (in_map (fun x => a * x + b)); assumption. }
    assert (E' : a * (x - y) = 0) by lra. apply Rmult_integral in E'. destruct E'; lra. }
  destruct r; rewrite ?objective_rescale by assumption; rewrite ?objective_no_rescale;
    unfold affine; rewrite !zero_mean_normalize_affine_pos by assumption; reflexivity.
Qed.
Print Assumptions C08_objective_ignores_contrast_and_brightness.
Example C08_case : pearson 4 (px (affine 3 (-5) pat1)) (px pat1) = 1.
Proof.
  change 4%nat with (length pat1). rewrite C08_pearson_affine by (try reflexivity; lra).
  destruct (Rlt_dec 0 3); [|lra]. rewrite C08_self_match_is_one; [ring|].
  apply (not_constant_pair _ 1 2); simpl; [tauto|tauto|lra].
Qed.
