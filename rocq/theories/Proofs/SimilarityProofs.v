From Coq Require Import List Reals Lra Lia.
From Verif Require Import Spec.Correlation Model.Pattern Model.Similarity Proofs.PatternProofs.
Import ListNotations.
Local Open Scope R_scope.

Lemma select_length {A B} mask (p : list A) (q : list B) : length p = length q ->
  length (select mask p) = length (select mask q).
Proof.
  revert p q. induction mask as [|m mask IH]; intros [|x p] [|y q] H; simpl in *; try lia.
  destruct m; simpl; rewrite (IH p q) by lia; reflexivity.
Qed.
Lemma apply_mask_length {A B} mask (p : list A) (q : list B) : length p = length q ->
  length (apply_mask mask p) = length (apply_mask mask q).
Proof. destruct mask; simpl; [apply select_length|auto]. Qed.
Lemma select_map {A B} (f : A -> B) mask p : select mask (map f p) = map f (select mask p).
Proof.
  revert p. induction mask as [|m mask IH]; intros [|x p]; simpl; try reflexivity.
  destruct m; simpl; rewrite IH; reflexivity.
Qed.
Lemma apply_mask_map {A B} (f : A -> B) mask p : apply_mask mask (map f p) = map f (apply_mask mask p).
Proof. destruct mask; simpl; [apply select_map|reflexivity]. Qed.
Lemma select_Forall {A} (P : A -> Prop) mask p : Forall P p -> Forall P (select mask p).
Proof.
  revert p. induction mask as [|m mask IH]; intros p H; [constructor|].
  destruct H as [|x p Hx Hp]; [constructor|]. simpl. destruct m; auto.
Qed.
Lemma apply_mask_Forall {A} (P : A -> Prop) mask p : Forall P p -> Forall P (apply_mask mask p).
Proof. destruct mask; simpl; [apply select_Forall|auto]. Qed.

(** A score of the array is the score of its pair. *)
Lemma scores_nth m nm sm E D i j e d :
  nth_error (apply_mask nm E) i = Some e -> nth_error D j = Some d ->
  exists row, nth_error (scores m nm sm E D) i = Some row
    /\ nth_error row j = Some (dot (prepare_row m (apply_mask sm e)) (prepare_row m (apply_mask sm d))).
Proof.
  intros He Hd. unfold scores, match_patterns, prepare_experimental, prepare_dictionary.
  eexists. split.
  - rewrite nth_error_map, nth_error_map, He. simpl. reflexivity.
  - rewrite nth_error_map, nth_error_map, Hd. reflexivity.
Qed.

Lemma ncc_is_pearson p q : length p = length q ->
  dot (zero_mean_normalize p) (zero_mean_normalize q)
  = pearson (length p) (fun i => nth i p 0) (fun i => nth i q 0).
Proof.
  intros H. unfold zero_mean_normalize. rewrite dot_normalize.
  rewrite !dot_Sum by (rewrite ?zero_mean_length; auto). rewrite !zero_mean_length.
  unfold pearson. rewrite <- H. apply (f_equal2 Rdiv).
  - apply Sum_ext. intros i Hi. rewrite !zero_mean_nth by lia.
    rewrite !vmean_average. rewrite <- H. reflexivity.
  - apply (f_equal2 Rmult); apply (f_equal sqrt); apply Sum_ext; intros i Hi;
      rewrite !zero_mean_nth by lia; rewrite !vmean_average, <- ?H; simpl; ring.
Qed.
Lemma ndp_is_cosine p q : length p = length q ->
  dot (normalize p) (normalize q) = cosine (length p) (fun i => nth i p 0) (fun i => nth i q 0).
Proof.
  intros H. rewrite dot_normalize, !dot_Sum by auto. unfold cosine. rewrite <- H. apply (f_equal2 Rdiv); [reflexivity|].
  apply (f_equal2 Rmult); apply (f_equal sqrt); apply Sum_ext; intros; simpl; ring.
Qed.

Lemma normalize_scale_pos a p : 0 < a -> normalize (map (fun x => a * x) p) = normalize p.
Proof.
  intros Ha. unfold normalize. rewrite dot_self_scale, map_map. apply map_ext. intros x.
  rewrite sqrt_mult by (try apply dot_self_nonneg; nra).
  rewrite sqrt_square by lra.
  destruct (Req_dec (sqrt (dot p p)) 0) as [E|E].
  - rewrite E, Rmult_0_r. unfold Rdiv. rewrite Rinv_0. ring.
  - field. split; lra.
Qed.
Lemma normalize_scale_neg a p : a < 0 -> normalize (map (fun x => a * x) p) = map Ropp (normalize p).
Proof.
  intros Ha.
  replace (map (fun x => a * x) p) with (map (fun x => -1 * x) (map (fun x => - a * x) p)).
  2:{ rewrite map_map. apply map_ext. intros; ring. }
  unfold normalize at 1. rewrite dot_self_scale.
  replace (-1 * -1 * dot (map (fun x => - a * x) p) (map (fun x => - a * x) p))
    with (dot (map (fun x => - a * x) p) (map (fun x => - a * x) p)) by ring.
  rewrite <- (normalize_scale_pos (- a) p) by lra. unfold normalize. rewrite !map_map.
  apply map_ext. intros x. unfold Rdiv. ring.
Qed.
Lemma zero_mean_normalize_affine_pos a b p : 0 < a ->
  zero_mean_normalize (map (fun x => a * x + b) p) = zero_mean_normalize p.
Proof. intros Ha. unfold zero_mean_normalize. rewrite zero_mean_affine. apply normalize_scale_pos. exact Ha. Qed.
Lemma zero_mean_normalize_affine_neg a b p : a < 0 ->
  zero_mean_normalize (map (fun x => a * x + b) p) = map Ropp (zero_mean_normalize p).
Proof. intros Ha. unfold zero_mean_normalize. rewrite zero_mean_affine. apply normalize_scale_neg. exact Ha. Qed.
Lemma dot_opp_l p q : dot (map Ropp p) q = - dot p q.
Proof.
  replace (map Ropp p) with (map (fun x => -1 * x) p) by (apply map_ext; intros; ring).
  rewrite dot_scale_l. ring.
Qed.
Lemma dot_normalize_self p : 0 < dot p p -> dot (normalize p) (normalize p) = 1.
Proof.
  intros H. rewrite dot_normalize. rewrite sqrt_sqrt by lra. field. lra.
Qed.

(** The single-pattern NCC of refinement is the same score. *)
Lemma ncc_single_eq p q : ncc_single (zero_mean p) q (dot (zero_mean p) (zero_mean p))
  = dot (zero_mean_normalize p) (zero_mean_normalize q).
Proof.
  unfold ncc_single, zero_mean_normalize. rewrite dot_normalize.
  rewrite sqrt_mult by apply dot_self_nonneg. reflexivity.
Qed.
Lemma objective_no_rescale p q : objective false p q = 1 - dot (zero_mean_normalize p) (zero_mean_normalize q).
Proof. unfold objective, prepare_pattern. rewrite ncc_single_eq. reflexivity. Qed.
Lemma objective_rescale p q : ~ constant p ->
  objective true p q = 1 - dot (zero_mean_normalize p) (zero_mean_normalize q).
Proof.
  intros H. pose proof (vmin_lt_vmax p H). unfold objective, prepare_pattern. rewrite ncc_single_eq.
  unfold rescale_without_min_max. rewrite rescale_affine by lra.
  rewrite zero_mean_normalize_affine_pos; [reflexivity|].
  unfold Rdiv. apply Rmult_lt_0_compat; [lra|]. apply Rinv_0_lt_compat. lra.
Qed.
