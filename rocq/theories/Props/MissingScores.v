(** Which similarity scores are numbers: part of property C07. *)
From Coq Require Import List Reals Lra Lia.
From Verif Require Import Spec.Correlation Model.Pattern Model.Similarity Model.FlatPatterns Model.MissingScores
  Proofs.PatternProofs Proofs.SimilarityProofs Props.Similarity.
Import ListNotations.
Local Open Scope R_scope.

(** ** Specification *)

(** A pattern that cannot be normalized: one without contrast for the normalized cross-correlation, one without any
    intensity for the normalized dot product. *)
Definition without_norm (m : metric) (p : list R) : Prop :=
  match m with
  | NCC => forall x y, In x p -> In y p -> x = y
  | NDP => forall x, In x p -> x = 0
  end.
Definition coefficient (m : metric) (n : nat) : (nat -> R) -> (nat -> R) -> R :=
  match m with NCC => pearson n | NDP => cosine n end.

(** ** Lemmas *)

Definition centred (m : metric) (p : pattern) : pattern := match m with NCC => zero_mean p | NDP => p end.
Lemma centred_length m p : length (centred m p) = length p.
Proof. destruct m; [apply zero_mean_length|reflexivity]. Qed.
Lemma prepared_centred m p : prepared_row m p = map (fun x => divided x (sqrt (dot (centred m p) (centred m p)))) (centred m p).
Proof. destruct m; reflexivity. Qed.
Lemma norm_zero m p : sqrt (dot (centred m p) (centred m p)) = 0 <-> without_norm m p.
Proof.
  pose proof (dot_self_nonneg (centred m p)) as P. split.
  - intros E. apply sqrt_eq_0 in E; [|lra]. apply dot_self_zero in E. rewrite Forall_forall in E. destruct m; cbn [centred without_norm] in *.
    + intros x y Hx Hy. assert (Ex : x - vmean p = 0) by (apply E; unfold zero_mean; now apply (in_map (fun x => x - vmean p))).
      assert (Ey : y - vmean p = 0) by (apply E; unfold zero_mean; now apply (in_map (fun x => x - vmean p))). lra.
    + exact E.
  - intros W. replace (dot (centred m p) (centred m p)) with 0; [apply sqrt_0|]. symmetry. destruct m; cbn [centred without_norm] in *.
    + now apply zero_mean_constant.
    + clear P. induction p as [|x p IH]; [reflexivity|]. cbn. rewrite IH by (intros; apply W; now right). rewrite (W x (or_introl eq_refl)). ring.
Qed.
Lemma summed_numbers p q : summed (map Some p) (map Some q) = Some (dot p q).
Proof. revert q. induction p as [|x p IH]; intros [|y q]; cbn; try reflexivity. now rewrite IH. Qed.
Lemma summed_missing p q : (p <> [] /\ q <> []) -> (forall x, In x p -> x = None) \/ (forall x, In x q -> x = None) -> summed p q = None.
Proof.
  intros [Np Nq] H. destruct p as [|x p]; [now contradiction Np|]. destruct q as [|y q]; [now contradiction Nq|]. cbn.
  destruct H as [H|H]; rewrite (H _ (or_introl eq_refl)); [reflexivity|now destruct x].
Qed.
Lemma divided_all m p : ~ without_norm m p -> prepared_row m p = map Some (prepare_row m p).
Proof.
  intros N. rewrite prepared_centred. assert (E : prepare_row m p = normalize (centred m p)) by (destruct m; reflexivity). rewrite E. unfold normalize.
  rewrite map_map. apply map_ext. intros x. unfold divided. destruct (Req_EM_T _ 0) as [Z|Z]; [|reflexivity]. apply norm_zero in Z. contradiction.
Qed.
Lemma divided_none m p : without_norm m p -> forall x, In x (prepared_row m p) -> x = None.
Proof.
  intros W x Hx. rewrite prepared_centred in Hx. apply in_map_iff in Hx as (u & <- & _). unfold divided.
  destruct (Req_EM_T _ 0) as [Z|Z]; [reflexivity|]. apply norm_zero in W. contradiction.
Qed.
Lemma without_norm_dec m p : without_norm m p \/ ~ without_norm m p.
Proof. rewrite <- norm_zero. destruct (Req_EM_T (sqrt (dot (centred m p) (centred m p))) 0); tauto. Qed.

(** ** Theorems *)

(** The score of experimental pattern i (of those kept) and dictionary pattern j: not a number exactly if one of them
    cannot be normalized, otherwise the documented coefficient. *)
Theorem C07_score_iff m nav_mask sig_mask E D i j e d :
  nth_error (used nav_mask E) i = Some e -> nth_error D j = Some d -> length e = length d -> used sig_mask e <> [] ->
  exists row s, nth_error (scores_shown m nav_mask sig_mask E D) i = Some row /\ nth_error row j = Some s /\
    (s = None <-> without_norm m (used sig_mask e) \/ without_norm m (used sig_mask d)) /\
    (s <> None -> s = Some (coefficient m (length (used sig_mask e)) (px (used sig_mask e)) (px (used sig_mask d)))).
Proof.
  rewrite used_apply_mask. intros He Hd L N. rewrite !used_apply_mask in *.
  unfold scores_shown. do 2 eexists. split; [rewrite !nth_error_map, He; cbn [option_map]; reflexivity|].
  split; [rewrite !nth_error_map, Hd; cbn [option_map]; reflexivity|].
  set (p := apply_mask sig_mask e) in *. assert (Lp : length p = length (apply_mask sig_mask d)) by now apply apply_mask_length.
  set (q := apply_mask sig_mask d) in *. clearbody p q.
  assert (NE : prepared_row m p <> [] /\ prepared_row m q <> []).
  { assert (1 <= length p)%nat by (destruct p; [now contradiction N|cbn; lia]).
    split; intros C; apply (f_equal (@length (option R))) in C; rewrite prepared_centred, map_length, centred_length in C; cbn in C; lia. }
  destruct (without_norm_dec m p) as [Wp|Wp].
  { rewrite (summed_missing _ _ NE) by (left; now apply divided_none). tauto. }
  destruct (without_norm_dec m q) as [Wq|Wq].
  { rewrite (summed_missing _ _ NE) by (right; now apply divided_none). tauto. }
  rewrite (divided_all m p Wp), (divided_all m q Wq), summed_numbers. split; [split; [discriminate|tauto]|]. intros _. f_equal.
  destruct m; cbn [prepare_row coefficient]; [now apply ncc_is_pearson|now apply ndp_is_cosine].
Qed.
Print Assumptions C07_score_iff.

(** The normalized dot product does not need contrast: two uniform patterns, of any brightness, match perfectly. *)
Theorem C07_uniform_patterns_match nav_mask sig_mask E D i j e d a b :
  nth_error (used nav_mask E) i = Some e -> nth_error D j = Some d -> length e = length d -> used sig_mask e <> [] ->
  0 < a -> 0 < b -> (forall x, In x (used sig_mask e) -> x = a) -> (forall x, In x (used sig_mask d) -> x = b) ->
  exists row, nth_error (scores_shown NDP nav_mask sig_mask E D) i = Some row /\ nth_error row j = Some (Some 1) /\
  exists row', nth_error (scores_shown NCC nav_mask sig_mask E D) i = Some row' /\ nth_error row' j = Some None.
Proof.
  intros He Hd L N A B Ea Eb.
  assert (Lu : length (used sig_mask e) = length (used sig_mask d)) by (rewrite !used_apply_mask; now apply apply_mask_length).
  destruct (C07_score_iff NDP nav_mask sig_mask E D i j e d He Hd L N) as (row & s & R1 & R2 & R3 & R4).
  destruct (C07_score_iff NCC nav_mask sig_mask E D i j e d He Hd L N) as (row' & s' & R1' & R2' & R3' & _).
  set (p := used sig_mask e) in *. set (q := used sig_mask d) in *. clearbody p q.
  assert (P1 : (1 <= length p)%nat) by (destruct p; [now contradiction N|cbn; lia]).
  exists row. split; [exact R1|]. split.
  - rewrite R2. f_equal. rewrite R4.
    + f_equal. cbn [coefficient]. unfold px. rewrite <- ndp_is_cosine by exact Lu.
      assert (Rp : p = repeat a (length p)) by (clear -Ea; induction p as [|x p IH]; [reflexivity|]; cbn; rewrite <- IH by (intros; apply Ea; now right); f_equal; apply Ea; now left).
      assert (Rq : q = repeat b (length p)).
      { rewrite Lu. clear -Eb. induction q as [|x q IH]; [reflexivity|]; cbn; rewrite <- IH by (intros; apply Eb; now right); f_equal; apply Eb; now left. }
      assert (DR : forall n u v, dot (repeat u n) (repeat v n) = INR n * (u * v)).
      { induction n as [|n IH]; intros u v; [cbn; ring|]. cbn [repeat dot]. rewrite IH, S_INR. ring. }
      assert (MR : forall n u, normalize (repeat u n) = repeat (u / sqrt (INR n * (u * u))) n).
      { intros n u. unfold normalize. rewrite DR. generalize (sqrt (INR n * (u * u))) as k. intros k. induction n as [|n IH]; [reflexivity|]. cbn. now rewrite IH. }
      rewrite Rp, Rq, !MR, DR. assert (H1 : 0 < INR (length p)) by (apply lt_0_INR; lia).
      set (n := INR (length p)) in *. pose proof (sqrt_lt_R0 n H1) as S1. pose proof (sqrt_sqrt n (Rlt_le _ _ H1)) as S2.
      assert (Q : forall u, 0 < u -> sqrt (n * (u * u)) = sqrt n * u).
      { intros u U. rewrite sqrt_mult by (try nra; lra). now rewrite sqrt_square by lra. }
      rewrite (Q a A), (Q b B). set (r := sqrt n) in *. clearbody r. rewrite <- S2. field. lra.
    + intros C. apply R3 in C as [C|C]; cbn in C.
      * destruct p as [|x p]; [now contradiction N|]. pose proof (C x (or_introl eq_refl)). pose proof (Ea x (or_introl eq_refl)). lra.
      * destruct q as [|x q]; [cbn in Lu; lia|]. pose proof (C x (or_introl eq_refl)). pose proof (Eb x (or_introl eq_refl)). lra.
  - exists row'. split; [exact R1'|]. rewrite R2'. f_equal. apply R3'. left. intros x y Hx Hy. now rewrite (Ea x Hx), (Ea y Hy).
Qed.
Print Assumptions C07_uniform_patterns_match.

(** ** Cases *)

Example C07_score_case : exists row, nth_error (scores_shown NCC None mask1 [pat2; pat1] [[2; 9; 2; 2]; pat2]) 1 = Some row /\
  nth_error row 0 = Some None /\ (exists s, nth_error row 1 = Some (Some s)).
Proof.
  destruct (C07_score_iff NCC None mask1 [pat2; pat1] [[2; 9; 2; 2]; pat2] 1 0 pat1 [2; 9; 2; 2] eq_refl eq_refl eq_refl) as (row & s & R1 & R2 & R3 & _); [discriminate|].
  destruct (C07_score_iff NCC None mask1 [pat2; pat1] [[2; 9; 2; 2]; pat2] 1 1 pat1 pat2 eq_refl eq_refl eq_refl) as (row' & s' & R1' & R2' & R3' & _); [discriminate|].
  exists row. split; [exact R1|]. split.
  - rewrite R2. f_equal. apply R3. right. cbn. intros x y Hx Hy. intuition lra.
  - rewrite R1 in R1'. injection R1' as <-. destruct s' as [s'|]; [now exists s'|]. exfalso.
    destruct (proj1 R3' eq_refl) as [C|C]; [exact (pat1_used_not_constant C)|exact (pat2_used_not_constant C)].
Qed.
