From Coq Require Import String List Arith ZArith QArith Qabs Bool Lia Lqa Sorted.
From Verif Require Import Model.EMsoftMaster Spec.MasterPatternFile Proofs.ListLemmas.
Import ListNotations.
Local Open Scope nat_scope.

(** ** argwhere and argmin *)

Lemma in_argwhere p l i : In i (argwhere p l) <-> exists e, nth_error l i = Some e /\ p e = true.
Proof.
  unfold argwhere. rewrite filter_In, in_seq. split.
  - intros [H E]. destruct (nth_error l i) as [e|] eqn:N.
    + exists e. split; [reflexivity|]. rewrite (nth_error_nth _ _ _ N) in E. exact E.
    + apply nth_error_None in N. lia.
  - intros [e [N E]]. pose proof (nth_error_Some l i) as S. rewrite N in S.
    split; [split; [lia|apply S; discriminate]|]. rewrite (nth_error_nth _ _ _ N). exact E.
Qed.

Lemma filter_seq_sorted p n : forall a, Sorted.StronglySorted lt (filter p (seq a n)).
Proof.
  induction n as [|n IH]; intros a; cbn [seq filter]; [constructor|].
  destruct (p a); [|apply IH]. constructor; [apply IH|].
  apply Forall_forall. intros x Hx. apply filter_In in Hx. destruct Hx as [Hx _].
  apply in_seq in Hx. lia.
Qed.

Lemma argwhere_first p l i r : argwhere p l = i :: r ->
  (exists e, nth_error l i = Some e /\ p e = true) /\
  forall j e, nth_error l j = Some e -> p e = true -> i <= j.
Proof.
  intros E. split.
  - apply in_argwhere. rewrite E. left. reflexivity.
  - intros j e N P. assert (I : In j (argwhere p l)) by (apply in_argwhere; eauto).
    rewrite E in I. destruct I as [->|I]; [lia|].
    assert (S : Sorted.StronglySorted lt (argwhere p l)) by apply filter_seq_sorted.
    rewrite E in S. inversion S as [|? ? _ F]; subst. rewrite Forall_forall in F. specialize (F _ I). lia.
Qed.

Lemma strongly_sorted_last l j r : Sorted.StronglySorted lt l -> rev l = j :: r -> forall i, In i l -> i <= j.
Proof.
  revert j r. induction l as [|x l IH]; intros j r S E i I; [destruct I|].
  inversion S as [|? ? S' F]; subst. cbn [rev] in E.
  destruct (rev l) as [|y r'] eqn:R.
  - assert (L : l = []) by (apply (f_equal (@rev nat)) in R; rewrite rev_involutive in R; exact R).
    subst l. cbn in E. injection E as -> _. destruct I as [->|[]]. lia.
  - cbn in E. injection E as -> _. destruct I as [->|I]; [|apply (IH j r' S' eq_refl _ I)].
    rewrite Forall_forall in F. assert (J : In j l) by (rewrite in_rev, R; left; reflexivity).
    specialize (F _ J). lia.
Qed.

Lemma argwhere_last p l j r : rev (argwhere p l) = j :: r ->
  (exists e, nth_error l j = Some e /\ p e = true) /\
  forall i e, nth_error l i = Some e -> p e = true -> i <= j.
Proof.
  intros E. split.
  - apply in_argwhere. rewrite in_rev, E. left. reflexivity.
  - intros i e N P. eapply strongly_sorted_last; [apply filter_seq_sorted|exact E|].
    apply in_argwhere. eauto.
Qed.

Lemma argwhere_empty p l : argwhere p l = [] <-> forall i e, nth_error l i = Some e -> p e = false.
Proof.
  split.
  - intros E i e N. destruct (p e) eqn:P; [|reflexivity].
    assert (I : In i (argwhere p l)) by (apply in_argwhere; eauto). rewrite E in I. destruct I.
  - intros H. destruct (argwhere p l) as [|i r] eqn:E; [reflexivity|].
    assert (I : In i (argwhere p l)) by (rewrite E; left; reflexivity).
    apply in_argwhere in I. destruct I as [e [N P]]. rewrite (H _ _ N) in P. discriminate.
Qed.

Lemma argmin_from_spec l : forall done best bi,
  nth_error (done ++ l) bi = Some best ->
  bi < length done ->
  (forall j y, j < length done -> nth_error (done ++ l) j = Some y -> (best <= y)%Q) ->
  (forall j y, j < bi -> nth_error (done ++ l) j = Some y -> (best < y)%Q) ->
  exists x, nth_error (done ++ l) (argmin_from best bi (length done) l) = Some x /\
    (forall j y, nth_error (done ++ l) j = Some y -> (x <= y)%Q) /\
    (forall j y, j < argmin_from best bi (length done) l -> nth_error (done ++ l) j = Some y -> (x < y)%Q).
Proof.
  induction l as [|x l IH]; intros done best bi N B L F; cbn [argmin_from].
  - exists best. split; [exact N|]. split; [|exact F].
    intros j y Nj. apply (L j y); [|exact Nj].
    rewrite app_nil_r in Nj. apply nth_error_Some. congruence.
  - assert (E : done ++ x :: l = (done ++ [x]) ++ l) by (rewrite <- app_assoc; reflexivity).
    assert (LD : length (done ++ [x]) = S (length done)) by (rewrite app_length; cbn; lia).
    assert (NX : nth_error (done ++ x :: l) (length done) = Some x)
      by (rewrite nth_error_app2, Nat.sub_diag by lia; reflexivity).
    destruct (Qle_bool best x) eqn:C; cbn [negb].
    + apply Qle_bool_iff in C. rewrite E, <- LD. apply IH; rewrite <- ?E.
      * exact N.
      * lia.
      * intros j y Hj Nj. destruct (Nat.eq_dec j (length done)) as [->|D].
        -- rewrite NX in Nj. injection Nj as <-. exact C.
        -- apply (L j y); [lia|exact Nj].
      * exact F.
    + assert (C' : (x < best)%Q).
      { apply Qnot_le_lt. intros H. apply Qle_bool_iff in H. congruence. }
      rewrite E, <- LD. apply IH; rewrite <- ?E.
      * exact NX.
      * lia.
      * intros j y Hj Nj. destruct (Nat.eq_dec j (length done)) as [->|D].
        -- rewrite NX in Nj. injection Nj as <-. apply Qle_refl.
        -- apply Qlt_le_weak, Qlt_le_trans with best; [exact C'|]. apply (L j y); [lia|exact Nj].
      * intros j y Hj Nj. apply Qlt_le_trans with best; [exact C'|]. apply (L j y); [lia|exact Nj].
Qed.

Lemma argmin_spec l i : argmin l = Some i ->
  exists x, nth_error l i = Some x /\
    (forall j y, nth_error l j = Some y -> (x <= y)%Q) /\
    (forall j y, j < i -> nth_error l j = Some y -> (x < y)%Q).
Proof.
  destruct l as [|a l]; [discriminate|]. cbn [argmin]. intros H. injection H as <-.
  apply (argmin_from_spec l [a] a 0); cbn.
  - reflexivity.
  - lia.
  - intros j y Hj. assert (j = 0) by lia. subst j. cbn. intros E. injection E as <-. apply Qle_refl.
  - intros j y Hj. lia.
Qed.

(** ** Selection *)

Definition wanted (l : list Q) (a : energy_arg) : nat -> Prop :=
  match a with
  | NoEnergy => wanted_all l
  | EnergyRange lo hi => wanted_range l lo hi
  | OneEnergy e => wanted_one l e
  end.

(** The slice along the energy axis: first index and number of energies. *)
Definition chosen (s : pyslice) (n : nat) : nat * nat :=
  match s with All => (0, n) | Range lo hi => (lo, Nat.min hi n - lo) end.

Lemma selection npx l a sh sl :
  increasing l -> get_data_shape_slices npx l a = Some (sh, sl) ->
  exists s first count, sl = [s; All; All] /\ chosen s (length l) = (first, count) /\
    sh = [count; npx * 2 + 1; npx * 2 + 1] /\
    (a <> NoEnergy -> first < length l) /\
    (forall i, wanted l a i <-> first <= i < first + count).
Proof.
  intros INC. destruct a as [|lo hi|e]; cbn [get_data_shape_slices].
  - intros H. injection H as <- <-. exists All, 0, (length l). cbn.
    split; [reflexivity|]. split; [reflexivity|]. split; [reflexivity|]. split; [congruence|].
    unfold wanted_all. intros i. lia.
  - destruct (argwhere _ l) as [|i r] eqn:A; [discriminate|].
    destruct (rev _) as [|j r'] eqn:B; [discriminate|]. intros H. injection H as <- <-.
    apply argwhere_first in A. destruct A as [[ei [Ni Pi]] Fi].
    apply argwhere_last in B. destruct B as [[ej [Nj Pj]] Lj].
    assert (LI : i < length l) by (apply nth_error_Some; congruence).
    assert (LJ : j < length l) by (apply nth_error_Some; congruence).
    exists (Range i (j + 1)), i, (j + 1 - i). unfold chosen. rewrite Nat.min_l by lia.
    split; [reflexivity|]. split; [reflexivity|]. split; [reflexivity|]. split; [intros _; exact LI|].
    intros k. unfold wanted, wanted_range. apply Qle_bool_iff in Pi, Pj. split.
    + intros [x [Nk [X1 X2]]]. apply Qle_bool_iff in X1, X2.
      specialize (Fi _ _ Nk X1). specialize (Lj _ _ Nk X2). lia.
    + intros Hk. destruct (nth_error l k) as [x|] eqn:Nk; [|apply nth_error_None in Nk; lia].
      exists x. split; [reflexivity|]. split.
      * apply Qle_trans with ei; [exact Pi|]. apply (INC i k); try assumption; lia.
      * apply Qle_trans with ej; [|exact Pj]. apply (INC k j); try assumption; lia.
  - destruct (argmin _) as [i|] eqn:A; [|discriminate]. intros H. injection H as <- <-.
    apply argmin_spec in A. destruct A as [v [N [A1 A2]]].
    rewrite nth_error_map in N. destruct (nth_error l i) as [x|] eqn:NX; [|discriminate].
    cbn in N. injection N as <-.
    assert (LI : i < length l) by (apply nth_error_Some; congruence).
    exists (Range i (i + 1)), i, 1. unfold chosen. rewrite Nat.min_l by lia.
    split; [reflexivity|]. split; [f_equal; lia|]. split; [reflexivity|]. split; [intros _; exact LI|].
    assert (W : wanted_one l e i).
    { exists x. split; [exact NX|]. split.
      - intros j y Nj. apply (A1 j). rewrite nth_error_map, Nj. reflexivity.
      - intros j y Hj Nj. apply (A2 j); [exact Hj|]. rewrite nth_error_map, Nj. reflexivity. }
    intros k. cbn [wanted]. split.
    + intros [y [Nk [K1 K2]]]. destruct W as [x' [NX' [W1 W2]]]. rewrite NX in NX'. injection NX' as <-.
      destruct (Nat.lt_trichotomy k i) as [H|[H|H]]; [|lia|].
      * specialize (W2 _ _ H Nk). specialize (K1 _ _ NX). exfalso. apply (Qlt_irrefl (Qabs (x - e))).
        apply Qlt_le_trans with (Qabs (y - e)); assumption.
      * specialize (K2 _ _ H NX). specialize (W1 _ _ Nk). exfalso. apply (Qlt_irrefl (Qabs (x - e))).
        apply Qle_lt_trans with (Qabs (y - e)); assumption.
    + intros Hk. assert (k = i) by lia. subst k. exact W.
Qed.

Lemma selection_fails npx l a : get_data_shape_slices npx l a = None <->
  match a with
  | NoEnergy => False
  | EnergyRange lo hi => (forall i e, nth_error l i = Some e -> (e < lo)%Q) \/ (forall i e, nth_error l i = Some e -> (hi < e)%Q)
  | OneEnergy _ => l = []
  end.
Proof.
  destruct a as [|lo hi|e]; cbn [get_data_shape_slices].
  - split; [discriminate|tauto].
  - assert (A : forall p, argwhere p l = [] <-> forall i e, nth_error l i = Some e -> p e = false) by (intros; apply argwhere_empty).
    assert (F1 : (forall i e, nth_error l i = Some e -> Qle_bool lo e = false) <-> (forall i e, nth_error l i = Some e -> (e < lo)%Q)).
    { split; intros H i e N; specialize (H i e N).
      - apply Qnot_le_lt. intros C. apply Qle_bool_iff in C. congruence.
      - destruct (Qle_bool lo e) eqn:C; [|reflexivity]. apply Qle_bool_iff in C.
        exfalso. apply (Qlt_irrefl e). apply Qlt_le_trans with lo; assumption. }
    assert (F2 : (forall i e, nth_error l i = Some e -> Qle_bool e hi = false) <-> (forall i e, nth_error l i = Some e -> (hi < e)%Q)).
    { split; intros H i e N; specialize (H i e N).
      - apply Qnot_le_lt. intros C. apply Qle_bool_iff in C. congruence.
      - destruct (Qle_bool e hi) eqn:C; [|reflexivity]. apply Qle_bool_iff in C.
        exfalso. apply (Qlt_irrefl e). apply Qle_lt_trans with hi; assumption. }
    rewrite <- F1, <- F2, <- !A.
    destruct (argwhere (fun e => Qle_bool lo e) l) as [|i r]; [tauto|].
    destruct (argwhere (fun e => Qle_bool e hi) l) as [|j r'] eqn:B; cbn [rev]; [tauto|].
    destruct (rev r' ++ [j]) eqn:R; [apply app_eq_nil in R; destruct R; discriminate|].
    split; [discriminate|intros [H|H]; discriminate].
  - destruct l; cbn; split; congruence.
Qed.

(** ** Labels *)

Lemma evenly_spaced_from l step i k a b : evenly_spaced l step ->
  nth_error l i = Some a -> nth_error l (i + k) = Some b -> (b == a + inject_Z (Z.of_nat k) * step)%Q.
Proof.
  intros EV. revert b. induction k as [|k IH]; intros b Na Nb.
  - rewrite Nat.add_0_r in Nb. rewrite Na in Nb. injection Nb as <-. cbn. ring.
  - destruct (nth_error l (i + k)) as [c|] eqn:Nc.
    + specialize (IH c Na eq_refl). replace (i + S k) with (S (i + k)) in Nb by lia.
      rewrite (EV _ _ _ Nc Nb), IH. rewrite Nat2Z.inj_succ, <- Z.add_1_r, inject_Z_plus. ring.
    + apply nth_error_None in Nc. assert (i + S k < length l) by (apply nth_error_Some; congruence). lia.
Qed.

Lemma minus_half_odd npx : minus_half (npx * 2 + 1) = (- Z.of_nat npx - 1)%Z.
Proof. unfold minus_half. rewrite Nat2Z.inj_add, Nat2Z.inj_mul. cbn [Z.of_nat]. Z.to_euclidean_division_equations. lia. Qed.
