(** Dictionary indexing with scores which are not numbers: property C109. *)
From Coq Require Import List ZArith Reals Lia Lra.
From Verif Require Import Model.DictIndex Model.DictUnscored Proofs.DictUnscoredProofs.
Import ListNotations.
Open Scope Z_scope.

(** ** Which scores are not numbers *)

(** The normalised cross-correlation of two patterns is not a number exactly when all
    pixels of one of them are equal. *)
Theorem C109_which_scores_are_missing : forall e d : list R,
  score e d = None <->
  (forall x y, In x e -> In y e -> x = y) \/ (forall x y, In x d -> In y d -> x = y).
Proof. exact score_None. Qed.
Print Assumptions C109_which_scores_are_missing.

Example C109_missing_case : score [1; 2; 4]%R [3; 3; 3]%R = None /\ score [1; 2]%R [5; 3]%R <> None.
Proof.
  split.
  - apply C109_which_scores_are_missing. right. cbn. intros. intuition lra.
  - intros H. apply C109_which_scores_are_missing in H as [H|H].
    + specialize (H 1%R 2%R). cbn in H. intuition lra.
    + specialize (H 5%R 3%R). cbn in H. intuition lra.
Qed.

(** ** All scores are numbers *)

(** Then the result is that of C01 to C03. *)
Theorem C109_all_numbers :
  forall one sgn (scores : list Z) keep_n n_per (res : list (nat * option Z)),
    match_row one sgn (map Some scores) keep_n n_per res <->
    exists res', res = map (fun e => (fst e, Some (snd e))) res' /\
      index_row one sgn scores keep_n n_per res'.
Proof. exact match_row_up. Qed.
Print Assumptions C109_all_numbers.

(** There always is an outcome. *)
Theorem C109_outcome_exists : forall one sgn row keep_n n_per,
  exists res, match_row one sgn row keep_n n_per res.
Proof. intros. eexists. apply match_row_fun_ok. Qed.

(** ** The dictionary in one pass *)

(** How many dictionary entries have no score. *)
Definition n_unscored (row : list (option Z)) : nat :=
  length (filter (fun s => match s with None => true | Some _ => false end) row).

(** Entries without a score take the first places, as many as there are; the remaining
    places go to the entries with the largest scores. *)
Theorem C109_one_pass :
  forall one sgn (row : list (option Z)) keep_n res,
    match_row one sgn row keep_n (length row) res ->
    length res = Nat.min keep_n (length row) /\ NoDup (map fst res) /\
    (forall i s, In (i, s) res -> nth_error row i = Some s) /\
    (forall p i s, nth_error res p = Some (i, s) -> (p < n_unscored row)%nat <-> s = None) /\
    (forall i v j w, In (i, Some v) res -> nth_error row j = Some (Some w) ->
       ~ In (j, Some w) res -> w <= v) /\
    (forall p q i v j w, (p < q)%nat -> nth_error res p = Some (i, Some v) ->
       nth_error res q = Some (j, Some w) -> w <= v).
Proof.
  intros one sgn row keep_n res H. unfold match_row in H. rewrite Nat.eqb_refl in H.
  destruct (one_pass _ _ _ H) as (L & Rest). split; [lia|exact Rest].
Qed.
Print Assumptions C109_one_pass.

(** So an entry that cannot be scored is never outdone: if there is one, the best match
    of every pattern is such an entry, whatever the scores of the others. *)
Theorem C109_unscored_entry_is_best_refuted :
  forall one sgn (row : list (option Z)) keep_n res j,
    nth_error row j = Some None -> (1 <= keep_n)%nat ->
    match_row one sgn row keep_n (length row) res ->
    exists i, hd_error res = Some (i, None) /\ nth_error row i = Some None.
Proof.
  intros one sgn row keep_n res j Hj Hk H.
  apply C109_one_pass in H as (L & _ & Hin & Hp & _).
  assert (0 < length row)%nat by (destruct row; [destruct j; discriminate|cbn; lia]).
  destruct res as [|[i s] res]; [cbn in L; lia|].
  assert (E : s = None).
  { apply (Hp 0%nat i s eq_refl). unfold n_unscored. apply nth_error_In in Hj.
    destruct (filter _ row) eqn:Ef; [|cbn; lia].
    assert (In None []) by (rewrite <- Ef; now apply filter_In). contradiction. }
  subst s. exists i. split; [reflexivity|]. apply Hin. now left.
Qed.
Print Assumptions C109_unscored_entry_is_best_refuted.

Example C109_one_pass_case :
  match_row_fun 100 1 [Some 70; Some 95; None; Some 90] 3 4
  = [(2%nat, None); (1%nat, Some 95); (3%nat, Some 90)].
Proof. reflexivity. Qed.

(** ** The dictionary in batches *)

(** Every reported score is a number, and every reported match is a dictionary entry
    with its score, or entry 0 with the made-up score -1 (1 for a metric where smaller
    is better). *)
Theorem C109_batches_report_numbers :
  forall one sgn (row : list (option Z)) keep_n n_per res,
    n_per <> length row ->
    match_row one sgn row keep_n n_per res ->
    length res = Nat.min keep_n (length row) /\
    (forall i s, In (i, s) res ->
       exists v, s = Some v /\
         ((i = 0%nat /\ v = - sgn * one) \/ nth_error row i = Some (Some v))).
Proof.
  intros one sgn row keep_n n_per res Hn H. unfold match_row in H.
  destruct (Nat.eqb_spec (length row) n_per); [congruence|].
  destruct (kept_parts _ _ _ _ _ _ _ (kept_start one sgn row _) H) as (L & Sc & Or).
  split; [exact L|]. intros i s Hi. specialize (Sc _ Hi). specialize (Or _ Hi).
  unfold scored in Sc. cbn in *. destruct s as [v|]; [|discriminate].
  exists v. split; [reflexivity|]. destruct Or as [Or|Or]; [left|now right].
  injection Or as -> ->. split; reflexivity.
Qed.
Print Assumptions C109_batches_report_numbers.

(** A pattern without any score (all its pixels are equal) is reported as matching
    dictionary entry 0, with the made-up score. *)
Theorem C109_flat_pattern_in_batches_refuted :
  forall one sgn (row : list (option Z)) keep_n n_per res,
    (forall s, In s row -> s = None) ->
    n_per <> length row ->
    match_row one sgn row keep_n n_per res ->
    res = repeat (0%nat, Some (- sgn * one)) (Nat.min keep_n (length row)).
Proof.
  intros one sgn row keep_n n_per res Hr Hn H. unfold match_row in H.
  destruct (Nat.eqb_spec (length row) n_per); [congruence|].
  apply useless_parts in H; [exact H|reflexivity|].
  intros start stop top _ T [i s] He. apply (First_incl _ _ _ _ T) in He.
  apply chunk_in in He as [_ He]. apply nth_error_In in He. now apply Hr.
Qed.
Print Assumptions C109_flat_pattern_in_batches_refuted.

(** When one match is kept, a batch with an entry without a score contributes nothing:
    none of its entries is reported, however good its score is (other than by entry 0
    having the made-up score). *)
Theorem C109_batch_with_unscored_is_skipped_refuted :
  forall one sgn (row : list (option Z)) n_per res i j s,
    (1 <= n_per)%nat -> n_per <> length row ->
    match_row one sgn row 1 n_per res ->
    (j / n_per = i / n_per)%nat -> nth_error row j = Some None ->
    In (i, s) res -> i = 0%nat /\ s = Some (- sgn * one).
Proof.
  intros one sgn row n_per res i j s Hp Hn H Hij Hj Hin. unfold match_row in H.
  destruct (Nat.eqb_spec (length row) n_per); [congruence|].
  assert (Hl : (0 < length row)%nat) by (destruct row; [destruct j; discriminate|cbn; lia]).
  replace (Nat.min 1 (length row)) with 1%nat in H by lia.
  assert (K := kept_start one sgn row 1).
  assert (G : forall e, In e res -> e = (0%nat, Some (- sgn * one)) \/
              forall j, (j / n_per = fst e / n_per)%nat -> nth_error row j <> Some None).
  { clear i j s Hij Hj Hin.
    assert (Hb : forall start stop, In (start, stop) (chunk_bounds (length row) n_per) ->
      exists c, start = (c * n_per)%nat /\ stop = ((c + 1) * n_per)%nat /\ (c * n_per < length row)%nat)
      by (intros; apply bounds_in; try lia; assumption).
    assert (A0 : forall e, In e (repeat (0%nat, Some (- sgn * one)) 1) ->
              e = (0%nat, Some (- sgn * one)) \/
              forall j, (j / n_per = fst e / n_per)%nat -> nth_error row j <> Some None).
    { intros e [<-|[]]. now left. }
    revert K Hb A0 H. generalize (repeat (0%nat, Some (- sgn * one)) 1) as acc.
    generalize (chunk_bounds (length row) n_per) as bs. intros bs acc K Hb A0 H.
    induction H as [|[start stop] bs acc acc' res St Re IH]; [exact A0|].
    apply IH; [eapply kept_step; eassumption|intros; apply Hb; now right|].
    intros [i s] He. pose proof (kept_step _ _ _ _ _ _ _ K St) as (_ & Sc & _).
    destruct St as (top & T & F).
    pose proof (First_incl _ _ _ _ F _ He) as Hi. apply in_app_or in Hi as [Hi|Hi]; [now apply A0|].
    right. intros j Hj Hno. cbn in Hj. apply shifted_in in Hi as [Hs Hi].
    destruct (Hb start stop (or_introl eq_refl)) as (c & -> & -> & Hc).
    destruct T as (r & P & _ & L & D).
    assert (Hi' : (c * n_per <= i < (c + 1) * n_per)%nat).
    { assert (Q : In ((i - c * n_per)%nat, s) (chunk_scores row (c * n_per) ((c + 1) * n_per))).
      { apply (Permutation.Permutation_in _ (Permutation.Permutation_sym P)). apply in_or_app. now left. }
      apply chunk_in in Q as [Q _]. lia. }
    assert (Ec : (i / n_per = c)%nat).
    { symmetry. apply (Nat.div_unique i n_per c (i - c * n_per)); nia. }
    rewrite Ec in Hj.
    assert (Hj' : (c * n_per <= j < (c + 1) * n_per)%nat).
    { pose proof (Nat.div_mod j n_per ltac:(lia)) as Dj. rewrite Hj in Dj.
      pose proof (Nat.mod_upper_bound j n_per ltac:(lia)). nia. }
    assert (Hc' : In ((j - c * n_per)%nat, None) (chunk_scores row (c * n_per) ((c + 1) * n_per))).
    { apply chunk_in. split; [lia|]. now replace (c * n_per + (j - c * n_per))%nat with j by lia. }
    assert (Es : s = None).
    { apply (Permutation.Permutation_in _ P) in Hc'. apply in_app_or in Hc' as [Hc'|Hc'].
      - destruct top as [|a [|b top]]; [contradiction| |cbn [length] in L; lia].
        destruct Hc' as [->|[]]. destruct Hi as [Hi|[]]. congruence.
      - specialize (D _ _ Hi Hc'). unfold before_topk in D. cbn in D.
        destruct s; [contradiction|reflexivity]. }
    subst s. now specialize (Sc _ He). }
  destruct (G _ Hin) as [E|E].
  - injection E as -> ->. split; reflexivity.
  - exfalso. exact (E j Hij Hj).
Qed.
Print Assumptions C109_batch_with_unscored_is_skipped_refuted.

(** If there is such an entry in every batch, no pattern is matched at all. *)
Theorem C109_all_matches_lost_refuted :
  forall one sgn (row : list (option Z)) n_per res,
    row <> [] -> (1 <= n_per)%nat -> n_per <> length row ->
    (forall batch, (batch * n_per < length row)%nat ->
       exists i, (i / n_per = batch)%nat /\ nth_error row i = Some None) ->
    match_row one sgn row 1 n_per res ->
    res = [(0%nat, Some (- sgn * one))].
Proof.
  intros one sgn row n_per res Hr Hp Hn Hb H.
  destruct (C109_batches_report_numbers _ _ _ _ _ _ Hn H) as (L & Hin).
  assert (Hl : (0 < length row)%nat) by (destruct row; [congruence|cbn; lia]).
  destruct res as [|[i s] [|b res]]; cbn [length] in L; try lia.
  destruct (Hin i s (or_introl eq_refl)) as (v & -> & [[-> ->]|Hi]); [reflexivity|].
  assert (Hli : (i < length row)%nat) by (apply nth_error_Some; congruence).
  destruct (Hb (i / n_per)%nat) as (j & Hj & Hno).
  { pose proof (Nat.mul_div_le i n_per ltac:(lia)). lia. }
  destruct (C109_batch_with_unscored_is_skipped_refuted _ _ _ _ _ i j _ Hp Hn H Hj Hno
              (or_introl eq_refl)) as [-> E]. injection E as ->. reflexivity.
Qed.
Print Assumptions C109_all_matches_lost_refuted.

Example C109_all_lost_case :
  match_row_fun 100 1 [Some 99; None; None; Some 98; None] 1 2 = [(0%nat, Some (-100))] /\
  forall batch, (batch * 2 < 5)%nat ->
    exists i, (i / 2 = batch)%nat /\ nth_error [Some 99; None; None; Some 98; None] i = Some None.
Proof.
  split; [reflexivity|]. intros [|[|[|b]]] H; [exists 1%nat|exists 2%nat|exists 4%nat|lia]; split; reflexivity.
Qed.

(** An entry is never wrongly left out if all entries of its batch have scores. *)
Theorem C109_clean_batches_are_searched :
  forall one (row : list (option Z)) keep_n n_per res i v,
    (1 <= n_per)%nat -> n_per <> length row ->
    nth_error row i = Some (Some v) ->
    (forall j, (j / n_per = i / n_per)%nat -> nth_error row j <> Some None) ->
    match_row one 1 row keep_n n_per res ->
    In (i, Some v) res \/ forall k s, In (k, s) res -> exists w, s = Some w /\ v <= w.
Proof.
  intros one row keep_n n_per res i v Hp Hn Hi Hb H. unfold match_row in H.
  destruct (Nat.eqb_spec (length row) n_per); [congruence|].
  assert (Hl : (i < length row)%nat) by (apply nth_error_Some; congruence).
  destruct (bounds_split (length row) n_per i ltac:(lia) Hl) as (b1 & b2 & Eb).
  rewrite Eb in H. apply parts_app in H as (mid & H1 & H2).
  pose proof (kept_parts _ _ _ _ _ _ _ (kept_start one 1 row _) H1) as K.
  inversion H2 as [|? ? ? acc' ? St Re]; subst.
  pose proof (Nat.div_mod i n_per ltac:(lia)) as Ei.
  pose proof (Nat.mod_upper_bound i n_per ltac:(lia)) as Ui.
  assert (Se : settled i v acc').
  { eapply settled_chunk; [| |  |exact St].
    - nia.
    - exact Hi.
    - intros j Hj. apply Hb. symmetry. apply (Nat.div_unique j n_per (i / n_per) (j - i / n_per * n_per)); nia. }
  destruct (settled_parts _ _ _ _ _ _ _ _ (kept_step _ _ _ _ _ _ _ K St) Se Re) as [G|G];
    [now left|right].
  intros k s Hk. specialize (G _ Hk). unfold at_least in G. cbn in G.
  destruct s as [w|]; [|discriminate]. exists w. split; [reflexivity|now apply Z.leb_le].
Qed.
Print Assumptions C109_clean_batches_are_searched.

Example C109_clean_case :
  match_row_fun 100 1 [Some 50; Some 60; Some 99; None; Some 40; Some 70] 2 2
  = [(2%nat, Some 99); (5%nat, Some 70)] /\
  match_row_fun 100 1 [Some 50; Some 60; Some 99; None; Some 40; Some 70] 1 2
  = [(5%nat, Some 70)] /\
  (forall j, (j / 2 = 5 / 2)%nat ->
     nth_error [Some 50; Some 60; Some 99; None; Some 40; Some 70] j <> Some None).
Proof.
  split; [reflexivity|]. split; [reflexivity|].
  intros [|[|[|[|[|[|j]]]]]] H; try discriminate. cbn [nth_error]. now destruct j.
Qed.

(** So the best match and its score depend on the batch size, and neither need be the
    best one: here entry 0 scores highest. *)
Theorem C109_batch_size_matters_refuted :
  exists one (row : list (option Z)),
    (forall s v, In s row -> s = Some v -> - one < v <= one) /\
    nth_error row 0 = Some (Some 90) /\
    (forall i v, nth_error row i = Some (Some v) -> v <= 90) /\
    (forall res, match_row one 1 row 1 4 res -> res = [(1%nat, None)]) /\
    (forall res, match_row one 1 row 1 2 res -> res = [(3%nat, Some 30)]) /\
    (exists res, match_row one 1 row 1 4 res) /\ (exists res, match_row one 1 row 1 2 res).
Proof.
  exists 100, [Some 90; None; Some 10; Some 30].
  split; [|split; [|split; [|split; [|split; [|split]]]]].
  - cbn. intros s v [<-|[<-|[<-|[<-|[]]]]] E; try discriminate; injection E as <-; lia.
  - reflexivity.
  - intros [|[|[|[|[|i]]]]] v E; cbn in E; try discriminate; injection E as <-; lia.
  - intros res H. pose proof (C109_one_pass _ _ _ _ _ H) as (L & _ & Hin & _).
    destruct (C109_unscored_entry_is_best_refuted 100 1 [Some 90; None; Some 10; Some 30] 1 res
                1%nat eq_refl (le_n _) H) as (i & Hd & Hi).
    destruct res as [|a [|b res]]; cbn in L, Hd; try discriminate. injection Hd as ->.
    destruct i as [|[|[|[|[|i]]]]]; cbn in Hi; try discriminate. reflexivity.
  - intros res H.
    destruct (C109_batches_report_numbers 100 1 [Some 90; None; Some 10; Some 30] 1 2 res
                ltac:(cbn; lia) H) as (L & Hin).
    destruct res as [|[i s] [|b res]]; cbn in L; try discriminate.
    assert (Cl : forall j, (j / 2 = 3 / 2)%nat ->
              nth_error [Some 90; None; Some 10; Some 30] j <> Some None).
    { intros [|[|[|[|[|j]]]]] E; discriminate. }
    destruct (C109_clean_batches_are_searched 100 [Some 90; None; Some 10; Some 30] 1 2
                [(i, s)] 3 30 ltac:(lia) ltac:(cbn; lia) eq_refl Cl H) as [G|G].
    + destruct G as [G|[]]. injection G as -> ->. reflexivity.
    + destruct (G i s (or_introl eq_refl)) as (w & -> & Hw).
      destruct (Hin i (Some w) (or_introl eq_refl)) as (v & E & Hv). injection E as <-.
      destruct Hv as [[_ Hv]|Hv]; [lia|].
      destruct i as [|[|[|[|[|i]]]]]; cbn in Hv; try discriminate; injection Hv as <-; try lia.
      * destruct (C109_batch_with_unscored_is_skipped_refuted 100 1
                    [Some 90; None; Some 10; Some 30] 2%nat _ 0%nat 1%nat _
                    ltac:(lia) ltac:(cbn; lia) H eq_refl eq_refl (or_introl eq_refl)) as [_ E].
        discriminate.
      * reflexivity.
  - eexists. apply match_row_fun_ok.
  - eexists. apply match_row_fun_ok.
Qed.
Print Assumptions C109_batch_size_matters_refuted.
