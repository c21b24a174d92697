(** Dictionary indexing: properties C01, C02, C03. *)
From Coq Require Import List ZArith Lia.
From Verif Require Import Spec.BestMatches Model.DictIndex Proofs.DictIndexProofs.
Import ListNotations.
Open Scope Z_scope.

(** C01. [rows] is the table of similarities (one row per experimental pattern, one
    column per dictionary entry). Whatever the batch size and however ties are broken,
    each pattern gets its best matches. *)
Theorem C01_dictionary_indexing_best_matches :
  forall (one : Z) (rows : list (list Z)) (keep_n n_per : nat) (results : list (list entry)),
    (forall row, In row rows -> row <> [] /\ forall s, In s row -> - one < s) ->
    (1 <= n_per)%nat ->
    index_all one 1 rows keep_n n_per results ->
    length results = length rows /\
    forall p row res, nth_error rows p = Some row -> nth_error results p = Some res ->
      best_matches 1 (fun i => nth i row 0) (length row) keep_n res.
Proof.
  intros one rows keep_n n_per results Hrows Hn H. unfold index_all in H.
  induction H as [|row r rows results Hr HF IH].
  - split; [reflexivity|]. intros p row res Hp. destruct p; discriminate.
  - destruct IH as [IHl IH].
    { intros row' Hin. apply Hrows. right; exact Hin. }
    split; [simpl; f_equal; exact IHl|].
    intros p row' res Hp Hq. destruct p as [|p]; simpl in Hp, Hq.
    + injection Hp as <-. injection Hq as <-.
      destruct (Hrows row (or_introl eq_refl)) as [Hne Hs].
      eapply index_row_correct; eassumption.
    + eapply IH; eassumption.
Qed.
Print Assumptions C01_dictionary_indexing_best_matches.

(** C01, second half: scores do not depend on the batch size. *)
Theorem C01_scores_independent_of_batch_size :
  forall (one : Z) (row : list Z) (keep_n n_per n_per' : nat) (res res' : list entry),
    row <> [] -> (forall s, In s row -> - one < s) ->
    (1 <= n_per)%nat -> (1 <= n_per')%nat ->
    index_row one 1 row keep_n n_per res ->
    index_row one 1 row keep_n n_per' res' ->
    map snd res = map snd res'.
Proof.
  intros one row keep_n n_per n_per' res res' Hne Hs Hn Hn' H H'.
  apply (best_matches_scores_unique (fun i => nth i row 0) (length row) keep_n).
  - exact (index_row_correct one row keep_n n_per res Hne Hn Hs H).
  - exact (index_row_correct one row keep_n n_per' res' Hne Hn' Hs H').
Qed.
Print Assumptions C01_scores_independent_of_batch_size.

(** There always is an outcome (the relation is not empty). *)
Theorem C01_outcome_exists :
  forall one sgn row keep_n n_per, exists res, index_row one sgn row keep_n n_per res.
Proof. intros. eexists. apply index_row_fun_ok. Qed.

Example C01_case :
  index_row_fun 100 1 [70; 10; 90; 30; 90; -20; 60] 4 3 = [(2%nat, 90); (4%nat, 90); (0%nat, 70); (6%nat, 60)].
Proof. vm_compute. reflexivity. Qed.
Example C01_case_hypotheses :
  [70; 10; 90; 30; 90; -20; 60] <> [] /\ forall s, In s [70; 10; 90; 30; 90; -20; 60] -> - (100) < s.
Proof. split; [discriminate|]. simpl. intuition lia. Qed.

(** Without the lower bound on the scores the claim fails: a metric which can score at
    or below -1 (a "larger is better" one) leaves the placeholder, dictionary entry 0
    with the made-up score -1, in the result. *)
Theorem C01_scores_below_placeholder_refuted :
  exists one row keep_n n_per res,
    row <> [] /\ (1 <= n_per)%nat /\ index_row one 1 row keep_n n_per res /\
    ~ best_matches 1 (fun i => nth i row 0) (length row) keep_n res.
Proof.
  exists 1, [-5; -3], 1%nat, 1%nat, [(0%nat, -1)].
  split; [discriminate|]. split; [lia|]. split.
  - exact (index_row_fun_ok 1 1 [-5; -3] 1 1).
  - intros (_ & _ & H & _). destruct (H 0%nat (-1) (or_introl eq_refl)) as [_ E]. simpl in E. lia.
Qed.

(** C02 is false. In one pass, for every dictionary whose scores are not all equal, the
    result is never the best matches of a "smaller is better" metric: the sign is not
    used when choosing the matches. *)
Theorem C02_smaller_is_better_refuted :
  forall (one : Z) (row : list Z) (keep_n : nat) (res : list entry) (i j : nat),
    (1 <= keep_n)%nat -> (i < length row)%nat -> (j < length row)%nat ->
    nth i row 0 <> nth j row 0 ->
    index_row one (-1) row keep_n (length row) res ->
    ~ best_matches (-1) (fun i => nth i row 0) (length row) keep_n res.
Proof.
  intros one row keep_n res i j Hk Hi Hj Hne H HB.
  apply single_pass_largest in H. apply Hne.
  exact (both_signs_constant _ _ _ _ Hk H HB i j Hi Hj).
Qed.
Print Assumptions C02_smaller_is_better_refuted.

(** What one pass returns instead, whatever the sign: the largest scores. *)
Theorem C02_single_pass_returns_largest :
  forall one sgn row keep_n res,
    index_row one sgn row keep_n (length row) res ->
    best_matches 1 (fun i => nth i row 0) (length row) keep_n res.
Proof. exact single_pass_largest. Qed.

(** The result even depends on the batch size. *)
Theorem C02_depends_on_batch_size_refuted :
  exists one row keep_n res res',
    index_row one (-1) row keep_n (length row) res /\
    index_row one (-1) row keep_n 1 res' /\ map snd res <> map snd res'.
Proof.
  exists 100, [5; 1; 3], 1%nat, [(0%nat, 5)], [(1%nat, 1)].
  split; [exact (index_row_fun_ok 100 (-1) [5; 1; 3] 1 3)|].
  split; [exact (index_row_fun_ok 100 (-1) [5; 1; 3] 1 1)|]. discriminate.
Qed.

(** C03. [f p] is the result of pattern [p]; the mask is True where a point is left out.
    The first component says whether the point is in the data. *)
Theorem C03_navigation_mask_selects_points :
  forall (P A : Type) (f : P -> A) (fill : A) (mask : list bool) (patterns : list P),
    length mask = length patterns ->
    exists out, index_masked f fill mask patterns = Some out /\
      length out = length patterns /\
      forall i m p, nth_error mask i = Some m -> nth_error patterns i = Some p ->
        nth_error out i = Some (negb m, if m then fill else f p).
Proof. intros. apply index_masked_spec. assumption. Qed.
Print Assumptions C03_navigation_mask_selects_points.

(** C03, as the comparison with a run without a mask. *)
Theorem C03_masked_run_agrees_with_unmasked :
  forall (P A : Type) (f : P -> A) (fill : A) (mask : list bool) (patterns : list P) out full,
    length mask = length patterns ->
    index_masked f fill mask patterns = Some out ->
    index_masked f fill (map (fun _ => false) mask) patterns = Some full ->
    forall i, nth_error mask i = Some false -> nth_error out i = nth_error full i.
Proof.
  intros P A f fill mask patterns out full HL H1 H2 i Hi.
  destruct (index_masked_spec f fill mask patterns HL) as (o1 & E1 & _ & S1).
  destruct (index_masked_spec f fill (map (fun _ => false) mask) patterns) as (o2 & E2 & _ & S2).
  { rewrite map_length. exact HL. }
  rewrite H1 in E1. injection E1 as ->. rewrite H2 in E2. injection E2 as ->.
  assert (Hi' : (i < length patterns)%nat).
  { rewrite <- HL. apply nth_error_Some. congruence. }
  destruct (nth_error patterns i) as [p|] eqn:Ep; [|apply nth_error_None in Ep; lia].
  rewrite (S1 i false p Hi Ep).
  rewrite (S2 i false p); [reflexivity| |exact Ep].
  rewrite nth_error_map, Hi. reflexivity.
Qed.

Example C03_case :
  index_masked (fun x => x * 10) 0 [true; false; true; false] [1; 2; 3; 4]
  = Some [(false, 0); (true, 20); (false, 0); (true, 40)].
Proof. reflexivity. Qed.
