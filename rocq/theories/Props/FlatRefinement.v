(** Refinement of patterns without contrast: property C113. *)
From Coq Require Import List Arith ZArith QArith Reals Lra Lia Bool.
From Verif Require Import Spec.Correlation Model.Pattern Model.Similarity Model.FlatPatterns Model.FlatRefinement.
From Verif Require Import Proofs.PatternProofs Proofs.SimilarityProofs Props.Similarity.
From Verif Require Model.MergeUnscored Props.MergeUnscored.
Import ListNotations.
Local Open Scope R_scope.

(** ** Specification *)

(** All pixels of a pattern are equal. *)
Definition flat (p : list R) : Prop := forall x y, In x p -> In y p -> x = y.
(** The optimiser reports the value of the objective at the parameters it returns, nothing else is assumed of it. *)
Definition honest {X} (minimise : (X -> option R) -> X -> option R * X) : Prop :=
  forall f x, fst (minimise f x) = f (snd (minimise f x)).

(** ** Lemmas *)

Lemma all_numbers_map l : all_numbers (map Some l) = Some l.
Proof. induction l as [|x l IH]; [reflexivity|]. cbn. now rewrite IH. Qed.
Lemma flat_dec p : {flat p} + {~ flat p}.
Proof.
  destruct (Req_EM_T (vmax p - vmin p) 0) as [E|E].
  - left. intros x y Hx Hy. pose proof (vmin_le p x Hx). pose proof (vmax_ge p x Hx).
    pose proof (vmin_le p y Hy). pose proof (vmax_ge p y Hy). lra.
  - right. intros F. apply E. destruct p as [|x p]; [cbn; lra|].
    rewrite (F (vmax (x :: p)) (vmin (x :: p))); [lra|apply vmax_in|apply vmin_in]; discriminate.
Qed.
Lemma flat_limits p : ~ flat p -> vmax p - vmin p <> 0.
Proof.
  intros F E. apply F. intros x y Hx Hy. pose proof (vmin_le p x Hx). pose proof (vmax_ge p x Hx).
  pose proof (vmin_le p y Hy). pose proof (vmax_ge p y Hy). lra.
Qed.
Lemma prepared_same rescale p : ~ flat p -> prepared_pattern rescale p = Some (prepare_pattern rescale p).
Proof.
  intros F. unfold prepared_pattern, prepare_pattern. destruct rescale; [|reflexivity].
  replace (rescaled (vmin p) (vmax p) (-1) 1 p) with (map Some (rescale_without_min_max p)).
  - rewrite all_numbers_map. reflexivity.
  - unfold rescaled, rescale_without_min_max, rescale_with_min_max, divided. rewrite map_map. apply map_ext.
    intros x. destruct (Req_EM_T (vmax p - vmin p) 0) as [E|E]; [now apply flat_limits in E|reflexivity].
Qed.
Lemma prepared_flat rescale p : flat p ->
  match prepared_pattern rescale p with None => True | Some (_, n) => n = 0 end.
Proof.
  intros F. unfold prepared_pattern. destruct rescale.
  - destruct p as [|x p]; [reflexivity|].
    assert (E : vmax (x :: p) - vmin (x :: p) = 0).
    { rewrite (F (vmax (x :: p)) (vmin (x :: p))); [lra|apply vmax_in|apply vmin_in]; discriminate. }
    unfold rescaled, divided. rewrite E. cbn [map]. destruct (Req_EM_T 0 0) as [_|N]; [|lra].
    cbn. exact I.
  - cbn. now apply zero_mean_constant.
Qed.
Lemma prepared_norm rescale p : ~ flat p -> 0 < snd (prepare_pattern rescale p).
Proof.
  intros F. unfold prepare_pattern. destruct rescale; cbn [snd]; apply zero_mean_pos; [|exact F].
  pose proof (flat_limits p F) as L.
  intros C. apply F. intros x y Hx Hy.
  assert (E : (x - vmin p) / (vmax p - vmin p) * (1 - -1) + -1 = (y - vmin p) / (vmax p - vmin p) * (1 - -1) + -1).
  { apply C; unfold rescale_without_min_max, rescale_with_min_max;
      apply (in_map (fun x => (x - vmin p) / (vmax p - vmin p) * (1 - -1) + -1)); assumption. }
  assert (E' : (x - vmin p) / (vmax p - vmin p) = (y - vmin p) / (vmax p - vmin p)) by lra.
  apply (f_equal (fun z => z * (vmax p - vmin p))) in E'. unfold Rdiv in E'.
  rewrite !Rmult_assoc, !Rinv_l, !Rmult_1_r in E' by exact L. lra.
Qed.

(** The objective has a value exactly if both patterns have contrast; then it is that of C07. *)
Lemma value_iff {X} (simulate : X -> pattern) rescale p x :
  objective_value simulate (prepared_pattern rescale p) x
  = if flat_dec p then None else if flat_dec (simulate x) then None else Some (objective rescale p (simulate x)).
Proof.
  destruct (flat_dec p) as [F|F].
  - pose proof (prepared_flat rescale p F) as H. unfold objective_value.
    destruct (prepared_pattern rescale p) as [[e n]|]; [|reflexivity]. subst n.
    unfold scored, divided. rewrite Rmult_0_l, sqrt_0. now destruct (Req_EM_T 0 0).
  - rewrite (prepared_same _ _ F). pose proof (prepared_norm rescale p F) as N. unfold objective_value, objective.
    destruct (prepare_pattern rescale p) as [e n]. cbn [snd] in N. unfold scored, divided.
    destruct (flat_dec (simulate x)) as [G|G].
    + rewrite (zero_mean_constant _ G), Rmult_0_r, sqrt_0. now destruct (Req_EM_T 0 0).
    + pose proof (zero_mean_pos _ G) as P. pose proof (Rmult_lt_0_compat _ _ N P) as Q. apply sqrt_lt_R0 in Q.
      destruct (Req_EM_T _ 0) as [E|E]; [lra|]. reflexivity.
Qed.

(** ** One pattern *)

(** A refined point has no score exactly if its pattern is flat or the pattern simulated for the refined parameters is.
    Otherwise the score is the correlation of both. *)
Theorem C113_score_iff : forall X (minimise : (X -> option R) -> X -> option R * X) rescale simulate p start score x,
  honest minimise -> solved minimise rescale simulate p start = (score, x) ->
  (score = None <-> flat p \/ flat (simulate x)) /\
  (length p = length (simulate x) -> forall v, score = Some v -> v = pearson (length p) (px p) (px (simulate x)) /\ -1 <= v <= 1).
Proof.
  intros X minimise rescale simulate p start score x H E. unfold solved in E.
  specialize (H (objective_value simulate (prepared_pattern rescale p)) start).
  destruct (minimise _ start) as [v y]. cbn [fst snd] in H. injection E as <- <-. rewrite value_iff in H. subst v.
  destruct (flat_dec p) as [F|F]; [split; [split; auto|intros _ v A; discriminate]|].
  destruct (flat_dec (simulate y)) as [G|G]; [split; [split; auto|intros _ v A; discriminate]|].
  split.
  - split; [discriminate|]. intros [A|A]; contradiction.
  - intros L v A. cbn [option_map] in A. injection A as <-.
    destruct (C07_objective_is_one_minus_pearson_and_bounded rescale p (simulate y) L F G) as [A B].
    rewrite A in *. split; lra.
Qed.
Print Assumptions C113_score_iff.

(** So a flat pattern never gets a score, whatever is simulated, whatever the optimiser does and wherever it starts. *)
Theorem C113_flat_pattern_refuted : forall X (minimise : (X -> option R) -> X -> option R * X) rescale simulate p start,
  honest minimise -> flat p -> fst (solved minimise rescale simulate p start) = None.
Proof.
  intros X minimise rescale simulate p start H F.
  destruct (solved minimise rescale simulate p start) as [s x] eqn:E.
  apply (C113_score_iff _ _ _ _ _ _ _ _ H E). now left.
Qed.
Print Assumptions C113_flat_pattern_refuted.

(** The objective is then the same at all parameters, so nothing is refined: an optimiser that moves only to parameters
    where the objective is a number returns the start. *)
Theorem C113_flat_pattern_keeps_start : forall X (minimise : (X -> option R) -> X -> option R * X) rescale simulate p start,
  flat p ->
  (forall f x, snd (minimise f x) = x \/ exists v, f (snd (minimise f x)) = Some v) ->
  snd (solved minimise rescale simulate p start) = start.
Proof.
  intros X minimise rescale simulate p start F H. unfold solved.
  destruct (H (objective_value simulate (prepared_pattern rescale p)) start) as [A|[v A]].
  - destruct (minimise _ start). exact A.
  - rewrite value_iff in A. destruct (flat_dec p); [discriminate|contradiction].
Qed.
Print Assumptions C113_flat_pattern_keeps_start.

(** ** Pseudo-symmetry variants *)

Lemma first_missing_spec l :
  match first_missing l with
  | Some i => nth_error l i = Some None /\ forall j, (j < i)%nat -> exists v, nth_error l j = Some (Some v)
  | None => exists r, l = map Some r
  end.
Proof.
  induction l as [|[v|] l IH]; cbn.
  - now exists [].
  - destruct (first_missing l) as [i|]; cbn.
    + destruct IH as [A B]. split; [exact A|]. intros [|j] Hj; [now exists v|apply B; lia].
    + destruct IH as [r ->]. now exists (v :: r).
  - split; [reflexivity|]. intros j Hj. lia.
Qed.
Lemma first_greatest_spec l : forall front best value,
  nth_error (front ++ l) best = Some value -> (best < length front)%nat ->
  (forall j w, nth_error front j = Some w -> w <= value /\ ((j < best)%nat -> w < value)) ->
  let b := first_greatest l (length front) best value in
  exists v, nth_error (front ++ l) b = Some v /\
    forall j w, nth_error (front ++ l) j = Some w -> w <= v /\ ((j < b)%nat -> w < v).
Proof.
  induction l as [|x l IH]; intros front best value N L H; cbn.
  - rewrite app_nil_r in *. now exists value.
  - specialize (IH (front ++ [x])). rewrite <- app_assoc, app_length in IH. cbn in IH. rewrite Nat.add_1_r in IH.
    assert (Cases : forall j w, nth_error (front ++ [x]) j = Some w ->
        nth_error front j = Some w /\ (j < length front)%nat \/ j = length front /\ w = x).
    { intros j w Hj. destruct (Nat.lt_ge_cases j (length front)) as [Lt|Ge].
      - left. rewrite nth_error_app1 in Hj by lia. now split.
      - right. rewrite nth_error_app2 in Hj by lia.
        destruct (j - length front)%nat as [|k] eqn:K; cbn in Hj; [split; [lia|congruence]|destruct k; discriminate]. }
    destruct (Rlt_dec value x) as [Lt|Ge].
    + apply IH; [rewrite nth_error_app2, Nat.sub_diag by lia; reflexivity|lia|].
      intros j w Hj. destruct (Cases j w Hj) as [[A B]|[A B]].
      * destruct (H j w A). split; [lra|intros _; lra].
      * subst. split; [lra|lia].
    + apply IH; [exact N|lia|].
      intros j w Hj. destruct (Cases j w Hj) as [[A B]|[A B]]; [now apply H|].
      subst. split; [lra|lia].
Qed.
Lemma argmax_nan_spec l : l <> [] ->
  exists s, nth_error l (argmax_nan l) = Some s /\
    match s with
    | None => forall j, (j < argmax_nan l)%nat -> exists v, nth_error l j = Some (Some v)
    | Some v => forall j, (j < length l)%nat -> exists w, nth_error l j = Some (Some w) /\ w <= v /\ ((j < argmax_nan l)%nat -> w < v)
    end.
Proof.
  intros Hl. unfold argmax_nan. pose proof (first_missing_spec l) as H. destruct (first_missing l) as [i|].
  - destruct H as [A B]. exists None. now split.
  - destruct H as [r ->]. rewrite all_numbers_map. destruct r as [|x r]; [now contradict Hl|].
    destruct (first_greatest_spec r [x] 0 x) as (v & A & B); [reflexivity|cbn; lia| |].
    { intros [|[|j]] w; cbn; intros Hw; [injection Hw as <-; split; [lra|lia]|discriminate|discriminate]. }
    cbn [length] in A, B. change ([x] ++ r) with (x :: r) in A, B. exists (Some v). split.
    + rewrite nth_error_map. now rewrite A.
    + intros j Hj. rewrite map_length in Hj. destruct (nth_error (x :: r) j) as [w|] eqn:Ej.
      * exists w. rewrite nth_error_map, Ej. split; [reflexivity|]. now apply B.
      * apply nth_error_None in Ej. lia.
Qed.

(** With pseudo-symmetry variants, the first one with the highest score is returned if all variants get a score.
    Otherwise the first variant without a score is, whatever the scores of the others. *)
Theorem C113_chosen_variant : forall X (minimise : (X -> option R) -> X -> option R * X) rescale simulate p starts,
  honest minimise -> starts <> [] ->
  exists score x i, solved_variants minimise rescale simulate p starts = Some (score, x, i) /\
    (exists start, nth_error starts i = Some start /\ solved minimise rescale simulate p start = (score, x)) /\
    match score with
    | Some v => forall j start, nth_error starts j = Some start ->
        exists w, fst (solved minimise rescale simulate p start) = Some w /\ w <= v /\ ((j < i)%nat -> w < v)
    | None => (flat p \/ flat (simulate x)) /\
        forall j start, (j < i)%nat -> nth_error starts j = Some start ->
          fst (solved minimise rescale simulate p start) <> None
    end.
Proof.
  intros X minimise rescale simulate p starts H Hs. unfold solved_variants.
  set (results := map (solved minimise rescale simulate p) starts).
  destruct (argmax_nan_spec (map fst results)) as (s & A & B).
  { unfold results. rewrite map_map. destruct starts; [now contradict Hs|discriminate]. }
  set (i := argmax_nan (map fst results)) in *.
  rewrite nth_error_map in A. destruct (nth_error results i) as [[score x]|] eqn:R; [|discriminate].
  cbn in A. injection A as ->. exists s, x, i. split; [reflexivity|].
  unfold results in R. rewrite nth_error_map in R. destruct (nth_error starts i) as [start|] eqn:St; [|discriminate].
  cbn in R. injection R as R. split; [now exists start|].
  assert (At : forall j st, nth_error starts j = Some st ->
      nth_error (map fst results) j = Some (fst (solved minimise rescale simulate p st))).
  { intros j st Hj. unfold results. rewrite !nth_error_map, Hj. reflexivity. }
  destruct s as [v|].
  - intros j st Hj. pose proof (At j st Hj) as E.
    destruct (B j) as (w & Ew & Bw); [apply nth_error_Some; congruence|].
    exists w. rewrite E in Ew. injection Ew as Ew. now split.
  - split; [now apply (C113_score_iff _ _ _ _ _ _ _ _ H R)|].
    intros j st Hj Hst. destruct (B j Hj) as [w Ew]. rewrite (At j st Hst) in Ew. congruence.
Qed.
Print Assumptions C113_chosen_variant.

(** A variant whose simulated pattern is flat wins over a variant that fits perfectly. *)
Theorem C113_perfect_variant_lost_refuted :
  exists (simulate : bool -> pattern) p starts,
    simulate false = p /\ ~ flat p /\
    let minimise f x := (f x, x) in
    fst (solved minimise false simulate p false) = Some 1 /\
    solved_variants minimise false simulate p starts = Some (None, true, 1%nat).
Proof.
  set (simulate := fun b : bool => if b then [2; 2] else [0; 1]).
  exists simulate, [0; 1], [false; true].
  assert (N : ~ flat [0; 1]). { intros F. specialize (F 0 1 (or_introl eq_refl) (or_intror (or_introl eq_refl))). lra. }
  assert (F : flat [2; 2]). { intros x y [<-|[<-|[]]] [<-|[<-|[]]]; reflexivity. }
  split; [reflexivity|]. split; [exact N|]. intros minimise.
  assert (H : honest minimise) by (intros f x; reflexivity).
  assert (O : objective_value simulate (prepared_pattern false [0; 1]) false = Some 0).
  { rewrite value_iff. cbn [simulate]. destruct (flat_dec [0; 1]); [contradiction|]. f_equal.
    unfold objective, prepare_pattern, ncc_single, zero_mean, vmean, vsum, dot. cbn.
    replace (_ * (_ * _ + (_ * _ + 0)))%R with ((/ 2) * (/ 2)) by field.
    rewrite sqrt_square by lra. field. }
  assert (T : objective_value simulate (prepared_pattern false [0; 1]) true = None).
  { rewrite value_iff. cbn [simulate]. destruct (flat_dec [0; 1]); [contradiction|].
    destruct (flat_dec [2; 2]); [reflexivity|contradiction]. }
  split.
  - unfold solved, minimise. rewrite O. cbn. f_equal. lra.
  - unfold solved_variants, solved, minimise. cbn [map fst snd]. rewrite O, T. reflexivity.
Qed.
Print Assumptions C113_perfect_variant_lost_refuted.

(** ** Merging refined maps *)

(** If one pattern is flat, the maps refined from it with different phases cannot be merged, however good the scores of
    all other points are. *)
Theorem C113_flat_pattern_stops_merging_refuted :
  forall (value : R -> Q) X (minimise : (X -> option R) -> X -> option R * X) rescale p sign points maps,
    honest minimise -> flat p -> In maps points ->
    (forall scores, In scores maps -> exists simulate start,
       scores = [option_map value (fst (solved minimise rescale simulate p start))]) ->
    MergeUnscored.map_of_points sign 1 1 points = None.
Proof.
  intros value X minimise rescale p sign points maps H F Hm Hs.
  apply (Props.MergeUnscored.C110_one_point_without_scores_refuted sign 1 1 points maps Hm).
  intros scores s Hl Hin. destruct (Hs scores Hl) as (simulate & start & ->).
  destruct Hin as [<-|[]]. now rewrite C113_flat_pattern_refuted.
Qed.
Print Assumptions C113_flat_pattern_stops_merging_refuted.

(** An optimiser meeting the hypotheses, and a point with a score. *)
Example C113_score_case :
  let minimise (f : bool -> option R) x := (f x, x) in
  honest minimise /\ fst (solved minimise true (fun _ => [1; 0]) [3; 5] true) <> None.
Proof.
  intros minimise. assert (H : honest minimise) by (intros f x; reflexivity). split; [exact H|].
  destruct (solved minimise true (fun _ => [1; 0]) [3; 5] true) as [s x] eqn:E. cbn [fst]. intros A.
  apply (C113_score_iff _ _ _ _ _ _ _ _ H E) in A as [A|A].
  - specialize (A 3 5 (or_introl eq_refl) (or_intror (or_introl eq_refl))). lra.
  - specialize (A 1 0 (or_introl eq_refl) (or_intror (or_introl eq_refl))). lra.
Qed.
