(** Merging crystal maps with missing scores: property C110. *)
From Coq Require Import List Arith ZArith QArith Bool Lia Lqa.
From Verif Require Import Model.MergeMaps Model.MergeUnscored Proofs.MergeMapsProofs.
From Verif Require Import Model.DictIndex Model.DictUnscored Props.DictUnscored.
Import ListNotations.
Local Open Scope nat_scope.

(** ** Specification *)

(** The value a map is compared by at a point: the average of those of the first [n]
    scores which are numbers (of the only score, if there is one). *)
Definition compared (per_point n : nat) (scores : list (option Q)) (v : Q) : Prop :=
  exists l, l <> [] /\
    l = flat_map (fun s => match s with Some q => [q] | None => [] end)
          (firstn (if 1 <? per_point then n else 1) scores) /\
    (v == fold_right Qplus 0 l / inject_Z (Z.of_nat (length l)))%Q.

(** A point has a score in a map. *)
Definition has_score (per_point n : nat) (scores : list (option Q)) : Prop :=
  exists q, In (Some q) (firstn (if 1 <? per_point then n else 1) scores).

(** ** Lemmas *)

Lemma up_to_nat {B} n (l : list B) : up_to (Z.of_nat n) l = firstn n l.
Proof.
  unfold up_to. destruct (Z.ltb_spec (Z.of_nat n) 0); [lia|]. now rewrite Nat2Z.id.
Qed.
Lemma numbers_in q l : In q (numbers l) <-> In (Some q) l.
Proof.
  unfold numbers. rewrite in_flat_map. split.
  - intros (s & Hs & Hq). destruct s as [r|]; [|contradiction]. destruct Hq as [<-|[]]. exact Hs.
  - intros H. exists (Some q). split; [exact H|now left].
Qed.
Lemma best_of_None per_point n l :
  best_of per_point (Z.of_nat n) l = None <-> ~ has_score per_point n l.
Proof.
  unfold best_of, has_score. rewrite up_to_nat. destruct (1 <? per_point).
  - unfold meanQ. destruct (numbers (firstn n l)) as [|q r] eqn:E.
    + split; [|reflexivity]. intros _ (q & Hq). apply numbers_in in Hq. now rewrite E in Hq.
    + split; [discriminate|]. intros H. exfalso. apply H. exists q. apply numbers_in. rewrite E. now left.
  - destruct l as [|s l]; cbn.
    + split; [|reflexivity]. intros _ (q & []).
    + destruct s as [q|]; split; intros H; try easy.
      * exfalso. apply H. exists q. now left.
      * intros (q & [E|[]]). discriminate.
Qed.
Lemma best_of_Some per_point n l v :
  best_of per_point (Z.of_nat n) l = Some v -> compared per_point n l v.
Proof.
  unfold best_of, compared. rewrite up_to_nat. destruct (1 <? per_point).
  - unfold meanQ. intros H. exists (numbers (firstn n l)).
    destruct (numbers (firstn n l)) as [|q r] eqn:E; [discriminate|].
    split; [discriminate|]. split; [now rewrite <- E|]. injection H as <-. reflexivity.
  - destruct l as [|s l]; [discriminate|]. intros ->. exists [v]. split; [discriminate|].
    split; [reflexivity|]. cbn [fold_right length]. change (inject_Z (Z.of_nat 1)) with 1%Q. field.
Qed.
Lemma compared_unique per_point n l v w : compared per_point n l v -> compared per_point n l w -> (v == w)%Q.
Proof. intros (a & _ & -> & ->) (b & _ & -> & ->). reflexivity. Qed.
Lemma compared_has per_point n l v : compared per_point n l v -> has_score per_point n l.
Proof.
  intros (a & Ha & Ea & _). destruct a as [|q a]; [congruence|]. exists q. apply numbers_in.
  unfold numbers. rewrite <- Ea. now left.
Qed.
Lemma has_best per_point n l : has_score per_point n l -> exists v, best_of per_point (Z.of_nat n) l = Some v.
Proof.
  intros H. destruct (best_of per_point (Z.of_nat n) l) as [v|] eqn:E; [now exists v|].
  apply best_of_None in E. contradiction.
Qed.
Lemma all_some_Some {B} (l : list (option B)) r :
  all_some l = Some r -> length r = length l /\ forall p x, nth_error r p = Some x -> nth_error l p = Some (Some x).
Proof.
  revert r. induction l as [|x l IH]; intros r H; cbn in H.
  - injection H as <-. split; [reflexivity|]. intros [|p] x H; discriminate.
  - destruct x as [x|]; [|discriminate]. destruct (all_some l) as [r'|]; [|discriminate].
    injection H as <-. destruct (IH r' eq_refl) as [L N]. split; [cbn; now rewrite L|].
    intros [|p] y Hy; cbn in Hy; [injection Hy as <-; reflexivity|]. now apply N.
Qed.
Lemma all_some_None {B} (l : list (option B)) : all_some l = None <-> In None l.
Proof.
  induction l as [|x l IH]; cbn; [split; [discriminate|contradiction]|].
  destruct x as [x|].
  - destruct (all_some l) as [r|].
    + split; [discriminate|]. intros [H|H]; [discriminate|]. apply IH in H. discriminate.
    + split; [|reflexivity]. intros _. right. now apply IH.
  - split; auto.
Qed.

(** ** Theorems *)

(** Merging goes on if and only if every point has a score in some map: a single point
    without one stops it. *)
Theorem C110_accepted_iff :
  forall sign per_point n (points : list (list (list (option Q)))),
    map_of_points sign per_point (Z.of_nat n) points <> None <->
    forall maps, In maps points -> exists scores, In scores maps /\ has_score per_point n scores.
Proof.
  intros sign per_point n points. unfold map_of_points. rewrite all_some_None, in_map_iff. split.
  - intros H maps Hm.
    destruct (nanargmax sign (map (best_of per_point (Z.of_nat n)) maps)) as [i|] eqn:E.
    + pose proof (nanargmax_spec sign (map (best_of per_point (Z.of_nat n)) maps)) as Sp.
      rewrite E in Sp. destruct Sp as (x & N & _).
      apply nth_error_In, in_map_iff in N as (l & El & Hl). exists l. split; [exact Hl|].
      apply (compared_has _ _ _ x). now apply best_of_Some.
    + exfalso. apply H. now exists maps.
  - intros H (maps & E & Hm). destruct (H maps Hm) as (l & Hl & Hs).
    pose proof (nanargmax_spec sign (map (best_of per_point (Z.of_nat n)) maps)) as Sp.
    rewrite E in Sp. destruct (has_best _ _ _ Hs) as (v & Ev).
    apply in_split in Hl as (l1 & l2 & ->).
    assert (Some v = None); [|discriminate]. apply (Sp (length l1)).
    rewrite map_app, nth_error_app2 by now rewrite map_length.
    rewrite map_length, Nat.sub_diag. cbn. now rewrite Ev.
Qed.
Print Assumptions C110_accepted_iff.

(** A point without any score stops the merging of all points. *)
Theorem C110_one_point_without_scores_refuted :
  forall sign per_point n points maps,
    In maps points -> (forall scores s, In scores maps -> In s scores -> s = None) ->
    map_of_points sign per_point (Z.of_nat n) points = None.
Proof.
  intros sign per_point n points maps Hm Hs.
  destruct (map_of_points sign per_point (Z.of_nat n) points) as [r|] eqn:E; [exfalso|reflexivity].
  assert (A : map_of_points sign per_point (Z.of_nat n) points <> None) by congruence.
  rewrite C110_accepted_iff in A. destruct (A maps Hm) as (l & Hl & q & Hq).
  assert (In (Some q) l).
  { rewrite <- (firstn_skipn (if 1 <? per_point then n else 1) l). apply in_or_app. now left. }
  specialize (Hs l _ Hl H). discriminate.
Qed.
Print Assumptions C110_one_point_without_scores_refuted.

(** If merging goes on, every point is taken from a map where it has a score, the first
    of those with the best average of the scores which are numbers. *)
Theorem C110_chosen_map :
  forall greater per_point n points chosen,
    map_of_points (if greater : bool then 1 else -1)%Z per_point (Z.of_nat n) points = Some chosen ->
    length chosen = length points /\
    forall p k maps, nth_error chosen p = Some k -> nth_error points p = Some maps ->
      exists scores v, nth_error maps k = Some scores /\ compared per_point n scores v /\
        forall j other w, nth_error maps j = Some other -> compared per_point n other w ->
          (if greater then w <= v else v <= w)%Q /\ (j < k -> ~ (w == v)%Q).
Proof.
  intros greater per_point n points chosen H. apply all_some_Some in H as [L N].
  rewrite map_length in L. split; [exact L|]. intros p k maps Hk Hm.
  apply N in Hk. rewrite nth_error_map, Hm in Hk. cbn in Hk. injection Hk as Hk.
  set (sign := if greater then 1%Z else (-1)%Z) in *.
  pose proof (nanargmax_spec sign (map (best_of per_point (Z.of_nat n)) maps)) as Sp.
  rewrite Hk in Sp. destruct Sp as (v & Nv & Le & Lt).
  rewrite nth_error_map in Nv. destruct (nth_error maps k) as [l|] eqn:El; [|discriminate].
  cbn in Nv. injection Nv as Nv. exists l, v. split; [reflexivity|].
  split; [now apply best_of_Some|]. intros j other w Ej Cw.
  destruct (has_best _ _ _ (compared_has _ _ _ _ Cw)) as (u & Eu).
  pose proof (compared_unique _ _ _ _ _ Cw (best_of_Some _ _ _ _ Eu)) as Ewu.
  assert (Nj : nth_error (map (best_of per_point (Z.of_nat n)) maps) j = Some (Some u)).
  { rewrite nth_error_map, Ej. cbn. now rewrite Eu. }
  specialize (Le j u Nj). assert (Lj := Lt j u). subst sign. split.
  - destruct greater; [change (inject_Z 1) with 1%Q in Le; lra|change (inject_Z (-1)) with (-1)%Q in Le; lra].
  - intros Hj Ew. specialize (Lj Hj Nj). rewrite Ewu in Ew. rewrite Ew in Lj. now apply Qlt_irrefl in Lj.
Qed.
Print Assumptions C110_chosen_map.

Example C110_case :
  map_of_points 1 2 2 [[[Some (1#2); Some (1#4)]; [None; Some (2#5)]]; [[None; None]; [Some (1#9); None]]]%Q
  = Some [1; 1] /\
  map_of_points 1 2 1 [[[Some (1#2); Some (1#4)]; [None; Some (2#5)]]; [[None; None]; [None; Some (1#9)]]]%Q
  = None.
Proof. split; reflexivity. Qed.

(** When all scores are numbers, the map is the one of C05. *)
Theorem C110_all_numbers :
  forall (A : Type) sign per_point number (col : list (option (point A))),
    2 <= length col ->
    nanargmax sign (map (best_of per_point number)
      (map (fun q => match q with Some pt => map Some (scores pt) | None => [] end) col))
    = best_in sign per_point number col.
Proof.
  intros A sign per_point number col Hl.
  assert (E : map (best_of per_point number)
      (map (fun q => match q with Some pt => map Some (scores pt) | None => [] end) col)
      = map (best_score per_point number) col).
  { rewrite map_map. apply map_ext. intros [pt|].
    - unfold best_of, best_score. destruct (1 <? per_point).
      + f_equal. unfold up_to. rewrite map_length, firstn_map.
        generalize (firstn (Z.to_nat (if (number <? 0)%Z then (Z.of_nat (length (scores pt)) + number)%Z else number)) (scores pt)) as l.
        induction l as [|x l IH]; cbn; [reflexivity|]. f_equal. exact IH.
      + now destruct (scores pt).
    - unfold best_of, best_score, up_to. destruct (1 <? per_point); [|reflexivity].
      rewrite firstn_nil. reflexivity. }
  rewrite E. unfold best_in. destruct col as [|a [|b col]]; cbn in Hl; try lia. reflexivity.
Qed.
Print Assumptions C110_all_numbers.

(** Dictionary indexing in one pass, then merging: a pattern whose pixels are all equal
    has no score in any of the maps, so one such pattern in a scan stops the merging
    ([value] turns the score in the result into the score in the crystal map). *)
Theorem C110_flat_pattern_stops_merging_refuted :
  forall (value : Z -> Q) one sgn keep_n sign per_point n points maps,
    In maps points ->
    (forall scores, In scores maps -> exists row res,
       (forall s, In s row -> s = None) /\ match_row one sgn row keep_n (length row) res /\
       scores = map (fun e => option_map value (snd e)) res) ->
    map_of_points sign per_point (Z.of_nat n) points = None.
Proof.
  intros value one sgn keep_n sign per_point n points maps Hm Hs.
  apply C110_one_point_without_scores_refuted with (maps := maps); [exact Hm|].
  intros scores s Hl Hin. destruct (Hs scores Hl) as (row & res & Hr & Hma & ->).
  apply in_map_iff in Hin as ([i o] & <- & Hi). apply C109_one_pass in Hma as (_ & _ & Hn & _).
  specialize (Hn _ _ Hi). apply nth_error_In, Hr in Hn. cbn. now rewrite Hn.
Qed.
Print Assumptions C110_flat_pattern_stops_merging_refuted.

(** In batches, it is taken from the first map instead, since the made-up scores are all
    equal: no map is better than the first. *)
Theorem C110_flat_pattern_in_batches_refuted :
  forall (value : Z -> Q) one sgn keep_n n_per greater per_point n points chosen p k maps,
    (1 <= keep_n) -> (1 <= n) -> (1 <= per_point) ->
    map_of_points (if greater : bool then 1 else -1)%Z per_point (Z.of_nat n) points = Some chosen ->
    nth_error points p = Some maps -> nth_error chosen p = Some k ->
    (forall scores, In scores maps -> exists row res,
       (forall s, In s row -> s = None) /\ row <> [] /\ n_per <> length row /\
       keep_n <= length row /\ match_row one sgn row keep_n n_per res /\
       scores = map (fun e => option_map value (snd e)) res) ->
    k = 0.
Proof.
  intros value one sgn keep_n n_per greater per_point n points chosen p k maps Hk Hn Hp H Hm Hc Hs.
  apply C110_chosen_map in H as [_ H]. destruct (H p k maps Hc Hm) as (l & v & El & Cv & Best).
  assert (Eq : forall scores, In scores maps -> scores = repeat (Some (value (- sgn * one)%Z)) keep_n).
  { intros scores Hin. destruct (Hs scores Hin) as (row & res & Hr & _ & Hne & Hle & Hma & ->).
    rewrite (C109_flat_pattern_in_batches_refuted _ _ _ _ _ _ Hr Hne Hma).
    replace (Nat.min keep_n (length row)) with keep_n by lia. clear.
    induction keep_n as [|m IH]; cbn; [reflexivity|]. now rewrite IH. }
  destruct k as [|k]; [reflexivity|exfalso].
  assert (H0 : exists f, nth_error maps 0 = Some f).
  { destruct maps as [|f maps]; [destruct k; discriminate|]. now exists f. }
  destruct H0 as (f & Ef).
  rewrite (Eq l (nth_error_In _ _ El)) in Cv. rewrite (Eq f (nth_error_In _ _ Ef)) in Ef.
  destruct (Best 0 _ v Ef Cv) as [_ Ne]. apply Ne; [lia|reflexivity].
Qed.
Print Assumptions C110_flat_pattern_in_batches_refuted.

Example C110_flat_case :
  (exists res, match_row 100 1 [None; None; None] 2 3 res) /\
  match_row 100 1 [None; None; None] 2 2 [(0, Some (-100)%Z); (0, Some (-100)%Z)] /\
  map_of_points 1 2 1 [[[Some (-1); Some (-1)]; [Some (-1); Some (-1)]]]%Q = Some [0].
Proof.
  split; [apply C109_outcome_exists|]. split; [|reflexivity].
  destruct (C109_outcome_exists 100 1 [None; None; None] 2 2) as (res & H).
  assert (E := C109_flat_pattern_in_batches_refuted 100 1 [None; None; None] 2 2 res
            ltac:(cbn; intuition) ltac:(cbn; lia) H). cbn in E. now subst res.
Qed.
