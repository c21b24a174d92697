(** Lemmas for dictionary indexing with scores which are not numbers. *)
From Coq Require Import List ZArith Reals Lia Lra Permutation Sorting.Sorted.
From Verif Require Import Model.DictIndex Model.DictUnscored Proofs.DictIndexProofs.
Import ListNotations.
Open Scope Z_scope.

(** * Scores *)

Lemma total_nonneg p : (forall x, In x p -> 0 <= x)%R -> (0 <= total p)%R.
Proof.
  induction p as [|a p IH]; intros H; [cbn; lra|].
  change (total (a :: p)) with (a + total p)%R.
  pose proof (H a (or_introl eq_refl)). pose proof (IH (fun x h => H x (or_intror h))). lra.
Qed.
Lemma squares_zero p : squares p = 0%R -> forall x, In x p -> x = 0%R.
Proof.
  unfold squares. induction p as [|a p IH]; intros H x Hx; [contradiction|].
  change (a * a + total (map (fun x => x * x) p) = 0)%R in H.
  assert (0 <= total (map (fun x => x * x) p))%R.
  { apply total_nonneg. intros y Hy. apply in_map_iff in Hy as (z & <- & _).
    apply Rle_0_sqr. }
  pose proof (Rle_0_sqr a) as Ha. unfold Rsqr in Ha.
  destruct Hx as [<-|Hx].
  - apply Rsqr_0_uniq. unfold Rsqr. lra.
  - apply IH; [lra|exact Hx].
Qed.
Lemma squares_nonneg p : (0 <= squares p)%R.
Proof.
  apply total_nonneg. intros y Hy. apply in_map_iff in Hy as (z & <- & _). apply Rle_0_sqr.
Qed.
Lemma total_const p c : (forall x, In x p -> x = c) -> total p = (INR (length p) * c)%R.
Proof.
  induction p as [|a p IH]; intros H; [cbn; lra|].
  change (total (a :: p)) with (a + total p)%R. rewrite IH by (intros; apply H; now right).
  rewrite (H a (or_introl eq_refl)). cbn [length]. rewrite S_INR. lra.
Qed.
Lemma normalised_None p :
  normalised p = None <-> (forall x y, In x p -> In y p -> x = y).
Proof.
  unfold normalised. destruct (Req_EM_T _ _) as [E|E]; split; intros H; try easy.
  - intros x y Hx Hy. apply sqrt_eq_0 in E; [|apply squares_nonneg].
    pose proof (squares_zero _ E) as Z.
    pose proof (Z _ (in_map (fun x => x - mean p)%R _ _ Hx)).
    pose proof (Z _ (in_map (fun x => x - mean p)%R _ _ Hy)). cbn in *. lra.
  - exfalso. apply E. clear E. replace (squares (centred p)) with 0%R; [apply sqrt_0|].
    symmetry. destruct p as [|c p]; [reflexivity|].
    assert (M : mean (c :: p) = c).
    { unfold mean. rewrite (total_const _ c).
      - field. apply not_0_INR. discriminate.
      - intros x Hx. apply H; [exact Hx|now left]. }
    unfold squares, centred. rewrite M, map_map.
    rewrite (total_const _ 0%R); [lra|]. intros x Hx.
    apply in_map_iff in Hx as (z & <- & Hz). rewrite (H z c Hz (or_introl eq_refl)). lra.
Qed.
Lemma score_None e d :
  score e d = None <->
  (forall x y, In x e -> In y e -> x = y) \/ (forall x y, In x d -> In y d -> x = y).
Proof.
  rewrite <- !normalised_None. unfold score.
  destruct (normalised e), (normalised d); split; intuition discriminate.
Qed.

(** * The first candidates *)

Definition scored (e : uentry) : bool := match snd e with Some _ => true | None => false end.
Definition at_least (v : Z) (e : uentry) : bool :=
  match snd e with Some x => v <=? x | None => false end.

Lemma First_incl R k c o : First R k c o -> forall e, In e o -> In e c.
Proof.
  intros (r & P & _) e He. apply (Permutation_in e (Permutation_sym P)).
  apply in_or_app; left; exact He.
Qed.
Lemma First_len R k c o : First R k c o -> length o = Nat.min k (length c).
Proof. intros (r & _ & _ & L & _). exact L. Qed.

(** If at least [k] candidates pass a test which nothing that fails it may precede,
    all that is kept passes it. *)
Lemma First_pass (bef : uentry -> uentry -> Prop) (p : uentry -> bool) k c o :
  (forall a b, bef a b -> p b = true -> p a = true) ->
  (k <= length (filter p c))%nat ->
  First bef k c o -> forall e, In e o -> p e = true.
Proof.
  intros Hp Hk (r & P & _ & L & D) e He.
  destruct (p e) eqn:E; [reflexivity|exfalso].
  assert (Hr : filter p r = []).
  { apply filter_none. intros b Hb. destruct (p b) eqn:Eb; [|reflexivity].
    rewrite (Hp e b (D e b He Hb) Eb) in E. discriminate. }
  rewrite (filter_perm_length p _ _ P), filter_app, Hr, app_nil_r in Hk.
  pose proof (filter_length_lt p o e He E). lia.
Qed.
Lemma before_argsort_scored sgn a b :
  before_argsort sgn a b -> scored b = true -> scored a = true.
Proof. unfold before_argsort, scored. destruct (snd a), (snd b); easy. Qed.
Lemma before_argsort_at_least v a b :
  before_argsort 1 a b -> at_least v b = true -> at_least v a = true.
Proof.
  unfold before_argsort, at_least. destruct (snd a), (snd b); try easy.
  rewrite !Z.leb_le. lia.
Qed.

(** * Chunks *)

Lemma numbered_in {A} (l : list A) a i s :
  In (i, s) (combine (seq a (length l)) l) <-> (a <= i)%nat /\ nth_error l (i - a) = Some s.
Proof.
  revert a. induction l as [|x l IH]; intros a; cbn [length seq combine In].
  - split; [contradiction|]. intros [_ H]. destruct (i - a)%nat; discriminate.
  - rewrite IH. split.
    + intros [H|[H1 H2]].
      * injection H as <- <-. rewrite Nat.sub_diag. split; [lia|reflexivity].
      * split; [lia|]. replace (i - a)%nat with (S (i - S a)) by lia. exact H2.
    + intros [H1 H2]. destruct (Nat.eq_dec i a) as [->|Hne].
      * left. rewrite Nat.sub_diag in H2. cbn in H2. congruence.
      * right. split; [lia|]. replace (i - a)%nat with (S (i - S a)) in H2 by lia. exact H2.
Qed.
Lemma nth_slice {A} (l : list A) start stop i :
  nth_error (slice l start stop) i =
  if (i <? stop - start)%nat then nth_error l (start + i) else None.
Proof.
  unfold slice. generalize (stop - start)%nat as m. intros m.
  assert (E : nth_error (skipn start l) i = nth_error l (start + i)).
  { revert l. induction start as [|n IH]; intros l; [reflexivity|].
    destruct l as [|x l]; [cbn; now destruct i|]. apply IH. }
  rewrite <- E. generalize (skipn start l) as q. clear. revert m.
  induction i as [|i IH]; intros m q; destruct m as [|m], q as [|x q]; try reflexivity.
  - change (S i <? S m)%nat with (i <? m)%nat. now destruct (i <? m)%nat.
  - exact (IH m q).
Qed.
Lemma chunk_in row start stop i s :
  In (i, s) (chunk_scores row start stop) <->
  (i < stop - start)%nat /\ nth_error row (start + i) = Some s.
Proof.
  unfold chunk_scores. rewrite numbered_in, Nat.sub_0_r, nth_slice.
  destruct (Nat.ltb_spec i (stop - start)); split; intuition (try lia; try discriminate).
Qed.
Lemma numbered_length {A} (l : list A) a : length (combine (seq a (length l)) l) = length l.
Proof. rewrite combine_length, seq_length. lia. Qed.
Lemma chunk_length row start stop :
  length (chunk_scores row start stop) = length (slice row start stop).
Proof. apply numbered_length. Qed.
Lemma chunk_all row : chunk_scores row 0 (length row) = combine (seq 0 (length row)) row.
Proof. unfold chunk_scores, slice. cbn [skipn]. rewrite Nat.sub_0_r, firstn_all. reflexivity. Qed.
Lemma shifted_in start top i s :
  In (i, s) (from_start start top) <-> (start <= i)%nat /\ In ((i - start)%nat, s) top.
Proof.
  unfold from_start. rewrite in_map_iff. split.
  - intros ((j & t) & E & H). cbn in E. injection E as <- <-. split; [lia|].
    replace (start + j - start)%nat with j by lia. exact H.
  - intros [H1 H2]. exists ((i - start)%nat, s). split; [cbn; f_equal; lia|exact H2].
Qed.

(** * The loop over batches *)

Lemma parts_app sgn row keep b1 b2 acc res :
  parts sgn row keep (b1 ++ b2) acc res ->
  exists mid, parts sgn row keep b1 acc mid /\ parts sgn row keep b2 mid res.
Proof.
  revert acc. induction b1 as [|b b1 IH]; intros acc H.
  - exists acc. split; [constructor|exact H].
  - inversion H as [|? ? ? acc' ? St Re]; subst. destruct (IH _ Re) as (mid & A & B).
    exists mid. split; [econstructor; eassumption|exact B].
Qed.

(** What holds of the matches kept so far: there are [keep], all with numbers, and each
    is the placeholder or an entry of the dictionary with its score. *)
Definition kept (ph : uentry) (row : list (option Z)) (keep : nat) (acc : list uentry) : Prop :=
  length acc = keep /\ (forall e, In e acc -> scored e = true) /\
  (forall e, In e acc -> e = ph \/ nth_error row (fst e) = Some (snd e)).

Lemma kept_start one sgn row keep :
  kept (0%nat, Some (- sgn * one)) row keep (repeat (0%nat, Some (- sgn * one)) keep).
Proof.
  repeat split.
  - apply repeat_length.
  - intros e He. apply repeat_spec in He. now subst e.
  - intros e He. apply repeat_spec in He. now left.
Qed.
Lemma kept_step ph sgn row keep b prev next :
  kept ph row keep prev -> part_step sgn row keep b prev next -> kept ph row keep next.
Proof.
  intros (L & Sc & Or) H. destruct b as [start stop]. destruct H as (top & T & F).
  repeat split.
  - rewrite (First_len _ _ _ _ F), app_length. lia.
  - apply (First_pass _ scored keep _ _ (before_argsort_scored sgn)) with (2 := F).
    rewrite filter_app, app_length, (filter_all scored prev Sc). lia.
  - intros [i s] He. pose proof (First_incl _ _ _ _ F _ He) as Hin.
    apply in_app_or in Hin as [Hin|Hin]; [now apply Or|]. right.
    apply shifted_in in Hin as [H1 H2]. apply (First_incl _ _ _ _ T) in H2.
    apply chunk_in in H2 as [_ H2]. cbn. replace (start + (i - start))%nat with i in H2 by lia.
    exact H2.
Qed.
Lemma kept_parts ph sgn row keep bs acc res :
  kept ph row keep acc -> parts sgn row keep bs acc res -> kept ph row keep res.
Proof.
  intros K H. induction H as [|b bs acc acc' res St Re IH]; [exact K|].
  apply IH. eapply kept_step; eassumption.
Qed.

(** Batches which only offer candidates without a score change nothing. *)
Lemma useless_parts sgn row keep ph bs res :
  scored ph = true ->
  (forall start stop top, In (start, stop) bs ->
     match_part row start stop (Nat.min keep (stop - start)) top ->
     forall e, In e top -> snd e = None) ->
  parts sgn row keep bs (repeat ph keep) res -> res = repeat ph keep.
Proof.
  intros Hph. remember (repeat ph keep) as acc eqn:Ea. intros Hu H.
  induction H as [|[start stop] bs acc acc' res St Re IH]; [reflexivity|]. subst acc.
  assert (E : acc' = repeat ph keep).
  { destruct St as (top & T & F).
    assert (Sc : forall e, In e acc' -> scored e = true).
    { apply (First_pass _ scored keep _ _ (before_argsort_scored sgn)) with (2 := F).
      rewrite filter_app, app_length, (filter_all scored (repeat ph keep)).
      - rewrite repeat_length. lia.
      - intros x Hx. apply repeat_spec in Hx. now subst x. }
    assert (Al : forall e, In e acc' -> e = ph).
    { intros [i s] He. pose proof (First_incl _ _ _ _ F _ He) as Hin.
      apply in_app_or in Hin as [Hin|Hin]; [now apply repeat_spec in Hin|].
      apply shifted_in in Hin as [_ Hin].
      pose proof (Hu start stop top (or_introl eq_refl) T _ Hin) as Hn. cbn in Hn. subst s.
      now specialize (Sc _ He). }
    apply First_len in F. rewrite app_length, repeat_length in F.
    replace keep with (length acc') by lia. clear - Al.
    induction acc' as [|e acc' IH]; [reflexivity|]. cbn.
    rewrite (Al e (or_introl eq_refl)). f_equal. apply IH. intros x Hx. apply Al. now right. }
  rewrite IH; [exact E|exact E|]. intros a b top Hin. apply Hu. now right.
Qed.

(** A match is still there, or has been outdone by all that is kept. *)
Definition settled (i : nat) (v : Z) (acc : list uentry) : Prop :=
  In (i, Some v) acc \/ (forall e, In e acc -> at_least v e = true).

Lemma settled_first i v keep (c next : list uentry) :
  In (i, Some v) c -> First (before_argsort 1) keep c next -> settled i v next.
Proof.
  intros Hin (r & P & _ & _ & D).
  apply (Permutation_in _ P) in Hin. apply in_app_or in Hin as [Hin|Hin]; [now left|].
  right. intros e He. apply (before_argsort_at_least v e (i, Some v)); [now apply D|].
  unfold at_least. cbn. apply Z.leb_refl.
Qed.
Lemma settled_step row keep b i v prev next :
  length prev = keep -> settled i v prev -> part_step 1 row keep b prev next ->
  settled i v next.
Proof.
  intros L H St. destruct b as [start stop]. destruct St as (top & _ & F).
  destruct H as [H|H].
  - eapply settled_first; [|exact F]. apply in_or_app. now left.
  - right. apply (First_pass _ (at_least v) keep _ _ (before_argsort_at_least v)) with (2 := F).
    rewrite filter_app, app_length, (filter_all (at_least v) prev H). lia.
Qed.
Lemma settled_parts ph row keep bs i v acc res :
  kept ph row keep acc -> settled i v acc -> parts 1 row keep bs acc res -> settled i v res.
Proof.
  intros K H P. induction P as [|b bs acc acc' res St Re IH]; [exact H|].
  apply IH; [eapply kept_step; eassumption|].
  eapply settled_step; [apply K|exact H|exact St].
Qed.
Lemma settled_chunk row keep start stop i v prev next :
  (start <= i < stop)%nat -> nth_error row i = Some (Some v) ->
  (forall j, (start <= j < stop)%nat -> nth_error row j <> Some None) ->
  part_step 1 row keep (start, stop) prev next -> settled i v next.
Proof.
  intros Hi Hv Hn (top & (r & P & So & L & D) & F).
  assert (Hc : In ((i - start)%nat, Some v) (chunk_scores row start stop)).
  { apply chunk_in. split; [lia|]. now replace (start + (i - start))%nat with i by lia. }
  apply (Permutation_in _ P) in Hc. apply in_app_or in Hc as [Hc|Hc].
  - eapply settled_first; [|exact F]. apply in_or_app. right. apply shifted_in.
    split; [lia|exact Hc].
  - right. apply (First_pass _ (at_least v) keep _ _ (before_argsort_at_least v)) with (2 := F).
    assert (Ha : forall e, In e (from_start start top) -> at_least v e = true).
    { intros [j s] He. apply shifted_in in He as [Hj He].
      assert (Hj' : In ((j - start)%nat, s) (chunk_scores row start stop)).
      { apply (Permutation_in _ (Permutation_sym P)). apply in_or_app. now left. }
      apply chunk_in in Hj' as [Hj1 Hj2].
      replace (start + (j - start))%nat with j in Hj2 by lia.
      specialize (D _ _ He Hc). unfold before_topk in D. cbn in D.
      destruct s as [x|]; [unfold at_least; cbn; now apply Z.leb_le|].
      exfalso. apply (Hn j); [lia|exact Hj2]. }
    rewrite filter_app, app_length, (filter_all _ _ Ha). unfold from_start.
    rewrite map_length, L. apply Permutation_length in P. rewrite app_length in P.
    assert (1 <= length r)%nat by (destruct r; [contradiction|cbn; lia]).
    pose proof (slice_length row start stop). rewrite <- chunk_length in H0. lia.
Qed.

Lemma bounds_split N n i : (0 < n)%nat -> (i < N)%nat ->
  exists b1 b2, chunk_bounds N n
    = b1 ++ ((i / n * n)%nat, ((i / n + 1) * n)%nat) :: b2.
Proof.
  intros Hn Hi. rewrite chunk_bounds_eq by lia.
  destruct (ceil_div_spec N n Hn ltac:(lia)) as (H1 & _ & _).
  assert (Hq : (i / n < ceil_div N n)%nat) by (apply Nat.div_lt_upper_bound; lia).
  set (f := fun j => ((j * n)%nat, ((j + 1) * n)%nat)).
  exists (map f (seq 0 (i / n))), (map f (seq (S (i / n)) (ceil_div N n - S (i / n)))).
  change ((i / n * n)%nat, ((i / n + 1) * n)%nat) with (f (i / n)%nat).
  rewrite <- (map_cons f), <- map_app. f_equal.
  replace (i / n :: seq (S (i / n)) (ceil_div N n - S (i / n)))%nat
    with (seq (0 + i / n) (S (ceil_div N n - S (i / n)))) by reflexivity.
  rewrite <- seq_app. f_equal. lia.
Qed.
Lemma bounds_in N n start stop : (0 < n)%nat -> (0 < N)%nat ->
  In (start, stop) (chunk_bounds N n) ->
  exists c, start = (c * n)%nat /\ stop = ((c + 1) * n)%nat /\ (c * n < N)%nat.
Proof.
  intros Hn HN H. rewrite chunk_bounds_eq in H by lia.
  destruct (ceil_div_spec N n Hn HN) as (_ & H2 & H3).
  apply in_map_iff in H as (c & E & Hc). injection E as <- <-. apply in_seq in Hc.
  exists c. repeat split. assert (c <= ceil_div N n - 1)%nat by lia. nia.
Qed.

(** * One pass *)

Lemma sorted_nones l : StronglySorted before_topk l ->
  exists m, forall p e, nth_error l p = Some e -> (p < m)%nat <-> snd e = None.
Proof.
  induction 1 as [|a l So IH F].
  - exists 0%nat. intros [|p] e H; discriminate.
  - destruct IH as (m & IH). destruct (snd a) as [x|] eqn:Ea.
    + exists 0%nat. intros p e H. split; [lia|]. intros He.
      destruct p as [|p]; cbn in H; [congruence|].
      apply nth_error_In in H. rewrite Forall_forall in F. specialize (F e H).
      unfold before_topk in F. rewrite Ea, He in F. contradiction.
    + exists (S m). intros p e H. destruct p as [|p]; cbn in H.
      * injection H as <-. split; [intros _; exact Ea|lia].
      * rewrite <- (IH p e H). lia.
Qed.
Lemma nones_count l m : (forall p e, nth_error l p = Some e -> (p < m)%nat <-> snd e = None) ->
  length (filter (fun e : uentry => negb (scored e)) l) = Nat.min m (length l).
Proof.
  revert m. induction l as [|a l IH]; intros m H; [cbn; lia|]. cbn [filter length].
  pose proof (H 0%nat a eq_refl) as H0. unfold scored at 1.
  destruct m as [|m].
  - assert (E : length (filter (fun e : uentry => negb (scored e)) l) = 0%nat).
    { rewrite (IH 0%nat); [lia|]. intros p e Hp. pose proof (H (S p) e Hp). split; [lia|].
      intros He. apply H1 in He. lia. }
    destruct (snd a); cbn; [exact E|]. destruct H0 as [_ H0]. specialize (H0 eq_refl). lia.
  - assert (Hn : snd a = None) by (apply H0; lia). rewrite Hn. cbn. f_equal. apply IH.
    intros p e Hp. rewrite <- (H (S p) e Hp). lia.
Qed.

Lemma one_pass row k res :
  match_part row 0 (length row) k res ->
  length res = Nat.min k (length row) /\ NoDup (map fst res) /\
  (forall i s, In (i, s) res -> nth_error row i = Some s) /\
  (forall p i s, nth_error res p = Some (i, s) ->
     (p < length (filter (fun s : option Z => match s with None => true | _ => false end) row))%nat
     <-> s = None) /\
  (forall i v j w, In (i, Some v) res -> nth_error row j = Some (Some w) ->
     ~ In (j, Some w) res -> w <= v) /\
  (forall p q i v j w, (p < q)%nat -> nth_error res p = Some (i, Some v) ->
     nth_error res q = Some (j, Some w) -> w <= v).
Proof.
  intros H. pose proof (First_incl _ _ _ _ H) as Inc.
  destruct H as (r & P & So & L & D). rewrite chunk_all in *.
  rewrite numbered_length in L. repeat split.
  - exact L.
  - assert (ND : NoDup (map fst (combine (seq 0 (length row)) row))).
    { clear. generalize 0%nat. induction row as [|x row IH]; intros a; cbn; [constructor|].
      constructor; [|apply IH]. intros Hin. apply in_map_iff in Hin as ((j & s) & E & Hin).
      cbn in E. subst j. apply numbered_in in Hin as [Hin _]. lia. }
    apply (Permutation_NoDup (Permutation_map fst P)) in ND.
    rewrite map_app in ND. revert ND. generalize (map fst res) as u, (map fst r) as w. clear.
    intros u w. induction u as [|a u IH]; cbn; intros ND; [constructor|].
    inversion ND; subst. constructor; [|now apply IH]. intros Ha. apply H1.
    apply in_or_app. now left.
  - intros i s Hi. apply Inc, numbered_in in Hi as [_ Hi]. now rewrite Nat.sub_0_r in Hi.
  - destruct (sorted_nones _ So) as (m & Hm). intros Hp.
    apply (Hm p (i, s) H). pose proof (nones_count _ _ Hm) as C.
    assert (Cnt : length (filter (fun s : option Z => match s with None => true | _ => false end) row)
                  = length (filter (fun e : uentry => negb (scored e)) (combine (seq 0 (length row)) row))).
    { clear. generalize 0%nat. induction row as [|x row IH]; intros a; [reflexivity|].
      specialize (IH (S a)). destruct x; cbn in *; [exact IH|now f_equal]. }
    rewrite Cnt, (filter_perm_length _ _ _ P), filter_app, app_length, C in Hp.
    assert (Hl : (p < length res)%nat) by (apply nth_error_Some; congruence).
    destruct (Nat.le_gt_cases (length res) m) as [Hle|Hgt]; [lia|].
    assert (Hr : filter (fun e : uentry => negb (scored e)) r = []).
    { apply filter_none. intros b Hb. destruct (nth_error res m) as [e|] eqn:Em.
      - pose proof (D e b (nth_error_In _ _ Em) Hb) as Db.
        destruct (snd e) eqn:Ee; [|apply (Hm m e Em) in Ee; lia].
        unfold before_topk in Db. rewrite Ee in Db. unfold scored.
        destruct (snd b); [reflexivity|contradiction].
      - apply nth_error_None in Em. lia. }
    rewrite Hr in Hp. cbn in Hp. lia.
  - destruct (sorted_nones _ So) as (m & Hm). intros ->.
    assert (Hp : (p < m)%nat) by (now apply (Hm p (i, None) H)).
    pose proof (nones_count _ _ Hm) as C.
    assert (Cnt : length (filter (fun s : option Z => match s with None => true | _ => false end) row)
                  = length (filter (fun e : uentry => negb (scored e)) (combine (seq 0 (length row)) row))).
    { clear. generalize 0%nat. induction row as [|x row IH]; intros a; [reflexivity|].
      specialize (IH (S a)). destruct x; cbn in *; [exact IH|now f_equal]. }
    rewrite Cnt, (filter_perm_length _ _ _ P), filter_app, app_length, C.
    assert (Hl : (p < length res)%nat) by (apply nth_error_Some; congruence). lia.
  - intros i v j w Hi Hj Hn.
    assert (Hc : In (j, Some w) (combine (seq 0 (length row)) row)).
    { apply numbered_in. split; [lia|]. now rewrite Nat.sub_0_r. }
    apply (Permutation_in _ P) in Hc. apply in_app_or in Hc as [Hc|Hc]; [contradiction|].
    exact (D _ _ Hi Hc).
  - clear - So. induction So as [|a l So IH F]; intros p q i v j w Hpq Hp Hq.
    + destruct p; discriminate.
    + destruct q as [|q]; [lia|]. cbn in Hq. destruct p as [|p]; cbn in Hp.
      * injection Hp as ->. apply nth_error_In in Hq. rewrite Forall_forall in F.
        exact (F _ Hq).
      * eapply (IH p q); eauto. lia.
Qed.

(** * When all scores are numbers *)

Definition up (e : entry) : uentry := (fst e, Some (snd e)).

Lemma sorted_up (bef : uentry -> uentry -> Prop) key l :
  (forall a b, bef (up a) (up b) <-> key b <= key a) ->
  StronglySorted bef (map up l) <-> StronglySorted (fun a b => key b <= key a) l.
Proof.
  intros Hk. induction l as [|a l IH]; cbn; split; intros H; try constructor.
  - inversion H; subst. now apply IH.
  - inversion H; subst. rewrite Forall_forall in *. intros b Hb. apply Hk.
    apply H3. now apply in_map.
  - inversion H; subst. now apply IH.
  - inversion H; subst. rewrite Forall_forall in *. intros b Hb.
    apply in_map_iff in Hb as (z & <- & Hz). apply Hk. now apply H3.
Qed.
Lemma First_up (bef : uentry -> uentry -> Prop) key k c o :
  (forall a b, bef (up a) (up b) <-> key b <= key a) ->
  First bef k (map up c) o <-> exists o', o = map up o' /\ TopK key k c o'.
Proof.
  intros Hk. split.
  - intros (r & P & So & L & D).
    apply Permutation_sym, Permutation_map_inv in P as (l & E & P).
    symmetry in E. apply map_eq_app in E as (o' & r' & -> & <- & <-).
    exists o'. split; [reflexivity|]. exists r'. repeat split.
    + exact P.
    + now apply (sorted_up bef key _ Hk).
    + now rewrite !map_length in L.
    + intros a b Ha Hb. apply Hk, D; now apply in_map.
  - intros (o' & -> & r & P & So & L & D). exists (map up r). repeat split.
    + rewrite <- map_app. now apply Permutation_map.
    + now apply (sorted_up bef key _ Hk).
    + now rewrite !map_length.
    + intros a b Ha Hb. apply in_map_iff in Ha as (x & <- & Hx).
      apply in_map_iff in Hb as (y & <- & Hy). now apply Hk, D.
Qed.
Lemma chunk_up zs start stop :
  chunk_scores (map Some zs) start stop = map up (chunk_entries zs start stop).
Proof.
  unfold chunk_scores, chunk_entries, slice. rewrite skipn_map, firstn_map, map_length.
  generalize (firstn (stop - start) (skipn start zs)) as l. intros l. generalize 0%nat.
  induction l as [|x l IH]; intros a; cbn; [reflexivity|]. now rewrite IH.
Qed.
Lemma match_part_up zs start stop k o :
  match_part (map Some zs) start stop k o <->
  exists o', o = map up o' /\ match_chunk zs start stop k o'.
Proof.
  unfold match_part, match_chunk. rewrite chunk_up. apply First_up. intros a b. reflexivity.
Qed.
Lemma parts_up sgn zs keep bs acc res :
  parts sgn (map Some zs) keep bs (map up acc) res <->
  exists res', res = map up res' /\ loop sgn zs keep bs acc res'.
Proof.
  assert (Sh : forall start l, from_start start (map up l) = map up (shift start l)).
  { intros start l. unfold from_start, shift. rewrite !map_map. reflexivity. }
  assert (Ar : forall a b, before_argsort sgn (up a) (up b) <-> sgn * escore b <= sgn * escore a)
    by reflexivity.
  split.
  - intros H. remember (map up acc) as acc0 eqn:E. revert acc E.
    induction H as [acc0|[start stop] bs acc0 acc' res St Re IH]; intros acc E; subst acc0.
    + exists acc. split; [reflexivity|constructor].
    + destruct St as (top & T & F). apply match_part_up in T as (top' & -> & T).
      rewrite Sh, <- map_app in F.
      apply (First_up _ (fun e => sgn * escore e) _ _ _ Ar) in F as (n' & -> & F).
      destruct (IH n' eq_refl) as (res' & -> & R'). exists res'. split; [reflexivity|].
      econstructor; [|exact R']. exists top'. split; assumption.
  - intros (res' & -> & H). induction H as [acc|[start stop] bs acc acc' res St Re IH].
    + constructor.
    + econstructor; [|exact IH]. destruct St as (top & T & F).
      exists (map up top). split.
      * apply match_part_up. exists top. split; [reflexivity|exact T].
      * rewrite Sh, <- map_app.
        apply (First_up _ (fun e => sgn * escore e) _ _ _ Ar). exists acc'. split; [reflexivity|exact F].
Qed.
Lemma match_row_up one sgn zs keep_n n_per res :
  match_row one sgn (map Some zs) keep_n n_per res <->
  exists res', res = map up res' /\ index_row one sgn zs keep_n n_per res'.
Proof.
  unfold match_row, index_row. rewrite map_length. destruct (Nat.eqb _ _).
  - apply match_part_up.
  - rewrite <- parts_up. unfold up.
    replace (map (fun e : entry => (fst e, Some (snd e)))
               (repeat (0%nat, - sgn * one) (Nat.min keep_n (length zs))))
      with (repeat (0%nat, Some (- sgn * one)) (Nat.min keep_n (length zs))); [reflexivity|].
    induction (Nat.min keep_n (length zs)); cbn; [reflexivity|]. now f_equal.
Qed.

(** * An outcome always exists *)

Section Sorting.
Variable leb : uentry -> uentry -> bool.
Hypothesis leb_total : forall a b, leb a b = true \/ leb b a = true.
Hypothesis leb_trans : forall a b c, leb a b = true -> leb b c = true -> leb a c = true.
Fixpoint put (x : uentry) (l : list uentry) : list uentry :=
  match l with [] => [x] | y :: l' => if leb x y then x :: l else y :: put x l' end.
Fixpoint sorted (l : list uentry) : list uentry :=
  match l with [] => [] | x :: l' => put x (sorted l') end.
Lemma put_perm x l : Permutation (x :: l) (put x l).
Proof.
  induction l as [|y l IH]; cbn; [apply Permutation_refl|].
  destruct (leb x y); [apply Permutation_refl|].
  transitivity (y :: x :: l); [apply perm_swap|]. now apply perm_skip.
Qed.
Lemma sorted_perm l : Permutation l (sorted l).
Proof.
  induction l as [|x l IH]; cbn; [constructor|].
  transitivity (x :: sorted l); [now apply perm_skip|apply put_perm].
Qed.
Lemma put_sorted x l : StronglySorted (fun a b => leb a b = true) l ->
  StronglySorted (fun a b => leb a b = true) (put x l).
Proof.
  induction 1 as [|y l So IH F]; cbn; [repeat constructor|].
  destruct (leb x y) eqn:E.
  - constructor; [now constructor|]. constructor; [exact E|].
    rewrite Forall_forall in *. intros z Hz. eapply leb_trans; [exact E|now apply F].
  - constructor; [exact IH|]. rewrite Forall_forall in *. intros z Hz.
    apply (Permutation_in _ (Permutation_sym (put_perm x l))) in Hz. destruct Hz as [<-|Hz].
    + destruct (leb_total x y); congruence.
    + now apply F.
Qed.
Lemma sorted_sorted l : StronglySorted (fun a b => leb a b = true) (sorted l).
Proof. induction l; cbn; [constructor|now apply put_sorted]. Qed.
Lemma sorted_First bef k l : (forall a b, leb a b = true <-> bef a b) ->
  First bef k l (firstn k (sorted l)).
Proof.
  intros Hb. pose proof (sorted_sorted l) as So.
  rewrite <- (firstn_skipn k (sorted l)) in So.
  exists (skipn k (sorted l)). repeat split.
  - rewrite firstn_skipn. apply sorted_perm.
  - revert So. generalize (firstn k (sorted l)) as u. intros u.
    induction u as [|a u IH]; cbn; intros So; [constructor|]. inversion So; subst.
    constructor; [now apply IH|]. rewrite Forall_forall in *. intros b Hin.
    apply Hb, H2, in_or_app. now left.
  - rewrite firstn_length, <- (Permutation_length (sorted_perm l)). reflexivity.
  - revert So. generalize (firstn k (sorted l)) as u, (skipn k (sorted l)) as w.
    intros u w. induction u as [|a u IH]; cbn; intros So x y Hx Hy; [contradiction|].
    inversion So; subst. destruct Hx as [<-|Hx].
    + rewrite Forall_forall in H2. apply Hb, H2, in_or_app. now right.
    + now apply IH.
Qed.
End Sorting.

Definition topk_leb (a b : uentry) : bool :=
  match snd a, snd b with None, _ => true | Some _, None => false | Some x, Some y => y <=? x end.
Definition argsort_leb (sgn : Z) (a b : uentry) : bool :=
  match snd a, snd b with
  | _, None => true | None, Some _ => false | Some x, Some y => sgn * y <=? sgn * x
  end.
Lemma topk_leb_ok k l : First before_topk k l (firstn k (sorted topk_leb l)).
Proof.
  apply sorted_First; unfold topk_leb, before_topk.
  - intros a b. destruct (snd a), (snd b); auto. rewrite !Z.leb_le. lia.
  - intros a b c. destruct (snd a), (snd b), (snd c); auto; try discriminate. rewrite !Z.leb_le. lia.
  - intros a b. destruct (snd a), (snd b); rewrite ?Z.leb_le; intuition congruence.
Qed.
Lemma argsort_leb_ok sgn k l :
  First (before_argsort sgn) k l (firstn k (sorted (argsort_leb sgn) l)).
Proof.
  apply sorted_First; unfold argsort_leb, before_argsort.
  - intros a b. destruct (snd a), (snd b); auto. rewrite !Z.leb_le. lia.
  - intros a b c. destruct (snd a), (snd b), (snd c); auto; try discriminate. rewrite !Z.leb_le. lia.
  - intros a b. destruct (snd a), (snd b); rewrite ?Z.leb_le; intuition congruence.
Qed.
Definition part_step_fun (sgn : Z) (row : list (option Z)) (keep : nat) (acc : list uentry)
    (bounds : nat * nat) : list uentry :=
  let (start, stop) := bounds in
  let top := firstn (Nat.min keep (stop - start))
               (sorted topk_leb (chunk_scores row start stop)) in
  firstn keep (sorted (argsort_leb sgn) (acc ++ from_start start top)).
Definition match_row_fun (one sgn : Z) (row : list (option Z)) (keep_n n_per : nat) :=
  let keep := Nat.min keep_n (length row) in
  if Nat.eqb (length row) n_per
  then firstn keep (sorted topk_leb (chunk_scores row 0 (length row)))
  else fold_left (part_step_fun sgn row keep) (chunk_bounds (length row) n_per)
         (repeat (0%nat, Some (- sgn * one)) keep).
Lemma match_row_fun_ok one sgn row keep_n n_per :
  match_row one sgn row keep_n n_per (match_row_fun one sgn row keep_n n_per).
Proof.
  unfold match_row, match_row_fun. destruct (Nat.eqb _ _); [apply topk_leb_ok|].
  generalize (repeat (0%nat, Some (- sgn * one)) (Nat.min keep_n (length row))) as acc.
  generalize (chunk_bounds (length row) n_per) as bs.
  induction bs as [|[a b] bs IH]; intros acc; cbn [fold_left]; [constructor|].
  econstructor; [|apply IH]. eexists. split; [apply topk_leb_ok|apply argsort_leb_ok].
Qed.
