From Coq Require Import List ZArith Lia Permutation Sorting.Sorted Arith.
From Verif Require Import Spec.BestMatches Model.DictIndex.
Import ListNotations.
Open Scope Z_scope.

(* ---------- generic list lemmas ---------- *)

Lemma filter_perm_length {A} (p : A -> bool) l l' :
  Permutation l l' -> length (filter p l) = length (filter p l').
Proof.
  induction 1 as [|x l l' H IH|x y l|l1 l2 l3 H1 IH1 H2 IH2]; simpl.
  - reflexivity.
  - destruct (p x); simpl; congruence.
  - destruct (p x), (p y); simpl; reflexivity.
  - congruence.
Qed.

Lemma filter_all {A} (p : A -> bool) l :
  (forall x, In x l -> p x = true) -> filter p l = l.
Proof.
  induction l as [|a l IH]; simpl; intros H; [reflexivity|].
  rewrite (H a (or_introl eq_refl)), IH; auto.
Qed.

Lemma filter_none {A} (p : A -> bool) l :
  (forall x, In x l -> p x = false) -> filter p l = [].
Proof.
  induction l as [|a l IH]; simpl; intros H; [reflexivity|].
  rewrite (H a (or_introl eq_refl)), IH; auto.
Qed.

Lemma filter_length_lt {A} (p : A -> bool) l x :
  In x l -> p x = false -> (length (filter p l) < length l)%nat.
Proof.
  induction l as [|a l IH]; simpl; intros Hin Hp; [contradiction|].
  assert (Hle : (length (filter p l) <= length l)%nat).
  { clear. induction l as [|b l IHl]; simpl; [lia|destruct (p b); simpl; lia]. }
  destruct Hin as [->|Hin].
  - rewrite Hp. lia.
  - specialize (IH Hin Hp). destruct (p a); simpl; lia.
Qed.

(* ---------- TopK ---------- *)

Lemma TopK_incl key k c o : TopK key k c o -> forall e, In e o -> In e c.
Proof.
  intros (r & P & _) e He. apply (Permutation_in e (Permutation_sym P)).
  apply in_or_app; left; exact He.
Qed.

Lemma TopK_len key k c o : TopK key k c o -> length o = Nat.min k (length c).
Proof. intros (r & _ & _ & L & _). exact L. Qed.

(** If [b] was left out then [k] candidates are kept. *)
Lemma TopK_rest_full k (c o r : list entry) b :
  Permutation c (o ++ r) -> length o = Nat.min k (length c) -> In b r ->
  length o = k.
Proof.
  intros P L Hb. apply Permutation_length in P. rewrite app_length in P.
  destruct r; [contradiction|]. simpl in P. lia.
Qed.

(** Core counting argument: an element left out of [a] (a top-[k]) is dominated by
    every element of the top-[k] of any list containing [a]. *)
Lemma dominated key k A a ra C r rr b x :
  Permutation A (a ++ ra) -> length a = Nat.min k (length A) ->
  (forall u v, In u a -> In v ra -> key v <= key u) ->
  Permutation C (r ++ rr) -> length r = Nat.min k (length C) ->
  (forall u v, In u r -> In v rr -> key v <= key u) ->
  (forall p : entry -> bool,
      (length (filter p a) <= length (filter p C))%nat) ->
  In b ra -> In x r -> key b <= key x.
Proof.
  intros PA LA DA PC LC DC Hsub Hb Hx.
  destruct (Z_le_gt_dec (key b) (key x)) as [Hle|Hgt]; [exact Hle|exfalso].
  assert (Hk : length a = k) by (eapply TopK_rest_full; eassumption).
  pose (p := fun e : entry => key b <=? key e).
  assert (Ha : filter p a = a).
  { apply filter_all. intros u Hu. unfold p. apply Z.leb_le. apply DA; assumption. }
  assert (Hrr : filter p rr = []).
  { apply filter_none. intros u Hu. unfold p. apply Z.leb_gt.
    specialize (DC x u Hx Hu). lia. }
  assert (Hr : (length (filter p r) < length r)%nat).
  { apply filter_length_lt with (x := x); [exact Hx|]. unfold p. apply Z.leb_gt. lia. }
  pose proof (Hsub p) as Hp. rewrite Ha in Hp.
  rewrite (filter_perm_length p _ _ PC), filter_app, Hrr, app_nil_r in Hp.
  assert (length r <= k)%nat by lia. lia.
Qed.

Lemma TopK_merge key k k' A a C c r :
  TopK key k A a -> TopK key k' C c -> TopK key k (a ++ c) r ->
  Nat.min k' (length C) = Nat.min k (length C) ->
  TopK key k (A ++ C) r.
Proof.
  intros (ra & PA & SA & LA & DA) (rc & PC & SC & LC & DC) (rr & PR & SR & LR & DR) Hk.
  rewrite app_length in LR.
  assert (Hfa : forall p : entry -> bool,
             (length (filter p a) <= length (filter p (a ++ c)))%nat).
  { intros p. rewrite filter_app, app_length. lia. }
  assert (Hfc : forall p : entry -> bool,
             (length (filter p c) <= length (filter p (a ++ c)))%nat).
  { intros p. rewrite filter_app, app_length. lia. }
  assert (LR' : length r = Nat.min k (length (a ++ c))) by (rewrite app_length; exact LR).
  exists (rr ++ ra ++ rc). repeat split.
  - transitivity ((a ++ ra) ++ (c ++ rc)).
    { apply Permutation_app; assumption. }
    transitivity ((a ++ c) ++ (ra ++ rc)).
    { rewrite <- !app_assoc. apply Permutation_app_head.
      rewrite !app_assoc. apply Permutation_app_tail. apply Permutation_app_comm. }
    rewrite (app_assoc r rr (ra ++ rc)). apply Permutation_app_tail. exact PR.
  - exact SR.
  - rewrite app_length. lia.
  - intros x b Hx Hb. apply in_app_or in Hb. destruct Hb as [Hb|Hb].
    + apply DR; assumption.
    + apply in_app_or in Hb. destruct Hb as [Hb|Hb].
      * eapply (dominated key k A a ra (a ++ c) r rr); eassumption.
      * assert (LC2 : length c = Nat.min k (length C)) by lia.
        eapply (dominated key k C c rc (a ++ c) r rr); eassumption.
Qed.

Lemma sorted_map (key key' : entry -> Z) (g : entry -> entry) l :
  (forall e, key' (g e) = key e) ->
  StronglySorted (fun a b => key b <= key a) l ->
  StronglySorted (fun a b => key' b <= key' a) (map g l).
Proof.
  intros Hg S. induction S as [|x l S IH F]; simpl; constructor; [exact IH|].
  apply Forall_forall. intros y Hy. apply in_map_iff in Hy. destruct Hy as (y0 & <- & Hy).
  rewrite !Hg. rewrite Forall_forall in F. auto.
Qed.

Lemma TopK_map key key' (g : entry -> entry) k c o :
  (forall e, key' (g e) = key e) -> TopK key k c o -> TopK key' k (map g c) (map g o).
Proof.
  intros Hg (r & P & S & L & D). exists (map g r). repeat split.
  - rewrite <- map_app. apply Permutation_map. exact P.
  - eapply sorted_map; eassumption.
  - rewrite !map_length. exact L.
  - intros a b Ha Hb. apply in_map_iff in Ha, Hb.
    destruct Ha as (a0 & <- & Ha), Hb as (b0 & <- & Hb). rewrite !Hg. auto.
Qed.

Lemma TopK_key_ext key key' k c o :
  (forall e, key e = key' e) -> TopK key k c o -> TopK key' k c o.
Proof.
  intros Hg H. rewrite <- (map_id c), <- (map_id o).
  apply TopK_map with (key := key) (g := fun e => e); [|exact H]. intros e; symmetry; apply Hg.
Qed.

(* the runnable instance *)
Lemma insert_perm key x l : Permutation (x :: l) (insert_desc key x l).
Proof.
  induction l as [|y l IH]; simpl; [apply Permutation_refl|].
  destruct (key y <? key x); [apply Permutation_refl|].
  transitivity (y :: x :: l); [apply perm_swap|]. apply perm_skip, IH.
Qed.
Lemma sort_perm key l : Permutation l (sort_desc key l).
Proof.
  induction l as [|x l IH]; simpl; [constructor|].
  transitivity (x :: sort_desc key l); [apply perm_skip, IH|apply insert_perm].
Qed.
Lemma insert_sorted key x l :
  StronglySorted (fun a b => key b <= key a) l ->
  StronglySorted (fun a b => key b <= key a) (insert_desc key x l).
Proof.
  induction 1 as [|y l S IH F]; simpl.
  - constructor; constructor.
  - destruct (Z.ltb_spec (key y) (key x)).
    + constructor; [constructor; assumption|]. constructor; [lia|].
      rewrite Forall_forall in F |- *. intros z Hz. specialize (F z Hz). simpl in F. lia.
    + constructor; [exact IH|]. rewrite Forall_forall in F |- *. intros z Hz.
      apply (Permutation_in z (Permutation_sym (insert_perm key x l))) in Hz.
      destruct Hz as [->|Hz]; [lia|auto].
Qed.
Lemma sort_sorted key l : StronglySorted (fun a b => key b <= key a) (sort_desc key l).
Proof. induction l; simpl; [constructor|apply insert_sorted; assumption]. Qed.

Lemma sorted_app_dom key l1 l2 :
  StronglySorted (fun a b : entry => key b <= key a) (l1 ++ l2) ->
  StronglySorted (fun a b => key b <= key a) l1 /\
  forall a b, In a l1 -> In b l2 -> key b <= key a.
Proof.
  induction l1 as [|x l1 IH]; simpl; intros S.
  - split; [constructor|intros a b []].
  - inversion S as [|x' l' S' F]; subst. destruct (IH S') as [S1 D]. split.
    + constructor; [exact S1|]. rewrite Forall_forall in F |- *. intros z Hz.
      apply F. apply in_or_app; auto.
    + intros a b [->|Ha] Hb; [|auto]. rewrite Forall_forall in F. apply F.
      apply in_or_app; auto.
Qed.

Lemma topk_fun_TopK key k l : TopK key k l (topk_fun key k l).
Proof.
  unfold topk_fun. exists (skipn k (sort_desc key l)).
  pose proof (sort_sorted key l) as S. rewrite <- (firstn_skipn k (sort_desc key l)) in S.
  destruct (sorted_app_dom _ _ _ S) as [S1 D]. repeat split.
  - rewrite firstn_skipn. apply sort_perm.
  - exact S1.
  - rewrite firstn_length. rewrite <- (Permutation_length (sort_perm key l)). reflexivity.
  - exact D.
Qed.

(* ---------- entries of the whole row ---------- *)

Definition entries (row : list Z) : list entry := combine (seq 0 (length row)) row.

Lemma combine_seq_nth (l : list Z) a i s :
  In (i, s) (combine (seq a (length l)) l) <->
  (a <= i < a + length l)%nat /\ nth_error l (i - a) = Some s.
Proof.
  revert a. induction l as [|x l IH]; intros a; simpl.
  - split; [contradiction|]. intros [H _]. lia.
  - rewrite IH. split.
    + intros [H|[H1 H2]].
      * injection H as -> ->. split; [lia|]. now rewrite Nat.sub_diag.
      * split; [lia|]. replace (i - a)%nat with (S (i - S a))%nat by lia. exact H2.
    + intros [H1 H2]. destruct (Nat.eq_dec i a) as [->|Hne].
      * left. rewrite Nat.sub_diag in H2. simpl in H2. congruence.
      * right. split; [lia|]. replace (i - a)%nat with (S (i - S a))%nat in H2 by lia.
        exact H2.
Qed.

Lemma combine_seq_fst (l : list Z) a : map fst (combine (seq a (length l)) l) = seq a (length l).
Proof.
  revert a; induction l as [|x l IH]; intros a; simpl; [reflexivity|]. now rewrite IH.
Qed.

Lemma combine_seq_shift (l : list Z) a b :
  map (fun e : entry => ((b + eidx e)%nat, escore e)) (combine (seq a (length l)) l)
  = combine (seq (b + a) (length l)) l.
Proof.
  revert a; induction l as [|x l IH]; intros a; simpl; [reflexivity|].
  rewrite IH. rewrite Nat.add_succ_r. reflexivity.
Qed.

Lemma combine_seq_app (l l' : list Z) a :
  combine (seq a (length (l ++ l'))) (l ++ l')
  = combine (seq a (length l)) l ++ combine (seq (a + length l) (length l')) l'.
Proof.
  revert a; induction l as [|x l IH]; intros a; simpl.
  - now rewrite Nat.add_0_r.
  - rewrite IH. do 2 f_equal. f_equal. f_equal. lia.
Qed.

Lemma firstn_slice {A} (l : list A) start stop :
  (start <= stop)%nat -> firstn start l ++ slice l start stop = firstn stop l.
Proof.
  intros H. unfold slice. revert start stop H.
  induction l as [|x l IH]; intros start stop H.
  - now rewrite !firstn_nil, skipn_nil, firstn_nil.
  - destruct start as [|start]; simpl.
    + now rewrite Nat.sub_0_r.
    + destruct stop as [|stop]; [lia|]. simpl. f_equal. apply IH. lia.
Qed.

Lemma slice_length {A} (l : list A) start stop : (length (slice l start stop) <= stop - start)%nat.
Proof. unfold slice. rewrite firstn_length. lia. Qed.

Lemma entries_length row a : length (combine (seq a (length row)) row : list entry) = length row.
Proof.
  transitivity (Nat.min (length (seq a (length row))) (length row)); [apply combine_length|].
  rewrite seq_length. lia.
Qed.
Lemma chunk_entries_length row start stop :
  length (chunk_entries row start stop) = length (slice row start stop).
Proof. apply entries_length. Qed.

(** Processing one more chunk extends the prefix seen so far. *)
Lemma entries_extend row start stop :
  (start <= stop)%nat -> (start <= length row)%nat ->
  entries (firstn start row) ++ shift start (chunk_entries row start stop)
  = entries (firstn stop row).
Proof.
  intros H1 H2. unfold entries, shift, chunk_entries.
  rewrite combine_seq_shift, Nat.add_0_r.
  rewrite <- (firstn_slice row start stop H1), combine_seq_app.
  rewrite (firstn_length_le row H2). reflexivity.
Qed.

(* ---------- chunk bounds ---------- *)

Lemma cumsum_from_repeat n m a :
  cumsum_from a (repeat n m) = map (fun i => (a + (i + 1) * n)%nat) (seq 0 m).
Proof.
  revert a; induction m as [|m IH]; intros a; simpl; [reflexivity|].
  rewrite IH. f_equal; [lia|]. rewrite <- seq_shift, map_map.
  apply map_ext. intros i. lia.
Qed.

Lemma raise_last_noop l m :
  (forall x, last l 0%nat = x -> (m <= x)%nat) -> raise_last l m = l.
Proof.
  induction l as [|x l IH]; simpl; intros H; [reflexivity|].
  destruct l as [|y l].
  - specialize (H x eq_refl). f_equal. lia.
  - f_equal. apply IH. intros z Hz. apply H. exact Hz.
Qed.

Lemma ceil_div_spec a b : (0 < b)%nat -> (0 < a)%nat ->
  (a <= ceil_div a b * b)%nat /\ ((ceil_div a b - 1) * b < a)%nat /\ (1 <= ceil_div a b)%nat.
Proof.
  intros Hb Ha. unfold ceil_div.
  pose proof (Nat.div_mod (a + b - 1) b ltac:(lia)) as H.
  pose proof (Nat.mod_upper_bound (a + b - 1) b ltac:(lia)) as H2.
  set (q := ((a + b - 1) / b)%nat) in *. assert (1 <= q)%nat by nia. nia.
Qed.

Lemma last_map_seq (f : nat -> nat) m :
  last (map f (seq 0 (S m))) 0%nat = f m.
Proof.
  rewrite seq_S, map_app. simpl. apply last_last.
Qed.

Lemma chunk_bounds_eq N n : (0 < N)%nat -> (0 < n)%nat ->
  chunk_bounds N n = map (fun i => ((i * n)%nat, ((i + 1) * n)%nat)) (seq 0 (ceil_div N n)).
Proof.
  intros HN Hn. destruct (ceil_div_spec N n Hn HN) as (H1 & H2 & H3).
  unfold chunk_bounds, n_iterations, cumsum. set (q := ceil_div N n) in *.
  destruct q as [|q]; [lia|].
  replace (S q - 1)%nat with q by lia.
  assert (Hs : cumsum_from 0 (0%nat :: repeat n q) = map (fun i => (i * n)%nat) (seq 0 (S q))).
  { cbn [cumsum_from]. rewrite cumsum_from_repeat. cbn [seq map]. f_equal.
    rewrite <- seq_shift, map_map. apply map_ext. intros i. lia. }
  rewrite Hs. rewrite cumsum_from_repeat.
  rewrite raise_last_noop.
  - generalize (seq 0 (S q)) as l. induction l as [|i l IH]; simpl; [reflexivity|].
    f_equal. exact IH.
  - intros x Hx. rewrite last_map_seq in Hx. lia.
Qed.

(* ---------- the loop invariant ---------- *)

Definition seen (one : Z) (keep : nat) (row : list Z) (p : nat) : list entry :=
  repeat (0%nat, - one) keep ++ entries (firstn p row).

Lemma loop_inv one row keep n res :
  forall m i acc, (0 < n)%nat -> (i * n <= length row)%nat ->
  (forall j, (j < m)%nat -> ((i + j) * n < length row)%nat) ->
  TopK escore keep (seen one keep row (i * n)) acc ->
  loop 1 row keep (map (fun j => ((j * n)%nat, ((j + 1) * n)%nat)) (seq i m)) acc res ->
  TopK escore keep (seen one keep row ((i + m) * n)) res.
Proof.
  induction m as [|m IH]; intros i acc Hn Hi Hm HT HL; simpl in HL.
  - inversion HL; subst. now rewrite Nat.add_0_r.
  - inversion HL as [|b bs acc0 acc' res0 Hstep Hrest]; subst.
    destruct Hstep as (top & Hmatch & Hmerge).
    assert (Hpos : (i * n < length row)%nat) by (specialize (Hm 0%nat); rewrite Nat.add_0_r in Hm; apply Hm; lia).
    assert (HT' : TopK escore keep (seen one keep row ((i + 1) * n)) acc').
    { unfold seen.
      rewrite <- (entries_extend row (i * n) ((i + 1) * n)) by (nia || lia).
      rewrite app_assoc.
      eapply TopK_merge with (k' := Nat.min keep ((i + 1) * n - i * n)).
      - exact HT.
      - eapply TopK_map; [|exact Hmatch]. intros e; reflexivity.
      - eapply TopK_key_ext; [|exact Hmerge]. intros e. cbn beta. lia.
      - unfold shift. rewrite map_length. rewrite chunk_entries_length.
        pose proof (slice_length row (i * n) ((i + 1) * n)). lia. }
    replace ((i + S m) * n)%nat with ((S i + m) * n)%nat by lia.
    destruct m as [|m].
    + simpl in Hrest. inversion Hrest; subst.
      replace ((S i + 0) * n)%nat with ((i + 1) * n)%nat by lia. exact HT'.
    + apply (IH (S i) acc' Hn).
      * specialize (Hm 1%nat ltac:(lia)). lia.
      * intros j Hj. specialize (Hm (S j) ltac:(lia)).
        replace (S i + j)%nat with (i + S j)%nat by lia. exact Hm.
      * replace (S i * n)%nat with ((i + 1) * n)%nat by lia. exact HT'.
      * exact Hrest.
Qed.

(* ---------- from TopK to the specification ---------- *)

Lemma sorted_nth key l p q (a b : entry) :
  StronglySorted (fun a b => key b <= key a) l ->
  (p < q)%nat -> nth_error l p = Some a -> nth_error l q = Some b -> key b <= key a.
Proof.
  intros S. revert p q. induction S as [|x l S IH F]; intros p q Hpq Hp Hq.
  - destruct p; discriminate.
  - destruct q as [|q]; [lia|]. destruct p as [|p]; simpl in *.
    + injection Hp as ->. rewrite Forall_forall in F. apply F. eapply nth_error_In; eassumption.
    + eapply IH; [|eassumption|eassumption]. lia.
Qed.

Lemma topk_best_matches row k res :
  TopK escore k (entries row) res ->
  best_matches 1 (fun i => nth i row 0) (length row) k res.
Proof.
  intros (r & P & S & L & D).
  assert (Hent : forall i s, In (i, s) (entries row) <-> (i < length row)%nat /\ nth_error row i = Some s).
  { intros i s. unfold entries. rewrite combine_seq_nth. rewrite Nat.sub_0_r.
    intuition lia. }
  assert (Hnd : NoDup (map fst (res ++ r))).
  { eapply Permutation_NoDup; [apply Permutation_map; exact P|].
    unfold entries. rewrite combine_seq_fst. apply seq_NoDup. }
  rewrite map_app in Hnd.
  assert (Hlen : length (entries row) = length row).
  { apply entries_length. }
  repeat split.
  - rewrite L, Hlen. reflexivity.
  - revert Hnd. generalize (map fst res) (map fst r). clear. intros l1 l2.
    induction l1 as [|x l1 IH]; simpl; intros H; constructor; inversion H; subst.
    + intros Hin. apply H2. apply in_or_app; auto.
    + auto.
  - apply (Hent i s). apply (Permutation_in _ (Permutation_sym P)). apply in_or_app; auto.
  - assert (Hin : In (i, s) (entries row)).
    { apply (Permutation_in _ (Permutation_sym P)). apply in_or_app; auto. }
    apply Hent in Hin. destruct Hin as [_ Hin]. symmetry. apply nth_error_nth. exact Hin.
  - intros p q i s j t Hpq Hp Hq. unfold at_least_as_good.
    pose proof (sorted_nth escore res p q _ _ S Hpq Hp Hq) as H. unfold escore in H. simpl in H. lia.
  - intros j Hj Hnot i s Hin. unfold at_least_as_good.
    assert (Hje : In (j, nth j row 0) (entries row)).
    { apply Hent. split; [exact Hj|]. apply nth_error_nth'. exact Hj. }
    apply (Permutation_in _ P) in Hje. apply in_app_or in Hje. destruct Hje as [Hje|Hje].
    + exfalso. apply Hnot. apply in_map_iff. exists (j, nth j row 0). auto.
    + pose proof (D _ _ Hin Hje) as H. unfold escore in H. simpl in H. lia.
Qed.

(** Placeholders cannot survive when all scores exceed them. *)
Lemma placeholders_gone one keep row res :
  (keep <= length row)%nat -> (forall s, In s row -> - one < s) ->
  TopK escore keep (repeat (0%nat, - one) keep ++ entries row) res ->
  TopK escore keep (entries row) res.
Proof.
  intros Hk Hs (r & P & S & L & D).
  assert (Hent : forall e, In e (entries row) -> - one < escore e).
  { intros [i s] H. unfold entries in H. apply combine_seq_nth in H.
    destruct H as [_ H]. apply Hs. eapply nth_error_In; exact H. }
  assert (Hlen : length (entries row) = length row).
  { apply entries_length. }
  pose (real := fun e : entry => - one <? escore e).
  assert (Hreal : filter real (repeat (0%nat, - one) keep ++ entries row) = entries row).
  { rewrite filter_app. rewrite filter_none, filter_all; [reflexivity| |].
    - intros e He. unfold real. apply Z.ltb_lt. auto.
    - intros e He. apply repeat_spec in He. subst e. unfold real, escore. simpl.
      apply Z.ltb_irrefl. }
  rewrite app_length, repeat_length, Hlen in L.
  assert (Hres : forall e, In e res -> real e = true).
  { intros e He. destruct (real e) eqn:E; [reflexivity|exfalso].
    unfold real in E. apply Z.ltb_ge in E.
    assert (Hr : filter real r = []).
    { apply filter_none. intros u Hu. unfold real. apply Z.ltb_ge.
      specialize (D _ _ He Hu). lia. }
    pose proof (filter_perm_length real _ _ P) as HL.
    rewrite Hreal, filter_app, Hr, app_nil_r, Hlen in HL.
    assert (Hlt : (length (filter real res) < length res)%nat).
    { apply filter_length_lt with (x := e); [exact He|]. unfold real. apply Z.ltb_ge. exact E. }
    lia. }
  exists (filter real r). repeat split.
  - rewrite <- (filter_all real res Hres) at 1. rewrite <- filter_app.
    rewrite <- Hreal.
    clear -P. induction P as [|x l l' H IH|x y l|l1 l2 l3 H1 IH1 H2 IH2]; simpl.
    + constructor.
    + destruct (real x); [apply perm_skip|]; exact IH.
    + destruct (real x), (real y); try apply perm_swap; apply Permutation_refl.
    + etransitivity; eassumption.
  - exact S.
  - rewrite Hlen. lia.
  - intros a b Ha Hb. apply filter_In in Hb. apply D; tauto.
Qed.

Lemma chunk_entries_whole row : chunk_entries row 0 (length row) = entries row.
Proof.
  unfold chunk_entries, slice, entries. simpl. rewrite Nat.sub_0_r, firstn_all. reflexivity.
Qed.

Lemma index_row_correct one row keep_n n_per res :
  row <> [] -> (0 < n_per)%nat -> (forall s, In s row -> - one < s) ->
  index_row one 1 row keep_n n_per res ->
  best_matches 1 (fun i => nth i row 0) (length row) keep_n res.
Proof.
  intros Hne Hn Hs H. unfold index_row in H.
  assert (HN : (0 < length row)%nat) by (destruct row; [congruence|simpl; lia]).
  assert (Hb : TopK escore (Nat.min keep_n (length row)) (entries row) res).
  { destruct (Nat.eqb_spec (length row) n_per) as [E|E].
    - unfold match_chunk in H. rewrite chunk_entries_whole in H. exact H.
    - rewrite (chunk_bounds_eq _ _ HN Hn) in H.
      destruct (ceil_div_spec _ _ Hn HN) as (H1 & H2 & H3).
      apply (placeholders_gone one); [lia|exact Hs|].
      assert (HI : TopK escore (Nat.min keep_n (length row))
                     (seen one (Nat.min keep_n (length row)) row ((0 + ceil_div (length row) n_per) * n_per)) res).
      { eapply loop_inv with (i := 0%nat); [exact Hn|simpl; lia| | |exact H].
        - intros j Hj. simpl. nia.
        - exists []. unfold seen. simpl. rewrite app_nil_r. unfold entries. simpl.
          rewrite app_nil_r.
          replace (- (1) * one) with (- one) by lia.
          repeat split.
          + apply Permutation_refl.
          + generalize (Nat.min keep_n (length row)). intros k. induction k; simpl; constructor; auto.
            apply Forall_forall. intros e He. apply repeat_spec in He. subst; lia.
          + rewrite ?app_nil_r, ?repeat_length. simpl. lia.
          + intros a b _ []. }
      unfold seen in HI. simpl in HI. rewrite firstn_all2 in HI by exact H1. exact HI. }
  apply topk_best_matches in Hb. unfold best_matches in *.
  destruct Hb as (B1 & B2). split; [lia|exact B2].
Qed.

(** Independence from the batch size: the list of scores is determined. *)
Lemma topk_scores_unique key k c o o' :
  TopK key k c o -> TopK key k c o' -> map key o = map key o'.
Proof.
  intros (r & P & S & L & D) (r' & P' & S' & L' & D').
  assert (Hcnt : forall t, length (filter (fun e => (t <=? key e)%Z) o) = length (filter (fun e => (t <=? key e)%Z) o')).
  { assert (Hgen : forall o r o' r', Permutation c (o ++ r) -> Permutation c (o' ++ r') ->
        length o = Nat.min k (length c) -> length o' = Nat.min k (length c) ->
        (forall a b, In a o -> In b r -> (key b <= key a)%Z) ->
        forall t : Z, (length (filter (fun e => (t <=? key e)%Z) o') <= length (filter (fun e => (t <=? key e)%Z) o))%nat).
    { clear. intros o r o' r' P P' L L' D t.
      set (p := fun e => t <=? key e).
      destruct (Nat.eq_dec (length (filter p o)) (length o)) as [E|E].
      - assert (length (filter p o') <= length o')%nat by (clear; induction o'; simpl; [lia|destruct (p a); simpl; lia]).
        lia.
      - assert (Hex : exists x, In x o /\ p x = false).
        { clear -E. induction o as [|x o IH]; simpl in E; [lia|].
          destruct (p x) eqn:Hx; [|exists x; simpl; auto].
          destruct IH as (y & Hy & Hpy); [simpl in E; lia|]. exists y; simpl; auto. }
        destruct Hex as (x & Hx & Hpx).
        assert (Hr : filter p r = []).
        { apply filter_none. intros u Hu. unfold p in *. apply Z.leb_gt in Hpx. apply Z.leb_gt.
          specialize (D _ _ Hx Hu). lia. }
        pose proof (filter_perm_length p _ _ P) as H1.
        pose proof (filter_perm_length p _ _ P') as H2.
        rewrite filter_app, app_length in H1, H2. rewrite Hr in H1. simpl in H1. lia. }
    intros t. apply Nat.le_antisymm; [eapply (Hgen o' r' o r)|eapply (Hgen o r o' r')]; eassumption. }
  clear P P' D D'.
  assert (LL : length o = length o') by lia. clear L L'.
  revert o' S' LL Hcnt. induction S as [|x o S IH F]; intros o' S' LL Hcnt.
  - destruct o'; [reflexivity|discriminate].
  - destruct o' as [|x' o']; [discriminate|]. inversion S' as [|x0 o0 S'' F']; subst.
    assert (Hx : key x = key x').
    { pose proof (Hcnt (key x)) as H1. pose proof (Hcnt (key x')) as H2. simpl in H1, H2.
      rewrite Z.leb_refl in H1, H2.
      rewrite Forall_forall in F, F'.
      destruct (Z.lt_trichotomy (key x) (key x')) as [Hlt|[He|Hlt]]; [exfalso|exact He|exfalso].
      - assert (E : key x' <=? key x = false) by (apply Z.leb_gt; lia). rewrite E in H2.
        rewrite filter_none in H2; [discriminate|]. intros u Hu. apply Z.leb_gt.
        specialize (F u Hu). simpl in F. lia.
      - assert (E : key x <=? key x' = false) by (apply Z.leb_gt; lia). rewrite E in H1.
        rewrite (filter_none _ o') in H1; [discriminate|]. intros u Hu. apply Z.leb_gt.
        specialize (F' u Hu). simpl in F'. lia. }
    simpl. f_equal; [exact Hx|]. apply IH; [exact S''|simpl in LL; lia|].
    intros t. specialize (Hcnt t). simpl in Hcnt. rewrite <- Hx in Hcnt.
    destruct (t <=? key x); simpl in Hcnt; lia.
Qed.

(* ---------- the runnable version is an instance ---------- *)

Lemma loop_fun_loop sgn row keep bs acc :
  loop sgn row keep bs acc (fold_left (loop_step_fun sgn row keep) bs acc).
Proof.
  revert acc. induction bs as [|[a b] bs IH]; intros acc; simpl; [constructor|].
  econstructor; [|apply IH]. unfold loop_step.
  exists (topk_fun escore (Nat.min keep (b - a)) (chunk_entries row a b)). split.
  - apply topk_fun_TopK.
  - apply topk_fun_TopK.
Qed.

Lemma index_row_fun_ok one sgn row keep_n n_per :
  index_row one sgn row keep_n n_per (index_row_fun one sgn row keep_n n_per).
Proof.
  unfold index_row, index_row_fun. destruct (Nat.eqb_spec (length row) n_per).
  - apply topk_fun_TopK.
  - apply loop_fun_loop.
Qed.

(** The scores of a best-match list are determined by the similarity table. *)
Lemma best_matches_scores_unique score N k res res' :
  best_matches 1 score N k res -> best_matches 1 score N k res' ->
  map snd res = map snd res'.
Proof.
  intros (L & ND & Hs & So & Om) (L' & ND' & Hs' & So' & Om').
  (* both are top-k of the list of all entries *)
  set (all := map (fun i => (i, score i)) (seq 0 N)).
  assert (Hgen : forall r, length r = Nat.min k N -> NoDup (map fst r) ->
     (forall i s, In (i, s) r -> (i < N)%nat /\ s = score i) ->
     (forall p q i s j t, (p < q)%nat -> nth_error r p = Some (i, s) ->
        nth_error r q = Some (j, t) -> at_least_as_good 1 s t) ->
     (forall j, (j < N)%nat -> ~ In j (map fst r) ->
        forall i s, In (i, s) r -> at_least_as_good 1 s (score j)) ->
     TopK escore k all r).
  { clear. intros r L ND Hs So Om.
    set (out := filter (fun e => negb (if in_dec Nat.eq_dec (fst e) (map fst r) then true else false)) all).
    exists out.
    assert (NDr : NoDup r) by (eapply NoDup_map_inv; exact ND).
    assert (NDall : NoDup all).
    { apply FinFun.Injective_map_NoDup; [|apply seq_NoDup]. intros a b H. congruence. }
    assert (Hall : forall e, In e all <-> (fst e < N)%nat /\ snd e = score (fst e)).
    { intros [i s]. unfold all. rewrite in_map_iff. simpl. split.
      - intros (x & H & Hx). injection H as -> <-. apply in_seq in Hx. split; [lia|reflexivity].
      - intros [H1 ->]. exists i. split; [reflexivity|]. apply in_seq. lia. }
    assert (Hout : forall e, In e out <-> In e all /\ ~ In (fst e) (map fst r)).
    { intros e. unfold out. rewrite filter_In. destruct (in_dec Nat.eq_dec (fst e) (map fst r)); simpl; intuition congruence. }
    repeat split.
    - apply NoDup_Permutation; [exact NDall| |].
      + assert (Happ : forall (l1 l2 : list entry), NoDup l1 -> NoDup l2 ->
                  (forall e, In e l1 -> ~ In e l2) -> NoDup (l1 ++ l2)).
        { clear. induction l1 as [|x l1 IH]; simpl; intros l2 H1 H2 H3; [exact H2|].
          inversion H1; subst. constructor.
          - intros Hin. apply in_app_or in Hin. destruct Hin as [Hin|Hin]; [contradiction|].
            apply (H3 x); auto.
          - apply IH; auto. }
        apply Happ; [exact NDr|apply NoDup_filter; exact NDall|].
        intros e He Hoe. apply Hout in Hoe. destruct Hoe as [_ Hoe]. apply Hoe. apply in_map. exact He.
      + intros [i s]. rewrite in_app_iff, Hout, Hall. simpl. split.
        * intros [H1 H2]. destruct (in_dec Nat.eq_dec i (map fst r)) as [Hi|Hi].
          -- left. apply in_map_iff in Hi. destruct Hi as ([i' s'] & Heq & Hi). simpl in Heq. subst i'.
             destruct (Hs _ _ Hi) as [_ ->]. subst s. exact Hi.
          -- right. auto.
        * intros [H|[H _]]; [apply Hs in H; exact H|exact H].
    - clear -So. induction r as [|x r IH]; constructor.
      + apply IH. intros p q i s j t Hpq Hp Hq. apply (So (S p) (S q) i s j t); [lia|exact Hp|exact Hq].
      + apply Forall_forall. intros [j t] Hin. apply In_nth_error in Hin. destruct Hin as [q Hq].
        destruct x as [i s]. specialize (So 0%nat (S q) i s j t ltac:(lia) eq_refl Hq).
        unfold at_least_as_good in So. unfold escore. simpl. lia.
    - rewrite L. unfold all. rewrite map_length, seq_length. reflexivity.
    - intros [i s] [j t] Hi Hj. apply Hout in Hj. destruct Hj as [Hj1 Hj2].
      apply Hall in Hj1. simpl in *. destruct Hj1 as [Hj1 ->].
      specialize (Om j Hj1 Hj2 i s Hi). unfold at_least_as_good in Om. unfold escore. simpl. lia. }
  apply (topk_scores_unique escore k all); apply Hgen; assumption.
Qed.

(* ---------- sign -1 ---------- *)

Lemma single_pass_largest one sgn row keep_n res :
  index_row one sgn row keep_n (length row) res ->
  best_matches 1 (fun i => nth i row 0) (length row) keep_n res.
Proof.
  unfold index_row. rewrite Nat.eqb_refl. unfold match_chunk. rewrite chunk_entries_whole.
  intros H. apply topk_best_matches in H. unfold best_matches in *.
  destruct H as (B1 & B2). split; [lia|exact B2].
Qed.

(* ---------- navigation mask ---------- *)

Lemma scatter_compress {P A} (f : P -> A) fill keep l :
  length keep = length l ->
  scatter fill keep (map f (compress keep l))
  = Some (map (fun bx : bool * P => if fst bx then f (snd bx) else fill) (combine keep l)).
Proof.
  revert l. induction keep as [|b keep IH]; intros l H; destruct l as [|x l]; try discriminate.
  - reflexivity.
  - simpl in H. destruct b; simpl; rewrite IH by lia; reflexivity.
Qed.

Lemma index_masked_spec {P A} (f : P -> A) fill mask pats :
  length mask = length pats ->
  exists out, index_masked f fill mask pats = Some out /\ length out = length pats /\
  forall i m p, nth_error mask i = Some m -> nth_error pats i = Some p ->
    nth_error out i = Some (negb m, if m then fill else f p).
Proof.
  intros H. unfold index_masked. rewrite scatter_compress by (rewrite map_length; exact H).
  eexists. split; [reflexivity|].
  revert pats H. induction mask as [|m mask IH]; intros pats H; destruct pats as [|p pats]; try discriminate; simpl in H.
  - simpl. split; [reflexivity|]. intros i m p Hm. destruct i; discriminate.
  - destruct (IH pats ltac:(lia)) as [IH1 IH2]. simpl. split; [f_equal; exact IH1|].
    intros i m' p' Hm Hp. destruct i as [|i]; simpl in *.
    + injection Hm as <-. injection Hp as <-. destruct m; reflexivity.
    + apply IH2; assumption.
Qed.

Lemma both_signs_constant score N k res :
  (1 <= k)%nat -> best_matches 1 score N k res -> best_matches (-1) score N k res ->
  forall i j, (i < N)%nat -> (j < N)%nat -> score i = score j.
Proof.
  intros Hk (L & _ & Hs & So & Om) (_ & _ & _ & So' & Om') i j Hi Hj.
  destruct res as [|[i0 s0] res]; [simpl in L; lia|].
  assert (Hall : forall x, (x < N)%nat -> score x = s0).
  { intros x Hx. destruct (in_dec Nat.eq_dec x (map fst ((i0, s0) :: res))) as [Hin|Hin].
    - apply in_map_iff in Hin. destruct Hin as ([x' t] & Hx' & Hin). simpl in Hx'. subst x'.
      destruct (Hs _ _ Hin) as [_ Ht]. destruct Hin as [Heq|Hin]; [congruence|].
      apply In_nth_error in Hin. destruct Hin as [q Hq].
      specialize (So 0%nat (S q) i0 s0 x t ltac:(lia) eq_refl Hq).
      specialize (So' 0%nat (S q) i0 s0 x t ltac:(lia) eq_refl Hq).
      unfold at_least_as_good in *. lia.
    - specialize (Om x Hx Hin i0 s0 (or_introl eq_refl)).
      specialize (Om' x Hx Hin i0 s0 (or_introl eq_refl)).
      unfold at_least_as_good in *. lia. }
  rewrite (Hall i Hi), (Hall j Hj). reflexivity.
Qed.
