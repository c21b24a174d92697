From Coq Require Import List Arith ZArith Bool Lia Sorted Permutation.
From Verif Require Import Model.Sorting.
Import ListNotations.
Local Open Scope Z_scope.

Lemma put_in x l a : In a (put x l) <-> a = x \/ In a l.
Proof.
  induction l as [|y r IH]; cbn; [intuition|]. destruct (Z.ltb_spec x y); cbn; [intuition|].
  destruct (Z.eqb_spec x y) as [->|NE]; cbn; [intuition|]. rewrite IH. intuition.
Qed.
Lemma unique_in l a : In a (unique l) <-> In a l.
Proof. induction l as [|x l IH]; cbn; [tauto|]. rewrite put_in, IH. intuition. Qed.
Lemma put_sorted x l : StronglySorted Z.lt l -> StronglySorted Z.lt (put x l).
Proof.
  induction l as [|y r IH]; intros S; cbn; [repeat constructor|]. apply StronglySorted_inv in S as S2. destruct S2 as [S1 F]. rewrite Forall_forall in F.
  destruct (Z.ltb_spec x y).
  - constructor; [exact S|]. apply Forall_forall. intros a [<-|I]; [assumption|]. specialize (F a I). lia.
  - destruct (Z.eqb_spec x y); [exact S|]. constructor; [apply IH; exact S1|]. apply Forall_forall. intros a I. apply put_in in I. destruct I as [->|I]; [lia|apply F; exact I].
Qed.
Lemma unique_sorted l : StronglySorted Z.lt (unique l).
Proof. induction l as [|x l IH]; cbn; [constructor|apply put_sorted; exact IH]. Qed.
Lemma sorted_ext : forall l l', StronglySorted Z.lt l -> StronglySorted Z.lt l' -> (forall a, In a l <-> In a l') -> l = l'.
Proof.
  induction l as [|x l IH]; intros [|y l'] S S' E.
  - reflexivity.
  - exfalso. apply (proj2 (E y)). left. reflexivity.
  - exfalso. apply (proj1 (E x)). left. reflexivity.
  - apply StronglySorted_inv in S. apply StronglySorted_inv in S'. destruct S as [S F]. destruct S' as [S' F']. rewrite Forall_forall in F, F'.
    assert (XY : x = y).
    { destruct (proj1 (E x) (or_introl eq_refl)) as [H|H]; [congruence|]. destruct (proj2 (E y) (or_introl eq_refl)) as [H2|H2]; [congruence|].
      specialize (F _ H2). specialize (F' _ H). lia. }
    subst y. f_equal. apply IH; [assumption|assumption|]. intros a. split; intros I.
    + destruct (proj1 (E a) (or_intror I)) as [<-|H]; [specialize (F x I); lia|exact H].
    + destruct (proj2 (E a) (or_intror I)) as [<-|H]; [specialize (F' x I); lia|exact H].
Qed.
Lemma unique_same l l' : (forall a, In a l <-> In a l') -> unique l = unique l'.
Proof. intros E. apply sorted_ext; [apply unique_sorted|apply unique_sorted|]. intros a. rewrite !unique_in. apply E. Qed.
Lemma unique_eq l u : StronglySorted Z.lt u -> (forall a, In a l <-> In a u) -> unique l = u.
Proof. intros S E. apply sorted_ext; [apply unique_sorted|exact S|]. intros a. rewrite unique_in. apply E. Qed.
Lemma sorted_nodup l : StronglySorted Z.lt l -> NoDup l.
Proof.
  induction l as [|x l IH]; intros S; [constructor|]. apply StronglySorted_inv in S. destruct S as [S F]. rewrite Forall_forall in F.
  constructor; [intros I; specialize (F x I); lia|apply IH; exact S].
Qed.

(** Consecutive integers. *)
Definition range (a : Z) (n : nat) : list Z := map (fun i => a + Z.of_nat i) (seq 0 n).
Lemma range_in a n x : In x (range a n) <-> a <= x < a + Z.of_nat n.
Proof.
  unfold range. rewrite in_map_iff. split.
  - intros [i [<- I]]. apply in_seq in I. lia.
  - intros H. exists (Z.to_nat (x - a)). split; [lia|]. apply in_seq. lia.
Qed.
Lemma range_S a n : range a (S n) = a :: range (a + 1) n.
Proof.
  unfold range. cbn [seq map]. f_equal; [lia|]. rewrite <- seq_shift, map_map. apply map_ext. intros i. lia.
Qed.
Lemma range_length a n : length (range a n) = n. Proof. unfold range. rewrite map_length, seq_length. reflexivity. Qed.
Lemma range_sorted n : forall a, StronglySorted Z.lt (range a n).
Proof.
  induction n as [|n IH]; intros a; [constructor|]. rewrite range_S. constructor; [apply IH|]. apply Forall_forall. intros x I. apply range_in in I. lia.
Qed.
Lemma diff_cons x y r : diff (x :: y :: r) = (y - x) :: diff (y :: r). Proof. reflexivity. Qed.
Lemma diff_range n : forall a, forallb (fun d => d =? 1) (diff (range a n)) = true.
Proof.
  induction n as [|n IH]; intros a; [reflexivity|]. destruct n as [|n]; [reflexivity|]. specialize (IH (a + 1)). rewrite range_S in IH |- *. rewrite range_S, diff_cons.
  cbn [forallb]. replace (a + 1 - a =? 1) with true by (symmetry; apply Z.eqb_eq; lia). exact IH.
Qed.
Lemma diff_one_range l : forallb (fun d => d =? 1) (diff l) = true -> l = match l with [] => [] | x :: _ => range x (length l) end.
Proof.
  induction l as [|x l IH]; intros H; [reflexivity|]. destruct l as [|y r]; [cbn; f_equal; lia|]. rewrite diff_cons in H. cbn [forallb] in H.
  apply andb_true_iff in H. destruct H as [H1 H2]. apply Z.eqb_eq in H1. cbn [length]. rewrite range_S. f_equal. rewrite (IH H2) at 1.
  replace (x + 1) with y by lia. reflexivity.
Qed.

(** argsort. *)
Lemma put_key_perm keys i l : Permutation (i :: l) (put_key keys i l).
Proof.
  induction l as [|j r IH]; cbn; [reflexivity|]. destruct (nth i keys 0 <=? nth j keys 0); [reflexivity|].
  rewrite perm_swap. constructor. exact IH.
Qed.
Lemma argsort_perm keys : Permutation (seq 0 (length keys)) (argsort keys).
Proof.
  unfold argsort. induction (seq 0 (length keys)) as [|i l IH]; cbn; [constructor|]. rewrite <- put_key_perm. constructor. exact IH.
Qed.
Lemma put_key_sorted keys i l : StronglySorted Z.le (map (fun j => nth j keys 0) l) -> StronglySorted Z.le (map (fun j => nth j keys 0) (put_key keys i l)).
Proof.
  induction l as [|j r IH]; intros S; cbn; [repeat constructor|]. cbn in S. apply StronglySorted_inv in S as S2. destruct S2 as [S1 F]. rewrite Forall_forall in F.
  destruct (Z.leb_spec (nth i keys 0) (nth j keys 0)); cbn.
  - constructor; [exact S|]. apply Forall_forall. intros a [<-|I]; [assumption|]. specialize (F a I). lia.
  - constructor; [apply IH; exact S1|]. apply Forall_forall. intros a I. apply in_map_iff in I. destruct I as [k [<- I]].
    apply (Permutation_in k (Permutation_sym (put_key_perm keys i r))) in I. destruct I as [<-|I]; [lia|]. apply F. apply in_map_iff. exists k. auto.
Qed.
Lemma argsort_sorted keys : StronglySorted Z.le (map (fun j => nth j keys 0) (argsort keys)).
Proof. unfold argsort. induction (seq 0 (length keys)) as [|i l IH]; cbn; [constructor|apply put_key_sorted; exact IH]. Qed.
Lemma map_nth_seq (keys : list Z) : map (fun j => nth j keys 0) (seq 0 (length keys)) = keys.
Proof.
  induction keys as [|x keys IH]; [reflexivity|]. cbn [length seq map nth]. f_equal. rewrite <- seq_shift, map_map. exact IH.
Qed.
Lemma le_nodup_lt l : StronglySorted Z.le l -> NoDup l -> StronglySorted Z.lt l.
Proof.
  induction l as [|x l IH]; intros S N; [constructor|]. apply StronglySorted_inv in S. destruct S as [S F]. rewrite Forall_forall in F. inversion N as [|? ? NI N']; subst.
  constructor; [apply IH; assumption|]. apply Forall_forall. intros a I. specialize (F a I). assert (a <> x) by (intros ->; contradiction). lia.
Qed.
(** Sorting a permutation of 0, 1, ..., n - 1 gives its inverse. *)
Lemma argsort_inverse keys : NoDup keys -> (forall a, In a keys <-> 0 <= a < Z.of_nat (length keys)) ->
  map (fun j => nth j keys 0) (argsort keys) = range 0 (length keys).
Proof.
  intros N R. assert (P : Permutation keys (map (fun j => nth j keys 0) (argsort keys))).
  { rewrite <- (map_nth_seq keys) at 1. apply Permutation_map. apply argsort_perm. }
  apply sorted_ext.
  - apply le_nodup_lt; [apply argsort_sorted|]. eapply Permutation_NoDup; [exact P|exact N].
  - apply range_sorted.
  - intros a. rewrite range_in. rewrite Z.add_0_l. rewrite <- R. split; intros I; [eapply Permutation_in; [apply Permutation_sym; exact P|exact I]|eapply Permutation_in; [exact P|exact I]].
Qed.
Lemma argsort_length keys : length (argsort keys) = length keys.
Proof. rewrite <- (Permutation_length (argsort_perm keys)). apply seq_length. Qed.
(** The k-th entry of the sorted order is the position of key k. *)
Lemma argsort_at keys k : NoDup keys -> (forall a, In a keys <-> 0 <= a < Z.of_nat (length keys)) -> (k < length keys)%nat ->
  nth_error (argsort keys) (Z.to_nat (nth k keys 0)) = Some k.
Proof.
  intros N R K. assert (B : 0 <= nth k keys 0 < Z.of_nat (length keys)) by (apply R; apply nth_In; exact K).
  set (j := Z.to_nat (nth k keys 0)). assert (J : (j < length (argsort keys))%nat) by (rewrite argsort_length; unfold j; lia).
  destruct (nth_error (argsort keys) j) as [m|] eqn:E; [|apply nth_error_None in E; lia]. f_equal.
  pose proof (argsort_inverse keys N R) as INV. apply (f_equal (fun l => nth_error l j)) in INV. rewrite nth_error_map, E in INV. cbn [option_map] in INV.
  assert (RJ : nth_error (range 0 (length keys)) j = Some (Z.of_nat j)).
  { unfold range. rewrite argsort_length in J. rewrite nth_error_map. rewrite (nth_error_nth' _ 0%nat) by (rewrite seq_length; exact J). rewrite seq_nth by exact J. reflexivity. }
  rewrite RJ in INV. injection INV as INV.
  assert (M : (m < length keys)%nat) by (apply nth_error_In in E; apply (Permutation_in _ (Permutation_sym (argsort_perm keys))) in E; apply in_seq in E; lia).
  apply (proj1 (NoDup_nth keys 0) N m k M K). rewrite INV. unfold j. lia.
Qed.

(** Extrema. *)
Lemma fold_min x r : (fold_right Z.min x r <= x /\ forall a, In a r -> fold_right Z.min x r <= a) /\ (In (fold_right Z.min x r) (x :: r)).
Proof.
  induction r as [|y r [[H1 H2] H3]]; cbn; [split; [split; [lia|tauto]|auto]|]. split; [split; [lia|intros a [<-|I]; [lia|specialize (H2 a I); lia]]|].
  cbn in H3. destruct (Z.min_spec y (fold_right Z.min x r)) as [[_ ->]|[_ ->]]; [auto|]. destruct H3; auto.
Qed.
Lemma fold_max x r : (x <= fold_right Z.max x r /\ forall a, In a r -> a <= fold_right Z.max x r) /\ (In (fold_right Z.max x r) (x :: r)).
Proof.
  induction r as [|y r [[H1 H2] H3]]; cbn; [split; [split; [lia|tauto]|auto]|]. split; [split; [lia|intros a [<-|I]; [lia|specialize (H2 a I); lia]]|].
  cbn in H3. destruct (Z.max_spec y (fold_right Z.max x r)) as [[_ ->]|[_ ->]]; [|auto]. destruct H3; auto.
Qed.
Lemma minimum_spec l m : minimum l = Some m <-> In m l /\ forall a, In a l -> m <= a.
Proof.
  destruct l as [|x r]; cbn; [split; [discriminate|tauto]|]. destruct (fold_min x r) as [[H1 H2] H3]. split.
  - intros E. injection E as <-. split; [exact H3|]. intros a [<-|I]; [exact H1|apply H2; exact I].
  - intros [I H]. f_equal. assert (m <= fold_right Z.min x r) by (apply H; exact H3). destruct I as [<-|I]; [lia|]. specialize (H2 m I). lia.
Qed.
Lemma maximum_spec l m : maximum l = Some m <-> In m l /\ forall a, In a l -> a <= m.
Proof.
  destruct l as [|x r]; cbn; [split; [discriminate|tauto]|]. destruct (fold_max x r) as [[H1 H2] H3]. split.
  - intros E. injection E as <-. split; [exact H3|]. intros a [<-|I]; [exact H1|apply H2; exact I].
  - intros [I H]. f_equal. assert (fold_right Z.max x r <= m) by (apply H; exact H3). destruct I as [<-|I]; [lia|]. specialize (H2 m I). lia.
Qed.

Lemma index_of_nth l x j : NoDup l -> nth_error l j = Some x -> index_of x l = Some j.
Proof.
  revert j. induction l as [|y r IH]; intros j N E; [destruct j; discriminate|]. inversion N as [|? ? NI N']; subst. cbn. destruct j as [|j]; cbn in E.
  - injection E as ->. rewrite Z.eqb_refl. reflexivity.
  - destruct (Z.eqb_spec y x) as [->|NE]; [exfalso; apply NI; eapply nth_error_In; exact E|]. rewrite (IH j N' E). reflexivity.
Qed.
Lemma index_of_some l x j : index_of x l = Some j -> nth_error l j = Some x.
Proof.
  revert j. induction l as [|y r IH]; intros j E; [discriminate|]. cbn in E. destruct (Z.eqb_spec y x) as [->|NE]; [injection E as <-; reflexivity|].
  destruct (index_of x r) as [k|]; [|discriminate]. injection E as <-. apply IH. reflexivity.
Qed.
Lemma index_of_in l x : In x l -> exists j, index_of x l = Some j /\ (j < length l)%nat.
Proof.
  induction l as [|y r IH]; intros I; [destruct I|]. cbn. destruct (Z.eqb_spec y x) as [->|NE]; [exists 0%nat; split; [reflexivity|lia]|].
  destruct I as [|I]; [congruence|]. destruct (IH I) as [j [-> J]]. exists (S j). split; [reflexivity|lia].
Qed.
