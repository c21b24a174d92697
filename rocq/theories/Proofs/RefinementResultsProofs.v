(** Lemmas on boolean indexing for C42. *)
From Coq Require Import List ZArith Bool Arith Lia.
From Verif Require Import Model.DictIndex Model.Binary Model.RefinementResults.
From Verif Require Proofs.DictIndexProofs.
Import ListNotations.
Local Open Scope nat_scope.

Lemma nth_combine : forall {A B} (a : list A) (b : list B) p da db, length a = length b -> nth p (combine a b) (da, db) = (nth p a da, nth p b db).
Proof. intros. now apply combine_nth. Qed.
Lemma both_length : forall a b, length a = length b -> length (both a b) = length a.
Proof. intros. unfold both. rewrite map_length, combine_length. lia. Qed.
Lemma both_nth : forall a b p, length a = length b -> nth p (both a b) false = nth p a false && nth p b false.
Proof.
  intros a b p L. unfold both. change false with ((fun xy => fst xy && snd xy) (false, false)) at 1. rewrite map_nth, nth_combine by exact L. reflexivity.
Qed.
Lemma nth_negb : forall k p, p < length k -> nth p (map negb k) false = negb (nth p k false).
Proof. intros k p L. rewrite (nth_indep _ false (negb false)) by (now rewrite map_length). apply map_nth. Qed.

Lemma compress_map : forall {A B} (f : A -> B) k l, compress k (map f l) = map f (compress k l).
Proof. induction k as [|b k IH]; intros [|x l]; cbn; try reflexivity. destruct b; cbn; now rewrite IH. Qed.
Lemma compress_combine : forall {A B} k (a : list A) (b : list B), length a = length b -> compress k (combine a b) = combine (compress k a) (compress k b).
Proof. induction k as [|x k IH]; intros [|y a] [|z b] L; cbn in *; try lia; try reflexivity. destruct x; cbn; now rewrite IH by lia. Qed.
Lemma compress_compress : forall {A} a b (l : list A), length a = length b -> length a = length l ->
  compress (compress a b) (compress a l) = compress (both a b) l.
Proof.
  unfold both. induction a as [|x a IH]; intros [|y b] [|z l] L1 L2; cbn in *; try lia; try reflexivity.
  destruct x; cbn; [destruct y; cbn|]; rewrite IH by lia; reflexivity.
Qed.
Lemma compress_repeat : forall {A} k (x : A), compress k (repeat x (length k)) = repeat x (count_occ bool_dec k true).
Proof.
  induction k as [|b k IH]; intros x; cbn [length repeat compress count_occ]; [reflexivity|].
  destruct b; cbn; now rewrite IH.
Qed.
Lemma in_compress : forall {A} k (l : list A) x d, length k = length l ->
  (In x (compress k l) <-> exists p, p < length l /\ nth p k false = true /\ nth p l d = x).
Proof.
  induction k as [|b k IH]; intros [|y l] x d L; cbn [length compress] in *; try lia.
  - split; [intros []|intros (p & H & _); lia].
  - specialize (IH l x d ltac:(lia)). split.
    + intros H. assert (C : (b = true /\ y = x) \/ In x (compress k l)) by (destruct b; cbn in H; tauto).
      destruct C as [[-> ->]|C]; [exists 0; cbn; repeat split; lia|]. apply IH in C as (p & P1 & P2 & P3). exists (S p). cbn. repeat split; auto; lia.
    + intros ([|p] & P1 & P2 & P3); cbn in P2, P3.
      * subst. now left.
      * assert (In x (compress k l)) by (apply IH; exists p; repeat split; auto; lia). destruct b; [now right|assumption].
Qed.
Lemma filter_map_S : forall (f : nat -> bool) l, filter f (map S l) = map S (filter (fun p => f (S p)) l).
Proof. intros f l. induction l as [|x l IH]; cbn; [reflexivity|]. destruct (f (S x)); cbn; now rewrite IH. Qed.
Lemma positions_compress : forall {A} k (l : list A) d, length k = length l -> compress k l = map (fun p => nth p l d) (positions k).
Proof.
  unfold positions. induction k as [|b k IH]; intros [|y l] d L; cbn [length compress seq filter] in *; try lia; [reflexivity|].
  rewrite <- seq_shift.
  rewrite filter_map_S. cbn [nth].
  rewrite (IH l d) by lia. destruct b; cbn [map nth]; rewrite map_map; reflexivity.
Qed.
Lemma in_positions : forall k p, In p (positions k) <-> p < length k /\ nth p k false = true.
Proof. intros. unfold positions. rewrite filter_In, in_seq. intuition lia. Qed.

Lemma put_nth : forall {A B} (f : B -> A) keep l base d dl, length l = length keep -> length base = length keep ->
  exists r, put keep (map f (compress keep l)) base = Some r /\ length r = length keep /\
  forall p, p < length keep -> nth p r d = if nth p keep false then f (nth p l dl) else nth p base d.
Proof.
  intros A B f. induction keep as [|b keep IH]; intros [|x l] [|y base] d dl L1 L2; cbn [length] in *; try lia.
  - exists []. repeat split. cbn. lia.
  - destruct (IH l base d dl ltac:(lia) ltac:(lia)) as (r & E & LR & N).
    exists ((if b then f x else y) :: r). split; [destruct b; cbn; now rewrite E|]. split; [cbn; lia|].
    intros [|p] H; cbn [nth]; [reflexivity|]. apply N. lia.
Qed.
Lemma put_one_nth : forall {A} keep (v : A) base p d, length keep = length base -> p < length base ->
  nth p (put_one keep v base) d = if nth p keep false then v else nth p base d.
Proof.
  intros A keep v base p d L H. unfold put_one.
  rewrite (nth_indep _ d ((fun kx : bool * A => if fst kx then v else snd kx) (false, d))) by (rewrite map_length, combine_length; lia).
  rewrite (map_nth (fun kx : bool * A => if fst kx then v else snd kx)), nth_combine by exact L. reflexivity.
Qed.
Lemma put_one_length : forall {A} keep (v : A) base, length keep = length base -> length (put_one keep v base) = length base.
Proof. intros. unfold put_one. rewrite map_length, combine_length. lia. Qed.

Lemma the_phase_spec : forall ids i, the_phase ids = Some i <-> (i <> (-1)%Z /\ In i ids /\ forall j, In j ids -> j = i \/ j = (-1)%Z).
Proof.
  intros ids i. unfold the_phase, distinct. generalize (-1)%Z as m. intros m.
  pose proof (NoDup_nodup Z.eq_dec ids) as ND. pose proof (fun x => nodup_In Z.eq_dec ids x) as IN. set (u := nodup Z.eq_dec ids) in *.
  split.
  - destruct u as [|a [|b [|c u]]]; cbn [length Nat.eqb orb andb]; try discriminate.
    + cbn. destruct (Z.eqb_spec a m); [discriminate|]. cbn. intros E. injection E as ->. split; [assumption|]. split; [apply IN; now left|].
      intros j J. apply IN in J. destruct J as [->|[]]. now left.
    + cbn [existsb orb].
      assert (AB : a <> b) by (inversion ND as [|? ? Q _]; intros ->; apply Q; now left).
      destruct (Z.eqb_spec m a) as [EA|NA]; cbn.
      * subst a. rewrite Z.eqb_refl. destruct (Z.eqb_spec b m); [congruence|]. cbn. intros E. injection E as ->. split; [assumption|]. split; [apply IN; right; now left|].
        intros j J. apply IN in J. destruct J as [->|[->|[]]]; auto.
      * destruct (Z.eqb_spec m b) as [EB|NB]; cbn; [|discriminate]. subst b. destruct (Z.eqb_spec a m); [congruence|]. cbn.
        intros E. injection E as ->. split; [assumption|]. split; [apply IN; now left|].
        intros j J. apply IN in J. destruct J as [->|[->|[]]]; auto.
  - intros (N & I & A).
    assert (LE : length u <= 2).
    { change 2 with (length [i; m]). apply NoDup_incl_length; [exact ND|]. intros j J. apply IN, A in J as [->| ->]; cbn; auto. }
    assert (IU : In i u) by now apply IN.
    assert (AU : forall j, In j u -> j = i \/ j = m) by (intros j J; apply A, IN, J).
    clearbody u. destruct u as [|a [|b [|c u]]]; cbn in LE; [destruct IU| | |lia].
    + destruct IU as [->|[]]. cbn. destruct (Z.eqb_spec i m); [congruence|reflexivity].
    + assert (AB : a <> b) by (inversion ND as [|? ? Q _]; intros ->; apply Q; now left).
      cbn [length Nat.eqb orb andb existsb].
      destruct (AU a (or_introl eq_refl)) as [->| ->], (AU b (or_intror (or_introl eq_refl))) as [->| ->]; try congruence; cbn.
      * destruct (Z.eqb_spec m i); [congruence|]. rewrite Z.eqb_refl. cbn. destruct (Z.eqb_spec i m); [congruence|reflexivity].
      * rewrite Z.eqb_refl. cbn. destruct (Z.eqb_spec i m); [congruence|reflexivity].
Qed.

(** Sublists of equal length. *)
Lemma filter_length_le : forall {A} (f g : A -> bool) l, (forall x, In x l -> f x = true -> g x = true) -> length (filter f l) <= length (filter g l).
Proof.
  intros A f g l. induction l as [|x l IH]; intros H; cbn; [lia|]. specialize (IH (fun y Y => H y (or_intror Y))).
  destruct (f x) eqn:F; [rewrite (H x (or_introl eq_refl) F); cbn; lia|]. destruct (g x); cbn; lia.
Qed.
Lemma filter_same_length : forall {A} (f g : A -> bool) l, (forall x, In x l -> f x = true -> g x = true) ->
  length (filter f l) = length (filter g l) -> filter f l = filter g l.
Proof.
  intros A f g l. induction l as [|x l IH]; intros H E; cbn in *; [reflexivity|].
  assert (H' : forall y, In y l -> f y = true -> g y = true) by (intros; apply H; auto).
  pose proof (filter_length_le f g l H') as LE.
  destruct (f x) eqn:F; [rewrite (H x (or_introl eq_refl) F) in *; cbn in E; f_equal; apply IH; auto; lia|].
  destruct (g x); cbn in E; [lia|]. now apply IH.
Qed.
Lemma filter_seq_range : forall a b n, a <= b -> b < n -> filter (fun p => (a <=? p) && (p <=? b)) (seq 0 n) = seq a (b - a + 1).
Proof.
  intros a b n AB BN. replace n with (a + ((b - a + 1) + (n - b - 1))) by lia. rewrite seq_app, filter_app. cbn [Nat.add].
  rewrite seq_app, filter_app.
  assert (E1 : forall l, (forall x, In x l -> (a <=? x) && (x <=? b) = false) -> filter (fun p => (a <=? p) && (p <=? b)) l = []).
  { intros l H. induction l as [|x l IH]; cbn; [reflexivity|]. rewrite H by now left. apply IH. intros; apply H; now right. }
  assert (E2 : forall l, (forall x, In x l -> (a <=? x) && (x <=? b) = true) -> filter (fun p => (a <=? p) && (p <=? b)) l = l).
  { intros l H. induction l as [|x l IH]; cbn; [reflexivity|]. rewrite H by now left. f_equal. apply IH. intros; apply H; now right. }
  rewrite E1, E2, E1; [now rewrite app_nil_r| | |].
  - intros x X. apply in_seq in X. apply andb_false_iff. right. apply Nat.leb_gt. lia.
  - intros x X. apply in_seq in X. apply andb_true_iff. split; apply Nat.leb_le; lia.
  - intros x X. apply in_seq in X. apply andb_false_iff. left. apply Nat.leb_gt. lia.
Qed.
Lemma list_max_ge : forall l x, In x l -> x <= list_max l.
Proof. induction l as [|y l IH]; intros x []; cbn; [lia|]. specialize (IH x H). unfold list_max in *. lia. Qed.
Lemma list_max_in : forall l, l <> [] -> In (list_max l) l.
Proof.
  induction l as [|y l IH]; intros N; [congruence|]. unfold list_max in *. cbn [fold_right]. destruct l as [|z l]; [left; cbn; lia|].
  specialize (IH ltac:(discriminate)). destruct (Nat.max_spec y (fold_right Nat.max 0 (z :: l))) as [[_ ->]|[_ ->]]; [now right|now left].
Qed.
Lemma fold_min : forall l d, (forall x, In x l -> fold_right Nat.min d l <= x) /\ fold_right Nat.min d l <= d /\ (In (fold_right Nat.min d l) l \/ fold_right Nat.min d l = d).
Proof.
  induction l as [|y l IH]; intros d; cbn [fold_right]; [cbn; intuition lia|]. destruct (IH d) as (A & B & C). split; [|split].
  - intros x [->|X]; [lia|]. specialize (A x X). lia.
  - lia.
  - destruct (Nat.min_spec y (fold_right Nat.min d l)) as [[_ ->]|[_ ->]]; [left; now left|]. destruct C; [left; now right|now right].
Qed.
Lemma list_min_le : forall l x, In x l -> list_min l <= x.
Proof. intros l x H. unfold list_min. now apply fold_min. Qed.
Lemma list_min_in : forall l, l <> [] -> In (list_min l) l.
Proof. intros [|y l] N; [congruence|]. unfold list_min. cbn [hd]. destruct (fold_min (y :: l) y) as (_ & _ & [H|H]); [exact H|]. rewrite H. now left. Qed.

Lemma all_equal_eq : forall a b, all_equal a b = true -> a = b.
Proof.
  induction a as [|x a IH]; intros [|y b]; cbn; try discriminate; [reflexivity|]. intros H. apply andb_true_iff in H as [H1 H2].
  apply eqb_prop in H1. subst. f_equal. now apply IH.
Qed.

(** Positions of a grid row by row. *)
Lemma seq_grid : forall nr nc, seq 0 (nr * nc) = flat_map (fun r => map (fun c => r * nc + c) (seq 0 nc)) (seq 0 nr).
Proof.
  intros nr nc. induction nr as [|nr IH]; [reflexivity|]. rewrite seq_S, flat_map_app, <- IH. cbn [flat_map Nat.add]. rewrite app_nil_r.
  replace (S nr * nc) with (nr * nc + nc) by lia. rewrite seq_app. f_equal. cbn [Nat.add].
  generalize (nr * nc) as a. intros a. clear IH.
  revert a. induction nc as [|nc IH]; intros a; [reflexivity|]. cbn [seq map]. f_equal; [lia|]. rewrite <- (seq_shift nc 0), map_map, IH. apply map_ext. intros; lia.
Qed.
Definition box (nc r0 c0 rs cs : nat) : list nat := flat_map (fun r => map (fun c => r * nc + c) (seq c0 cs)) (seq r0 rs).
Lemma filter_box : forall nr nc r0 r1 c0 c1, r0 <= r1 -> r1 < nr -> c0 <= c1 -> c1 < nc ->
  filter (fun p => ((r0 <=? p / nc) && (p / nc <=? r1)) && ((c0 <=? p mod nc) && (p mod nc <=? c1))) (seq 0 (nr * nc)) = box nc r0 c0 (r1 - r0 + 1) (c1 - c0 + 1).
Proof.
  intros nr nc r0 r1 c0 c1 R1 R2 C1 C2. rewrite seq_grid. unfold box. rewrite <- (filter_seq_range r0 r1 nr R1 R2), <- (filter_seq_range c0 c1 nc C1 C2).
  generalize (seq 0 nr) as rows. intros rows. induction rows as [|r rows IH]; [reflexivity|]. cbn [flat_map]. rewrite filter_app, IH. cbn [filter].
  assert (E : filter (fun p => ((r0 <=? p / nc) && (p / nc <=? r1)) && ((c0 <=? p mod nc) && (p mod nc <=? c1))) (map (fun c => r * nc + c) (seq 0 nc))
    = if (r0 <=? r) && (r <=? r1) then map (fun c => r * nc + c) (filter (fun c => (c0 <=? c) && (c <=? c1)) (seq 0 nc)) else []).
  { assert (S : forall x, In x (seq 0 nc) -> x < nc) by (intros x X; apply in_seq in X; lia). clear IH.
    induction (seq 0 nc) as [|c cs IHc]; cbn [map filter]; [now destruct ((r0 <=? r) && (r <=? r1))|].
    rewrite IHc by (intros; apply S; now right). specialize (S c (or_introl eq_refl)).
    replace ((r * nc + c) / nc) with r by (rewrite Nat.div_add_l by lia; rewrite Nat.div_small by lia; lia).
    replace ((r * nc + c) mod nc) with c by (rewrite Nat.add_comm, Nat.mod_add by lia; now rewrite Nat.mod_small by lia).
    destruct ((r0 <=? r) && (r <=? r1)); cbn [andb]; [|reflexivity]. destruct ((c0 <=? c) && (c <=? c1)); reflexivity. }
  rewrite E. destruct ((r0 <=? r) && (r <=? r1)); reflexivity.
Qed.
Lemma box_length : forall nc r0 c0 rs cs, length (box nc r0 c0 rs cs) = rs * cs.
Proof.
  intros nc r0 c0 rs cs. unfold box. revert r0. induction rs as [|rs IH]; intros r0; [reflexivity|]. cbn [seq flat_map]. rewrite app_length, map_length, seq_length, IH. lia.
Qed.
Lemma box_nth : forall nc r0 c0 rs cs i j, i < rs -> j < cs -> nth (i * cs + j) (box nc r0 c0 rs cs) 0 = (r0 + i) * nc + (c0 + j).
Proof.
  intros nc r0 c0 rs cs i j. unfold box. revert r0 i. induction rs as [|rs IH]; intros r0 i H J; [lia|]. cbn [seq flat_map].
  destruct i as [|i].
  - rewrite app_nth1 by (rewrite map_length, seq_length; lia). cbn [Nat.mul Nat.add].
    rewrite (nth_indep _ 0 ((fun c => r0 * nc + c) 0)) by (rewrite map_length, seq_length; lia).
    rewrite map_nth, seq_nth by lia. nia.
  - rewrite app_nth2 by (rewrite map_length, seq_length; lia). rewrite map_length, seq_length.
    replace (S i * cs + j - cs) with (i * cs + j) by lia. rewrite IH by lia. nia.
Qed.
