(** Lemmas on window objects, for C102. *)
From Coq Require Import String List Reals Arith Bool ZArith Lia Lra.
From Verif Require Import Model.Window Model.WindowObject Spec.WindowObjectSpec Proofs.WindowProofs.
Import ListNotations.
Local Open Scope R_scope.

Lemma put_length {A} (l : list A) : forall i v, length (put l i v) = length l.
Proof. induction l as [|a l IH]; intros [|i] v; cbn; auto. Qed.
Lemma nth_put {A} (l : list A) : forall i j v d, nth j (put l i v) d = if ((j =? i) && (i <? length l))%nat then v else nth j l d.
Proof.
  induction l as [|a l IH]; intros i j v d.
  - cbn [put length]. replace (i <? 0)%nat with false by (symmetry; apply Nat.ltb_ge; lia). now rewrite andb_false_r.
  - destruct i as [|i], j as [|j]; cbn [put nth length]; try reflexivity. rewrite IH.
    change (S j =? S i)%nat with (j =? i)%nat. change (S i <? S (length l))%nat with (i <? length l)%nat. reflexivity.
Qed.
Lemma nth_error_put {A} (l : list A) : forall i j v, nth_error (put l i v) j = if ((j =? i) && (i <? length l))%nat then Some v else nth_error l j.
Proof.
  induction l as [|a l IH]; intros i j v.
  - cbn [put length]. replace (i <? 0)%nat with false by (symmetry; apply Nat.ltb_ge; lia). now rewrite andb_false_r.
  - destruct i as [|i], j as [|j]; cbn [put nth_error length]; try reflexivity. rewrite IH.
    change (S j =? S i)%nat with (j =? i)%nat. change (S i <? S (length l))%nat with (i <? length l)%nat. reflexivity.
Qed.
Lemma nth_snoc {A} (l : list A) x i d : nth i (l ++ [x]) d = if (i =? length l)%nat then x else nth i l d.
Proof.
  destruct (Nat.eqb_spec i (length l)) as [->|N]; [now rewrite app_nth2, Nat.sub_diag by lia|].
  destruct (Nat.lt_ge_cases i (length l)) as [L|L]; [now apply app_nth1|].
  rewrite !nth_overflow; [reflexivity|lia|rewrite app_length; cbn; lia].
Qed.
Lemma nth_error_snoc {A} (l : list A) x i : nth_error (l ++ [x]) i = if (i =? length l)%nat then Some x else nth_error l i.
Proof.
  destruct (Nat.eqb_spec i (length l)) as [->|N]; [now rewrite nth_error_app2, Nat.sub_diag by lia|].
  destruct (Nat.lt_ge_cases i (length l)) as [L|L]; [now apply nth_error_app1|].
  rewrite !(proj2 (nth_error_None _ _)); [reflexivity|lia|rewrite app_length; cbn; lia].
Qed.

Lemma NoDup_parts {A} (l m : list A) : NoDup (l ++ m) -> NoDup l /\ NoDup m.
Proof.
  induction l as [|a l IH]; intros H; [split; [constructor|exact H]|]. cbn in H. apply NoDup_cons_iff in H. destruct H as [H1 H2].
  destruct (IH H2) as [H3 H4]. split; [|exact H4]. constructor; [|exact H3]. intros I. apply H1. apply in_or_app. now left.
Qed.

Lemma nth_error_skipn {A} k : forall (l : list A) i, nth_error (skipn k l) i = nth_error l (k + i).
Proof. induction k as [|k IH]; intros l i; [reflexivity|]. destruct l as [|a l]; [now destruct i|]. apply IH. Qed.
Lemma nth_error_firstn {A} k : forall (l : list A) i, nth_error (firstn k l) i = if (i <? k)%nat then nth_error l i else None.
Proof.
  induction k as [|k IH]; intros l i; [now destruct i|]. destruct l as [|a l]; [cbn [firstn]; destruct i as [|i]; [reflexivity|]; cbn [nth_error]; now destruct (S i <? S k)%nat|].
  destruct i as [|i]; [reflexivity|]. cbn [firstn nth_error]. rewrite IH. reflexivity.
Qed.

(** ** Writing *)
Definition cell (bs : list (list R)) (m p : nat) : R := nth p (nth m bs []) 0.
Definition extents (bs : list (list R)) : list nat := map (@length R) bs.
Lemma cell_write bs m p v m' p' : (m < length bs)%nat -> (p < length (nth m bs []))%nat ->
  cell (write bs m p v) m' p' = if ((m' =? m) && (p' =? p))%nat then v else cell bs m' p'.
Proof.
  intros Hm Hp. unfold cell, write. rewrite nth_put. replace (m <? length bs)%nat with true by (symmetry; apply Nat.ltb_lt; exact Hm). rewrite andb_true_r.
  destruct (Nat.eqb_spec m' m) as [->|N]; [|reflexivity]. rewrite nth_put. cbn [andb].
  replace (p <? length (nth m bs []))%nat with true by (symmetry; apply Nat.ltb_lt; exact Hp). now rewrite andb_true_r.
Qed.
Lemma extents_write bs m p v : extents (write bs m p v) = extents bs.
Proof.
  apply nth_ext with (d := 0%nat) (d' := 0%nat); [unfold extents, write; now rewrite !map_length, put_length|]. intros i _.
  unfold extents, write. change 0%nat with (length (@nil R)). rewrite !map_nth, nth_put.
  destruct (Nat.eqb_spec i m) as [->|N]; [|reflexivity]. destruct (m <? length bs)%nat; [apply put_length|reflexivity].
Qed.
Lemma extents_nth bs m : length (nth m bs []) = nth m (extents bs) 0%nat.
Proof. unfold extents. change 0%nat with (length (@nil R)). now rewrite map_nth. Qed.
Lemma extents_writes m ps : forall bs, extents (fold_left (fun bs p => write bs m p 0) ps bs) = extents bs.
Proof. induction ps as [|p ps IH]; intros bs; [reflexivity|]. cbn. rewrite IH. apply extents_write. Qed.
Lemma extents_length bs bs' : extents bs = extents bs' -> length bs = length bs'.
Proof. intros E. apply (f_equal (@length nat)) in E. unfold extents in E. now rewrite !map_length in E. Qed.
Lemma cell_writes m ps : forall bs m' p', (m < length bs)%nat -> Forall (fun p => (p < length (nth m bs []))%nat) ps ->
  cell (fold_left (fun bs p => write bs m p 0) ps bs) m' p' = if ((m' =? m)%nat && existsb (Nat.eqb p') ps)%bool then 0 else cell bs m' p'.
Proof.
  induction ps as [|p ps IH]; intros bs m' p' Hm F; [now rewrite andb_false_r|]. cbn [fold_left existsb].
  apply Forall_cons_iff in F. destruct F as [Hp F].
  rewrite IH.
  - rewrite cell_write by assumption. destruct (Nat.eqb m' m); [|reflexivity]. cbn [andb]. destruct (p' =? p)%nat, (existsb (Nat.eqb p') ps); reflexivity.
  - now rewrite (extents_length _ _ (extents_write bs m p 0)).
  - eapply Forall_impl; [|exact F]. intros q Hq. cbn beta in Hq |- *. rewrite extents_nth, extents_write, <- extents_nth. exact Hq.
Qed.

(** ** What holds of all arrays that can be made *)
Definition ok (bs : list (list R)) (a : array) : Prop :=
  (memory a < length bs)%nat /\ NoDup (places a) /\ Forall (fun p => (p < length (nth (memory a) bs []))%nat) (places a) /\ length (places a) = size (dims a).
Definition wf (s : state) : Prop := Forall (ok (blocks s)) (arrays s).

Lemma ok_extents bs bs' a : extents bs = extents bs' -> ok bs a -> ok bs' a.
Proof.
  intros E (H1 & H2 & H3 & H4). split; [now rewrite <- (extents_length _ _ E)|]. split; [exact H2|]. split; [|exact H4].
  eapply Forall_impl; [|exact H3]. intros p Hp. cbn beta in Hp |- *. now rewrite extents_nth, <- E, <- extents_nth.
Qed.
Lemma ok_more bs vs a : ok bs a -> ok (bs ++ [vs]) a.
Proof.
  intros (H1 & H2 & H3 & H4). split; [rewrite app_length; lia|]. split; [exact H2|]. split; [|exact H4].
  eapply Forall_impl; [|exact H3]. intros p Hp. cbn beta in Hp |- *. now rewrite app_nth1.
Qed.
Lemma wf_fresh s vs ds w n f : wf s -> length vs = size ds -> wf (fresh s vs ds w n f).
Proof.
  intros H E. unfold wf, fresh. cbn [blocks arrays]. apply Forall_app. split; [eapply Forall_impl; [|exact H]; intros a; apply ok_more|].
  constructor; [|constructor]. split; cbn [memory places dims]; [rewrite app_length; cbn; lia|]. split; [apply seq_NoDup|]. split; [|now rewrite seq_length].
  apply Forall_forall. intros p Hp. apply in_seq in Hp. rewrite app_nth2, Nat.sub_diag by lia. cbn. lia.
Qed.
Lemma wf_add s a : wf s -> ok (blocks s) a -> wf (add s a).
Proof. intros H K. apply Forall_app. split; [exact H|]. now constructor. Qed.
Lemma wf_nth s k a : wf s -> nth_error (arrays s) k = Some a -> ok (blocks s) a.
Proof. intros H E. apply nth_error_In in E. exact (proj1 (Forall_forall _ _) H a E). Qed.
Lemma Forall_put {A} (P : A -> Prop) l : forall i v, Forall P l -> P v -> Forall P (put l i v).
Proof.
  induction l as [|a l IH]; intros [|i] v H K; cbn; [constructor|constructor| |]; apply Forall_cons_iff in H; destruct H as [Ha Hl]; constructor; auto.
Qed.
Lemma outer_length a b : length (outer a b) = (length a * length b)%nat.
Proof. unfold outer. induction a as [|x a IH]; [reflexivity|]. cbn [flat_map]. rewrite app_length, map_length, IH. reflexivity. Qed.
Lemma tapered_length taper name s ds vs : right_length taper -> tapered taper name s = Some (ds, vs) -> length vs = size ds.
Proof.
  intros L. unfold tapered. destruct s as [|n [|m [|q s]]].
  - discriminate.
  - destruct (taper name n) as [a|] eqn:E; [|discriminate]. intros H. injection H as <- <-. apply L in E. cbn. lia.
  - destruct (taper name n) as [a|] eqn:E; [|discriminate]. destruct (taper name m) as [b|] eqn:E2; [|discriminate].
    intros H. injection H as <- <-. apply L in E, E2. rewrite outer_length. cbn. lia.
  - destruct (taper name n) as [a|] eqn:E; [|discriminate]. intros H. injection H as <- <-. apply L in E. cbn. lia.
Qed.
Lemma corners_in ny nx ps p : In p (corners ny nx ps) -> In p ps.
Proof.
  unfold corners. intros H. apply in_map_iff in H. destruct H as ([i q] & E & H). apply filter_In in H. destruct H as [H _]. cbn in E. subst q. now apply in_combine_r in H.
Qed.
Lemma make_circular_wf s k s' : wf s -> make_circular s k = Some s' -> wf s'.
Proof.
  intros W H. unfold make_circular in H. destruct (nth_error (arrays s) k) as [a|] eqn:E; [|discriminate]. destruct (negb (is_window a)); [discriminate|].
  pose proof (wf_nth _ _ _ W E) as K. destruct (dims a) as [|ny [|nx [|q l]]] eqn:D; try discriminate; [now injection H as <-|].
  destruct ((ny =? 1) && negb (nx =? 1))%nat; [discriminate|]. injection H as <-. unfold wf. cbn [blocks arrays].
  apply Forall_put.
  - eapply Forall_impl; [|exact W]. intros b. apply ok_extents. now rewrite extents_writes.
  - apply (ok_extents (blocks s)); [now rewrite extents_writes|]. destruct K as (K1 & K2 & K3 & K4). rewrite D in K4. repeat split; assumption.
Qed.

Section Steps.
Context (taper : string -> nat -> option (list R)).

Lemma step_wf s o s' : right_length taper -> wf s -> step taper s o = Some s' -> wf s'.
Proof.
  intros L W H. destruct o as [ds vs|n sh nx|k sh nx|k|k a b|k ds|k|k c|k i v]; cbn [step] in H.
  - destruct (Nat.eqb_spec (length vs) (size ds)) as [E|]; [|discriminate]. injection H as <-. now apply wf_fresh.
  - unfold new_window in H. destruct (shape_of sh nx) as [ds|]; [|discriminate]. destruct (tapered taper _ ds) as [[ds' vs]|] eqn:T; [|discriminate].
    apply (tapered_length _ _ _ _ _ L) in T. destruct (String.eqb _ "circular"); [|injection H as <-; now apply wf_fresh].
    eapply make_circular_wf; [|exact H]. now apply wf_fresh.
  - unfold window_of in H. destruct (shape_of sh nx); [|discriminate]. destruct (nth_error (arrays s) k) as [a|] eqn:E; [|discriminate]. injection H as <-.
    apply wf_add; [exact W|]. exact (wf_nth _ _ _ W E).
  - now apply (make_circular_wf s k).
  - destruct (nth_error (arrays s) k) as [w|] eqn:E; [|discriminate]. destruct (dims w) as [|n ds] eqn:D; [discriminate|]. injection H as <-.
    pose proof (wf_nth _ _ _ W E) as (K1 & K2 & K3 & K4). apply wf_add; [exact W|]. split; [exact K1|]. cbn [memory places dims].
    rewrite D in K4. change (size (n :: ds)) with (n * size ds)%nat in K4.
    split; [|split].
    + rewrite <- (firstn_skipn (Nat.min b n * size ds) (places w)) in K2. apply NoDup_parts in K2; destruct K2 as [K2 _].
      rewrite <- (firstn_skipn (a * size ds) (firstn _ _)) in K2. now apply NoDup_parts in K2.
    + apply Forall_forall. intros p Hp. apply (proj1 (Forall_forall _ _) K3).
      rewrite <- (firstn_skipn (Nat.min b n * size ds) (places w)). apply in_or_app. left.
      rewrite <- (firstn_skipn (a * size ds) (firstn _ _)). apply in_or_app. now right.
    + rewrite skipn_length, firstn_length, K4. change (size ((Nat.min b n - a)%nat :: ds)) with ((Nat.min b n - a) * size ds)%nat.
      rewrite Nat.mul_sub_distr_r. f_equal. apply Nat.min_l. apply Nat.mul_le_mono_r. lia.
  - destruct (nth_error (arrays s) k) as [w|] eqn:E; [|discriminate]. destruct (Nat.eqb_spec (size ds) (size (dims w))) as [Q|]; [|discriminate]. injection H as <-.
    pose proof (wf_nth _ _ _ W E) as (K1 & K2 & K3 & K4). apply wf_add; [exact W|]. split; [exact K1|]. split; [exact K2|]. split; [exact K3|]. cbn [places dims]. now rewrite K4.
  - destruct (nth_error (arrays s) k) as [w|] eqn:E; [|discriminate]. injection H as <-. apply wf_fresh; [exact W|]. unfold values. rewrite map_length.
    now destruct (wf_nth _ _ _ W E) as (_ & _ & _ & ->).
  - destruct (nth_error (arrays s) k) as [w|] eqn:E; [|discriminate]. injection H as <-. apply wf_fresh; [exact W|]. unfold values. rewrite !map_length.
    now destruct (wf_nth _ _ _ W E) as (_ & _ & _ & ->).
  - destruct (nth_error (arrays s) k) as [w|] eqn:E; [|discriminate]. destruct (nth_error (places w) i) as [p|]; [|discriminate]. injection H as <-.
    unfold wf. cbn [blocks arrays]. eapply Forall_impl; [|exact W]. intros b. apply ok_extents. now rewrite extents_write.
Qed.
Lemma run_wf os : forall s s', right_length taper -> wf s -> run taper s os = Some s' -> wf s'.
Proof.
  induction os as [|o os IH]; intros s s' L W H; cbn in H; [now injection H as <-|].
  destruct (step taper s o) as [s1|] eqn:E; [|discriminate]. apply (IH s1); auto. now apply (step_wf s o).
Qed.
Lemma run_app os : forall s os', run taper s (os ++ os') = match run taper s os with Some s' => run taper s' os' | None => None end.
Proof. induction os as [|o os IH]; intros s os'; [reflexivity|]. cbn. destruct (step taper s o); [apply IH|reflexivity]. Qed.

(** ** Writing changes only arrays in the same memory *)
Lemma values_fresh s vs a : ok (blocks s) a -> values (blocks s ++ [vs]) a = values (blocks s) a.
Proof. intros (H & _). unfold values. apply map_ext. intros p. now rewrite app_nth1. Qed.
Lemma fresh_values s vs ds w n f : values (blocks (fresh s vs ds w n f)) (Arr (length (blocks s)) (seq 0 (length vs)) ds w n f) = vs.
Proof.
  unfold values, fresh. cbn [blocks memory places]. rewrite app_nth2, Nat.sub_diag by lia. cbn [nth].
  apply nth_ext with (d := 0) (d' := 0); [now rewrite map_length, seq_length|]. intros i Hi. rewrite map_length, seq_length in Hi.
  rewrite (nth_indep _ 0 (nth 0%nat vs 0)) by (now rewrite map_length, seq_length). rewrite (map_nth (fun p => nth p vs 0)), seq_nth by exact Hi. reflexivity.
Qed.
Lemma values_cell bs a : values bs a = map (cell bs (memory a)) (places a).
Proof. reflexivity. Qed.

(** The memory of arrays follows their owners. *)
Definition linked (ow : list nat) (s : state) : Prop :=
  length ow = length (arrays s) /\ (forall i a, nth_error (arrays s) i = Some a -> (memory a < length (blocks s))%nat) /\
  forall i j a b, nth_error (arrays s) i = Some a -> nth_error (arrays s) j = Some b -> memory a = memory b -> nth i ow 0%nat = nth j ow 0%nat.
Lemma nth_error_lt {A} (l : list A) i a : nth_error l i = Some a -> (i < length l)%nat.
Proof. intros H. apply nth_error_Some. congruence. Qed.
Lemma linked_fresh ow s vs ds w n f : linked ow s -> linked (ow ++ [length ow]) (fresh s vs ds w n f).
Proof.
  intros (L1 & L2 & L3). unfold linked, fresh. cbn [blocks arrays]. rewrite !app_length. cbn [length]. split; [lia|]. split.
  - intros i a H. rewrite nth_error_snoc in H. destruct (i =? _)%nat; [injection H as <-; cbn; lia|]. apply L2 in H. lia.
  - intros i j a b Hi Hj M. rewrite nth_error_snoc in Hi, Hj. rewrite !nth_snoc, L1.
    destruct (Nat.eqb_spec i (length (arrays s))) as [->|Ni], (Nat.eqb_spec j (length (arrays s))) as [->|Nj]; [reflexivity| | |now apply (L3 i j a b)].
    + injection Hi as <-. apply L2 in Hj. cbn in M. lia.
    + injection Hj as <-. apply L2 in Hi. cbn in M. lia.
Qed.
Lemma linked_add ow s k a a' : linked ow s -> nth_error (arrays s) k = Some a -> memory a' = memory a -> linked (ow ++ [nth k ow 0%nat]) (add s a').
Proof.
  intros (L1 & L2 & L3) E M. unfold linked, add. cbn [blocks arrays]. rewrite !app_length. cbn [length]. split; [lia|].
  pose proof (nth_error_lt _ _ _ E) as Hk. split.
  - intros i b H. rewrite nth_error_snoc in H. destruct (i =? _)%nat; [injection H as <-; rewrite M; now apply (L2 k)|]. now apply (L2 i).
  - intros i j b c Hi Hj Q. rewrite nth_error_snoc in Hi, Hj. rewrite !nth_snoc, L1.
    destruct (Nat.eqb_spec i (length (arrays s))) as [->|Ni], (Nat.eqb_spec j (length (arrays s))) as [->|Nj]; [reflexivity| | |now apply (L3 i j b c)].
    + injection Hi as <-. apply (L3 k j a c); congruence.
    + injection Hj as <-. apply (L3 i k b a); congruence.
Qed.
Lemma linked_same ow s s' : linked ow s -> length (blocks s') = length (blocks s) -> length (arrays s') = length (arrays s) ->
  (forall i a, nth_error (arrays s') i = Some a -> exists b, nth_error (arrays s) i = Some b /\ memory a = memory b) -> linked ow s'.
Proof.
  intros (L1 & L2 & L3) B A S. split; [lia|]. split.
  - intros i a H. destruct (S i a H) as (b & Hb & ->). rewrite B. now apply (L2 i).
  - intros i j a b Hi Hj M. destruct (S i a Hi) as (a' & Ha & Ea). destruct (S j b Hj) as (b' & Hb & Eb). apply (L3 i j a' b'); congruence.
Qed.
Lemma make_circular_linked ow s k s' : linked ow s -> make_circular s k = Some s' -> linked ow s'.
Proof.
  intros L H. unfold make_circular in H. destruct (nth_error (arrays s) k) as [a|] eqn:E; [|discriminate]. destruct (negb (is_window a)); [discriminate|].
  destruct (dims a) as [|ny [|nx [|q l]]]; try discriminate; [now injection H as <-|].
  destruct ((ny =? 1) && negb (nx =? 1))%nat; [discriminate|]. injection H as <-. apply (linked_same ow s); cbn [blocks arrays]; [exact L| | |].
  - apply extents_length. apply extents_writes.
  - apply put_length.
  - intros i b H. rewrite nth_error_put in H. destruct (Nat.eqb_spec i k) as [->|N]; cbn [andb] in H; [|now exists b].
    destruct (k <? length (arrays s))%nat; [|now exists b]. injection H as <-. exists a. now split.
Qed.
Lemma step_linked ow s o s' : linked ow s -> step taper s o = Some s' -> linked (owner_step ow o) s'.
Proof.
  intros L H. destruct o as [ds vs|n sh nx|k sh nx|k|k a b|k ds|k|k c|k i v]; cbn [step owner_step] in *.
  - destruct (length vs =? size ds)%nat; [|discriminate]. injection H as <-. now apply linked_fresh.
  - unfold new_window in H. destruct (shape_of sh nx) as [ds|]; [|discriminate]. destruct (tapered taper _ ds) as [[ds' vs]|] eqn:T; [|discriminate].
    destruct (String.eqb _ "circular"); [|injection H as <-; now apply linked_fresh].
    eapply make_circular_linked; [|exact H]. now apply linked_fresh.
  - unfold window_of in H. destruct (shape_of sh nx); [|discriminate]. destruct (nth_error (arrays s) k) as [a|] eqn:E; [|discriminate]. injection H as <-.
    now apply (linked_add ow s k a).
  - now apply (make_circular_linked ow s k).
  - destruct (nth_error (arrays s) k) as [w|] eqn:E; [|discriminate]. destruct (dims w) as [|n ds]; [discriminate|]. injection H as <-. now apply (linked_add ow s k w).
  - destruct (nth_error (arrays s) k) as [w|] eqn:E; [|discriminate]. destruct (_ =? _)%nat; [|discriminate]. injection H as <-. now apply (linked_add ow s k w).
  - destruct (nth_error (arrays s) k) as [w|] eqn:E; [|discriminate]. injection H as <-. now apply linked_fresh.
  - destruct (nth_error (arrays s) k) as [w|] eqn:E; [|discriminate]. injection H as <-. now apply linked_fresh.
  - destruct (nth_error (arrays s) k) as [w|] eqn:E; [|discriminate]. destruct (nth_error (places w) i) as [p|]; [|discriminate]. injection H as <-.
    apply (linked_same ow s); cbn [blocks arrays]; [exact L|apply extents_length, extents_write|reflexivity|]. intros j b Hj. now exists b.
Qed.
Lemma run_linked os : forall ow s s', linked ow s -> run taper s os = Some s' -> linked (fold_left owner_step os ow) s'.
Proof.
  induction os as [|o os IH]; intros ow s s' L H; cbn in H |- *; [now injection H as <-|].
  destruct (step taper s o) as [s1|] eqn:E; [|discriminate]. apply (IH _ s1); [|exact H]. now apply (step_linked ow s o).
Qed.
(** Owners never change. *)
Lemma owner_step_prefix ow o : exists l, owner_step ow o = ow ++ l.
Proof. destruct o; cbn; eauto; exists []; now rewrite app_nil_r. Qed.
Lemma owners_prefix os : forall ow, exists l, fold_left owner_step os ow = ow ++ l.
Proof.
  induction os as [|o os IH]; intros ow; cbn; [exists []; now rewrite app_nil_r|].
  destruct (owner_step_prefix ow o) as [l E]. destruct (IH (owner_step ow o)) as [l' E']. exists (l ++ l'). now rewrite E', E, app_assoc.
Qed.

(** One step keeps the elements of arrays in other memory and the attributes of other arrays. *)
Lemma make_circular_other s k s' j a : wf s -> make_circular s k = Some s' -> nth_error (arrays s) j = Some a ->
  (forall b, nth_error (arrays s) k = Some b -> memory a <> memory b) -> nth_error (arrays s') j = Some a /\ values (blocks s') a = values (blocks s) a.
Proof.
  intros W H Ha N. unfold make_circular in H. destruct (nth_error (arrays s) k) as [b|] eqn:E; [|discriminate]. specialize (N b eq_refl). destruct (negb (is_window b)); [discriminate|].
  pose proof (wf_nth _ _ _ W E) as (K1 & K2 & K3 & K4).
  destruct (dims b) as [|ny [|nx [|q l]]]; try discriminate; [now injection H as <-|].
  destruct ((ny =? 1) && negb (nx =? 1))%nat; [discriminate|]. injection H as <-. cbn [blocks arrays]. split.
  - rewrite nth_error_put. destruct (Nat.eqb_spec j k) as [->|_]; [congruence|exact Ha].
  - rewrite !values_cell. apply map_ext. intros p. rewrite cell_writes; [|exact K1|].
    + destruct (Nat.eqb_spec (memory a) (memory b)); [contradiction|reflexivity].
    + apply Forall_forall. intros q Hq. apply corners_in in Hq. now apply (proj1 (Forall_forall _ _) K3).
Qed.
Lemma step_other s o s' j a : wf s -> step taper s o = Some s' -> nth_error (arrays s) j = Some a ->
  (forall k b, changes o = Some k -> nth_error (arrays s) k = Some b -> memory a <> memory b) ->
  nth_error (arrays s') j = Some a /\ values (blocks s') a = values (blocks s) a.
Proof.
  intros W H Ha N.
  assert (F : forall vs ds w n f, nth_error (arrays (fresh s vs ds w n f)) j = Some a /\ values (blocks (fresh s vs ds w n f)) a = values (blocks s) a).
  { intros vs ds w n f. split; [cbn; rewrite nth_error_app1; [exact Ha|now apply nth_error_lt in Ha]|]. apply values_fresh. now apply (wf_nth s j). }
  assert (D : forall x, nth_error (arrays (add s x)) j = Some a /\ values (blocks (add s x)) a = values (blocks s) a).
  { intros x. split; [cbn; rewrite nth_error_app1; [exact Ha|now apply nth_error_lt in Ha]|reflexivity]. }
  destruct o as [ds vs|n sh nx|k sh nx|k|k i b|k ds|k|k c|k i v]; cbn [step changes] in *.
  - destruct (length vs =? size ds)%nat; [|discriminate]. injection H as <-. apply F.
  - unfold new_window in H. destruct (shape_of sh nx) as [ds|]; [|discriminate]. destruct (tapered taper _ ds) as [[ds' vs]|] eqn:T; [|discriminate].
    destruct (String.eqb _ "circular"); [|injection H as <-; apply F].
    (* the new array is in new memory *)
    set (s1 := fresh s vs ds' true _ false) in H. specialize (F vs ds' true (Some "rectangular"%string) false). fold s1 in F. destruct F as [F1 F2]. rewrite <- F2.
    unfold make_circular in H. destruct (nth_error (arrays s1) (length (arrays s))) as [b|] eqn:E; [|discriminate].
    assert (Eb : b = Arr (length (blocks s)) (seq 0 (length vs)) ds' true (Some "rectangular"%string) false).
    { unfold s1, fresh in E. cbn [arrays] in E. rewrite nth_error_app2, Nat.sub_diag in E by lia. cbn in E. now injection E as <-. }
    assert (Mb : memory a <> memory b) by (destruct (wf_nth _ _ _ W Ha) as (Q & _); subst b; cbn; lia).
    assert (Hj : (j < length (arrays s))%nat) by now apply nth_error_lt in Ha.
    destruct (negb (is_window b)); [discriminate|]. destruct (dims b) as [|ny [|nx' [|q l]]] eqn:Db; try discriminate; [now injection H as <-|].
    destruct ((ny =? 1) && negb (nx' =? 1))%nat; [discriminate|]. injection H as <-. cbn [blocks arrays]. split.
    + rewrite nth_error_put. destruct (Nat.eqb_spec j (length (arrays s))); [lia|exact F1].
    + rewrite !values_cell. apply map_ext. intros p. rewrite cell_writes.
      * destruct (Nat.eqb_spec (memory a) (memory b)); [contradiction|reflexivity].
      * subst b. cbn. rewrite app_length. cbn. lia.
      * apply Forall_forall. intros q Hq. apply corners_in in Hq. subst b. cbn [memory places] in Hq |- *. apply in_seq in Hq. cbn [blocks s1 fresh].
        rewrite app_nth2, Nat.sub_diag by lia. cbn. lia.
  - unfold window_of in H. destruct (shape_of sh nx); [|discriminate]. destruct (nth_error (arrays s) k); [|discriminate]. injection H as <-. apply D.
  - apply (make_circular_other s k s' j a W H Ha). intros b. now apply N.
  - destruct (nth_error (arrays s) k) as [w|]; [|discriminate]. destruct (dims w); [discriminate|]. injection H as <-. apply D.
  - destruct (nth_error (arrays s) k) as [w|]; [|discriminate]. destruct (_ =? _)%nat; [|discriminate]. injection H as <-. apply D.
  - destruct (nth_error (arrays s) k) as [w|]; [|discriminate]. injection H as <-. apply F.
  - destruct (nth_error (arrays s) k) as [w|]; [|discriminate]. injection H as <-. apply F.
  - destruct (nth_error (arrays s) k) as [w|] eqn:E; [|discriminate]. destruct (nth_error (places w) i) as [p|] eqn:P; [|discriminate]. injection H as <-.
    split; [exact Ha|]. cbn [blocks]. rewrite !values_cell. apply map_ext. intros q. destruct (wf_nth _ _ _ W E) as (K1 & _ & K3 & _).
    rewrite cell_write; [|exact K1|apply (proj1 (Forall_forall _ _) K3); now apply nth_error_In in P].
    destruct (Nat.eqb_spec (memory a) (memory w)) as [M|_]; [|reflexivity]. now elim (N k w eq_refl E).
Qed.
Lemma run_other os : forall ow s s' j a, right_length taper -> wf s -> linked ow s -> run taper s os = Some s' -> nth_error (arrays s) j = Some a ->
  (forall o k, In o os -> changes o = Some k -> nth k (fold_left owner_step os ow) 0%nat <> nth j (fold_left owner_step os ow) 0%nat) ->
  nth_error (arrays s') j = Some a /\ values (blocks s') a = values (blocks s) a.
Proof.
  induction os as [|o os IH]; intros ow s s' j a T W L H Ha N; cbn in H; [injection H as <-; now split|].
  destruct (step taper s o) as [s1|] eqn:E; [|discriminate].
  destruct (step_other s o s1 j a W E Ha) as [A1 V1].
  - intros k b C Hb M. apply (N o k (or_introl eq_refl) C). cbn [fold_left].
    destruct (owner_step_prefix ow o) as [l1 E1]. destruct (owners_prefix os (owner_step ow o)) as [l2 E2]. rewrite E2, E1, <- app_assoc.
    destruct L as (L1 & L2 & L3). pose proof (nth_error_lt _ _ _ Ha). pose proof (nth_error_lt _ _ _ Hb).
    rewrite !app_nth1 by lia. apply (L3 k j b a); congruence.
  - destruct (IH (owner_step ow o) s1 s' j a T) as [A2 V2]; auto; [now apply (step_wf s o)|now apply (step_linked ow s o)|intros o' k Ho; apply N; now right|].
    split; [exact A2|congruence].
Qed.
End Steps.

(** ** Corners *)
Lemma far_beyond ny nx y x : far ny nx y x = true <-> beyond ny nx y x.
Proof.
  unfold far, beyond. pose proof (circular_coefficient_eq ny nx y x 1) as E. unfold circular_coefficient in E.
  destruct (Rlt_dec _ _) as [H|H]; destruct (Z.leb_spec ((Z.of_nat y - Z.of_nat (ny / 2)) ^ 2 + (Z.of_nat x - Z.of_nat (nx / 2)) ^ 2)
      (Z.of_nat (Nat.max (ny / 2) (nx / 2)) ^ 2))%Z as [Q|Q]; try lra; split; intros; try discriminate; try reflexivity; lia.
Qed.
Lemma corners_iff ny nx ps i p : NoDup ps -> nth_error ps i = Some p -> existsb (Nat.eqb p) (corners ny nx ps) = far ny nx (i / nx) (i mod nx).
Proof.
  intros N H. apply eq_true_iff_eq. rewrite existsb_exists. split.
  - intros (q & I & Q). apply Nat.eqb_eq in Q. subst q. unfold corners in I. apply in_map_iff in I. destruct I as ([i' q] & E & I). cbn in E. subst q.
    apply filter_In in I. destruct I as [I F]. cbn [fst] in F. apply In_nth_error in I. destruct I as [m Hm].
    assert (C : nth_error (combine (seq 0 (length ps)) ps) m = match nth_error ps m with Some q => Some (m, q) | None => None end).
    { rewrite nth_error_combine. destruct (nth_error ps m) as [q|] eqn:Eq; [|now destruct (nth_error (seq 0 (length ps)) m)].
      assert (L : (m < length ps)%nat) by (apply nth_error_Some; congruence).
      replace (nth_error (seq 0 (length ps)) m) with (Some m); [reflexivity|]. symmetry. rewrite (nth_error_nth' _ 0%nat) by now rewrite seq_length. now rewrite seq_nth. }
    rewrite C in Hm. destruct (nth_error ps m) as [q|] eqn:Eq; [|discriminate]. injection Hm as -> ->.
    replace i with i'; [exact F|]. apply (proj1 (NoDup_nth_error ps) N); [apply nth_error_Some; congruence|congruence].
  - intros F. exists p. split; [|apply Nat.eqb_refl]. unfold corners. apply in_map_iff. exists (i, p). split; [reflexivity|]. apply filter_In. split; [|exact F].
    apply nth_error_In with (n := i). rewrite nth_error_combine, H.
    assert (L : (i < length ps)%nat) by (apply nth_error_Some; congruence).
    rewrite (nth_error_nth' (seq 0 (length ps)) 0%nat) by now rewrite seq_length. now rewrite seq_nth.
Qed.
