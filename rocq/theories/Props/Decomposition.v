(** C52, C59: model signals from decompositions. *)
From Coq Require Import List ZArith Bool Arith Lia.
From Verif Require Import Model.Binary Model.Decomposition.
Import ListNotations.
Local Open Scope Z_scope.

(** All rows have k entries. *)
Definition wide (k : nat) (m : matrix) : Prop := forall row, In row m -> length row = k.
(** The components asked for, as numbers from 0: all, the first c, or those in the list, counted from the end if negative. *)
Definition requested (k : nat) (c : components) : list nat :=
  match c with
  | All => seq 0 k
  | Number c => seq 0 (Nat.min (Z.to_nat c) k)
  | Chosen l => map (fun i => Z.to_nat (if i <? 0 then Z.of_nat k + i else i)) l
  end.
Definition valid (k : nat) (c : components) : Prop :=
  match c with
  | All => True
  | Number c => 0 <= c
  | Chosen l => forall i, In i l -> - Z.of_nat k <= i < Z.of_nat k
  end.
(** Sum over the requested components of factor times loading. *)
Definition entry (m : matrix) (i c : nat) : Z := nth c (nth i m []) 0.
Definition sum (l : list Z) : Z := fold_right Z.add 0 l.
Definition model_value (s : learning) (cs : list nat) (point pixel : nat) : Z :=
  sum (map (fun c => entry (factors s) pixel c * entry (loadings s) point c) cs).

Definition pick (cs : list nat) (row : list Z) : list Z := map (fun c => nth c row 0) cs.
Lemma all_some_map : forall {A B} (f : A -> option B) g l, (forall x, In x l -> f x = Some (g x)) -> all_some (map f l) = Some (map g l).
Proof.
  intros A B f g l. induction l as [|x l IH]; intros H; cbn; [reflexivity|]. rewrite (H x) by now left. cbn [bind]. rewrite IH by (intros; apply H; now right). reflexivity.
Qed.
Lemma pick_firstn : forall row c, pick (seq 0 (Nat.min c (length row))) row = firstn c row.
Proof.
  intros row c. unfold pick. revert c. induction row as [|x row IH]; intros c; cbn [length]; [rewrite Nat.min_0_r; now destruct c|].
  destruct c as [|c]; [reflexivity|]. cbn [Nat.min seq map nth firstn]. f_equal. rewrite <- seq_shift, map_map. cbn [nth]. apply IH.
Qed.
Lemma select_spec : forall k c m, wide k m -> valid k c -> select c m = Some (map (pick (requested k c)) m).
Proof.
  intros k c m W V. destruct c as [|c|l]; cbn [select requested valid] in *.
  - f_equal. rewrite <- (map_id m) at 1. apply map_ext_in. intros row R. rewrite <- (Nat.min_id k), <- (W row R). rewrite pick_firstn. now rewrite firstn_all.
  - f_equal. apply map_ext_in. intros row R. unfold first_columns. replace (c <? 0) with false by (symmetry; apply Z.ltb_ge; lia).
    rewrite <- (W row R). symmetry. apply pick_firstn.
  - apply all_some_map. intros row R. unfold pick. rewrite map_map. apply all_some_map. intros i I. specialize (V i I). unfold column. rewrite (W row R).
    destruct (Z.ltb_spec i 0) as [N|N].
    + replace ((0 <=? i) && (i <? Z.of_nat k)) with false by (symmetry; apply andb_false_iff; left; apply Z.leb_gt; lia).
      replace ((- Z.of_nat k <=? i) && true) with true by (symmetry; rewrite andb_true_r; apply Z.leb_le; lia).
      apply nth_error_nth'. rewrite (W row R). lia.
    + replace ((0 <=? i) && (i <? Z.of_nat k)) with true by (symmetry; apply andb_true_iff; split; [apply Z.leb_le|apply Z.ltb_lt]; lia).
      apply nth_error_nth'. rewrite (W row R). lia.
Qed.
Lemma dot_pick : forall cs a b, dot (pick cs a) (pick cs b) = sum (map (fun c => nth c a 0 * nth c b 0) cs).
Proof. induction cs as [|c cs IH]; intros a b; [reflexivity|]. cbn [pick map dot sum fold_right]. unfold pick, sum in IH. now rewrite IH. Qed.

(** The model signal is at every map point and pixel the sum over exactly the requested components. *)
Theorem C52_selects_components : forall k c s, wide k (factors s) -> wide k (loadings s) -> valid k c ->
  exists m, snd (get_model false c s) = Some m /\ length m = length (loadings s) /\
  forall point pixel, (point < length (loadings s))%nat -> (pixel < length (factors s))%nat ->
    length (nth point m []) = length (factors s) /\ nth pixel (nth point m []) 0 = model_value s (requested k c) point pixel.
Proof.
  intros k c s WF WL V. unfold get_model. rewrite (select_spec k c _ WF V), (select_spec k c _ WL V). eexists. split; [reflexivity|].
  unfold product. rewrite !map_length. split; [reflexivity|]. intros point pixel P Q.
  set (h := fun l => map (fun f => dot f l) (map (pick (requested k c)) (factors s))).
  rewrite (nth_indep _ [] (h (pick (requested k c) []))) by (rewrite !map_length; exact P). rewrite map_nth, map_nth.
  unfold h. split; [now rewrite !map_length|].
  set (g := fun f => dot f (pick (requested k c) (nth point (loadings s) []))).
  rewrite (nth_indep _ 0 (g (pick (requested k c) []))) by (rewrite !map_length; exact Q). rewrite map_nth, map_nth. unfold g. rewrite dot_pick. reflexivity.
Qed.
(** A list with a number out of range gives an error. *)
Theorem C52_out_of_range : forall k l s i, wide k (factors s) -> factors s <> [] -> In i l -> ~ (- Z.of_nat k <= i < Z.of_nat k) ->
  get_model false (Chosen l) s = (s, None).
Proof.
  intros k l s i W NE I R. unfold get_model, select. destruct (factors s) as [|row m] eqn:F; [congruence|]. cbn [map all_some].
  assert (N : all_some (map (column row) l) = None).
  { assert (C : column row i = None).
    { unfold column. rewrite (W row (or_introl eq_refl)).
      destruct (Z.leb_spec 0 i); destruct (Z.ltb_spec i (Z.of_nat k)); destruct (Z.leb_spec (- Z.of_nat k) i); destruct (Z.ltb_spec i 0); cbn [andb]; try reflexivity; lia. }
    clear - I C. induction l as [|x l IH]; [destruct I|]. cbn [map all_some]. destruct I as [->|I]; [now rewrite C|].
    destruct (column row x); [|reflexivity]. cbn [bind]. now rewrite IH. }
  rewrite N. cbn [bind]. reflexivity.
Qed.
(** The learning results are as before whenever HyperSpy's function does not raise an error, also for invalid components. *)
Theorem C52_results_kept_partial : forall c s, fst (get_model false c s) = s.
Proof. intros. unfold get_model. destruct (select c (factors s)); [|reflexivity]. now destruct (select c (loadings s)). Qed.
(** If it does, components that were not requested are lost. *)
Theorem C52_failure_refuted : forall k s c, wide k (factors s) -> wide k (loadings s) -> factors s <> [] -> 0 <= c < Z.of_nat k ->
  get_model true (Number c) s = (Learning (map (firstn (Z.to_nat c)) (factors s)) (map (firstn (Z.to_nat c)) (loadings s)), None) /\
  fst (get_model true (Number c) s) <> s.
Proof.
  intros k s c WF WL NE C.
  assert (E : get_model true (Number c) s = (Learning (map (firstn (Z.to_nat c)) (factors s)) (map (firstn (Z.to_nat c)) (loadings s)), None)).
  { unfold get_model. cbn [select]. do 2 f_equal; apply map_ext; intros row; unfold first_columns; replace (c <? 0) with false by (symmetry; apply Z.ltb_ge; lia); reflexivity. }
  split; [exact E|]. rewrite E. cbn [fst]. intros Q. destruct s as [f l]. cbn [factors loadings] in *. injection Q as Q _.
  destruct f as [|row f]; [congruence|]. cbn [map] in Q. injection Q as Q _. apply (f_equal (@length Z)) in Q. rewrite firstn_length, (WF row (or_introl eq_refl)) in Q. lia.
Qed.

(** Rechunking: the loop stops for every positive size. *)
Lemma halve_stops : forall fuel s0 s1 g, 0 < g -> 0 <= s0 -> 0 <= s1 -> (Z.to_nat (s0 + s1) <= fuel)%nat -> exists r, halve fuel s0 s1 g = Some r.
Proof.
  induction fuel as [|fuel IH]; intros s0 s1 g G A B F; cbn [halve].
  - replace (s0 + s1 <? g) with true by (symmetry; apply Z.ltb_lt; lia). eauto.
  - destruct (Z.ltb_spec (s0 + s1) g); [eauto|]. destruct (Z.ltb_spec s0 s1).
    + assert (0 <= s1 / 2 < s1) by (split; [apply Z.div_pos; lia|apply Z.div_lt; lia]). apply IH; lia.
    + assert (0 <= s0 / 2 < s0) by (split; [apply Z.div_pos; lia|apply Z.div_lt; lia]). apply IH; lia.
Qed.
Theorem C52_rechunking_stops : forall s0 s1 g, 0 < g -> 0 <= s0 -> 0 <= s1 -> exists fuel r, halve fuel s0 s1 g = Some r.
Proof. intros. exists (Z.to_nat (s0 + s1)). apply halve_stops; auto; lia. Qed.
(** ... but not for size 0 (an error is raised before). *)
Theorem C52_rechunking_zero : forall fuel p n k b, rechunk fuel p n k b 0 = None.
Proof. reflexivity. Qed.

(** What the loop returns: each size is the original or at least a quarter of the suggested size (rounded down). *)
Lemma halve_sizes : forall fuel s0 s1 g r a b, 0 <= s0 -> 0 <= s1 -> halve fuel s0 s1 g = Some r ->
  (s0 = a \/ g <= 4 * s0 + 3) -> (s1 = b \/ g <= 4 * s1 + 3) ->
  (fst r = a \/ g <= 4 * fst r + 3) /\ (snd r = b \/ g <= 4 * snd r + 3) /\ fst r + snd r < g.
Proof.
  induction fuel as [|fuel IH]; intros s0 s1 g r a b A B H P Q; cbn [halve] in H; destruct (Z.ltb_spec (s0 + s1) g); try discriminate.
  - injection H as <-. auto.
  - injection H as <-. auto.
  - destruct (Z.ltb_spec s0 s1).
    + eapply IH in H; eauto; [apply Z.div_pos; lia|]. right. pose proof (Z.div_mod s1 2 ltac:(lia)). pose proof (Z.mod_pos_bound s1 2 ltac:(lia)). lia.
    + eapply IH in H; eauto; [apply Z.div_pos; lia|]. right. pose proof (Z.div_mod s0 2 ltac:(lia)). pose proof (Z.mod_pos_bound s0 2 ltac:(lia)). lia.
Qed.
Lemma ceil_div_le : forall a b q, 0 < b -> 0 < a -> a <= q * b -> 1 <= ceil_div a b <= q.
Proof.
  intros a b q B A L. unfold ceil_div. split.
  - apply Z.div_le_lower_bound; lia.
  - apply Z.lt_succ_r. apply Z.div_lt_upper_bound; [lia|]. nia.
Qed.
Lemma chunk_positive : forall n c, 1 <= c <= n -> 1 <= n / c <= n.
Proof. intros n c H. split; [apply Z.div_le_lower_bound; lia|]. apply Z.div_le_upper_bound; nia. Qed.

(** Chunk sizes are positive and at most the length of the axis, if there are two map points or more and rows of
    factors and loadings are clearly smaller than the suggested size. *)
Theorem C52_chunks_positive_partial : forall p n k b g, 1 <= p -> 2 <= n -> 1 <= k -> 1 <= b -> 4 * (k * b) + 3 < g ->
  exists fuel f l, rechunk fuel p n k b g = Some (f, l) /\ (f = -1 \/ 1 <= f <= p) /\ 1 <= l <= n.
Proof.
  intros p n k b g P N K B G. assert (R : 1 <= k * b) by nia. set (row := k * b) in *.
  exists (Z.to_nat (p * k * b + n * k * b)). unfold rechunk.
  replace (p * k * b) with (p * row) by (unfold row; lia). replace (n * k * b) with (n * row) by (unfold row; lia).
  replace (g =? 0) with false by (symmetry; apply Z.eqb_neq; lia).
  destruct (Z.leb_spec (p * row) g) as [L|L].
  - do 2 eexists. split; [reflexivity|]. split; [now left|]. apply chunk_positive. apply ceil_div_le; nia.
  - destruct (halve_stops (Z.to_nat (p * row + n * row)) (p * row) (n * row) g ltac:(lia) ltac:(nia) ltac:(nia) ltac:(lia)) as [[s0 s1] E]. rewrite E. cbn [bind fst snd].
    assert (PR : 0 <= p * row) by nia. assert (NR : 0 <= n * row) by nia.
    destruct (halve_sizes _ _ _ _ _ (p * row) (n * row) PR NR E (or_introl eq_refl) (or_introl eq_refl)) as (A0 & A1 & _). cbn [fst snd] in *.
    assert (S0 : row <= s0) by (destruct A0; nia). assert (S1 : row <= s1) by (destruct A1; nia).
    replace (s0 =? 0) with false by (symmetry; apply Z.eqb_neq; lia). replace (s1 =? 0) with false by (symmetry; apply Z.eqb_neq; lia). cbn [orb].
    do 2 eexists. split; [reflexivity|]. split; [right|]; apply chunk_positive; apply ceil_div_le; nia.
Qed.
(** With one map point, factors that just fit are given a chunk size of 0. *)
Theorem C52_chunks_positive_refuted : forall fuel p k b, 1 <= p -> 1 <= k -> 1 <= b -> rechunk fuel p 1 k b (p * k * b) = Some (-1, 0).
Proof.
  intros fuel p k b P K B. assert (R : 1 <= p * k * b) by nia. unfold rechunk. replace (p * k * b =? 0) with false by (symmetry; apply Z.eqb_neq; lia).
  rewrite Z.leb_refl. do 2 f_equal. apply Z.div_small. split; [lia|]. unfold ceil_div.
  assert (X : 2 * (p * k * b) <= p * k * b + 1 * k * b + p * k * b - 1) by nia.
  assert (2 <= (p * k * b + 1 * k * b + p * k * b - 1) / (p * k * b)) by (apply Z.div_le_lower_bound; lia). lia.
Qed.
(** So are rows larger than the suggested size. *)
Theorem C52_large_rows_refuted : forall p n k b g, 1 <= p -> 1 <= n -> 0 < g -> g < k * b -> forall fuel f l, rechunk fuel p n k b g = Some (f, l) -> f = 0.
Proof.
  intros p n k b g P N G R fuel f l H. unfold rechunk in H. set (row := k * b) in *.
  replace (p * k * b) with (p * row) in H by (unfold row; lia). replace (n * k * b) with (n * row) in H by (unfold row; lia).
  replace (g =? 0) with false in H by (symmetry; apply Z.eqb_neq; lia). replace (p * row <=? g) with false in H by (symmetry; apply Z.leb_gt; nia).
  destruct (halve fuel (p * row) (n * row) g) as [[s0 s1]|] eqn:E; [|discriminate]. cbn [bind fst snd] in H.
  destruct ((s0 =? 0) || (s1 =? 0)) eqn:Z0; [discriminate|]. injection H as H _. rewrite <- H. apply Z.div_small. split; [lia|].
  apply orb_false_iff in Z0 as [Z1 Z2]. apply Z.eqb_neq in Z1. apply Z.eqb_neq in Z2.
  assert (PR : 0 <= p * row) by nia. assert (NR : 0 <= n * row) by nia.
    destruct (halve_sizes _ _ _ _ _ (p * row) (n * row) PR NR E (or_introl eq_refl) (or_introl eq_refl)) as (_ & _ & S). cbn [fst snd] in S.
  assert (NN : 0 <= s0 /\ 0 <= s1).
  { clear - E PR NR. assert (GEN : forall fuel a b g r, 0 <= a -> 0 <= b -> halve fuel a b g = Some r -> 0 <= fst r /\ 0 <= snd r).
    { clear. induction fuel as [|fuel IH]; intros a b g r A B H; cbn [halve] in H; destruct (Z.ltb_spec (a + b) g); try discriminate; [injection H as <-; auto|injection H as <-; auto|].
      destruct (Z.ltb_spec a b); apply IH in H; auto; apply Z.div_pos; lia. }
    apply (GEN _ _ _ _ _ PR NR E). }
  unfold ceil_div. apply Z.lt_le_trans with (p + 1); [lia|]. apply Z.div_le_lower_bound; nia.
Qed.

(** C59: writing the model directly to file gives the same model and no other file for signals with two navigation
    axes, and never changes the learning results. *)
Theorem C59_writes_model_partial : forall k c s, wide k (factors s) -> wide k (loadings s) -> valid k c ->
  exists m, write_model 4 false false c s = (s, [Model m], true) /\ snd (get_model false c s) = Some m.
Proof.
  intros k c s WF WL V. unfold write_model, get_model. rewrite (select_spec k c _ WF V), (select_spec k c _ WL V). cbn. eauto.
Qed.
Theorem C59_learning_results_kept : forall axes mf sf c s, fst (fst (write_model axes mf sf c s)) = s.
Proof.
  intros. unfold write_model. destruct (select c (factors s)); [|reflexivity]. destruct (select c (loadings s)); [|reflexivity].
  destruct mf; [reflexivity|]. destruct (negb (Nat.eqb axes 4)); [reflexivity|]. now destruct sf.
Qed.
(** Signals with another number of axes, e.g. patterns in a line, always give an error and leave the temporary file, and so
    does any other error. *)
Theorem C59_other_shapes_refuted : forall axes mf sf k c s, axes <> 4%nat -> wide k (factors s) -> wide k (loadings s) -> valid k c ->
  exists f l, write_model axes mf sf c s = (s, [Temporary f l], false).
Proof.
  intros axes mf sf k c s N WF WL V. unfold write_model. rewrite (select_spec k c _ WF V), (select_spec k c _ WL V).
  apply Nat.eqb_neq in N. rewrite N. destruct mf; cbn; eauto.
Qed.
Theorem C59_failure_leaves_file_refuted : forall axes mf k c s, wide k (factors s) -> wide k (loadings s) -> valid k c ->
  exists f l, write_model axes mf true c s = (s, [Temporary f l], false).
Proof.
  intros axes mf k c s WF WL V. unfold write_model. rewrite (select_spec k c _ WF V), (select_spec k c _ WL V).
  destruct mf; [eauto|]. destruct (negb (Nat.eqb axes 4)); eauto.
Qed.

Definition example := Learning [[1; 2; 3]; [4; 5; 6]] [[1; 0; 1]; [0; 1; 0]; [2; 2; 2]].
Example C52_case : wide 3 (factors example) /\ wide 3 (loadings example) /\ valid 3 (Chosen [-1; 0]) /\
  snd (get_model false (Chosen [-1; 0]) example) = Some [[4; 10]; [0; 0]; [8; 20]].
Proof.
  split; [intros row [<-|[<-|[]]]; reflexivity|]. split; [intros row [<-|[<-|[<-|[]]]]; reflexivity|]. split; [|reflexivity].
  intros i [<-|[<-|[]]]; cbn; lia.
Qed.
Example C52_case_chunks : 4 * (100 * 4) + 3 < 100 * 2 ^ 20 /\ rechunk 100 3600 29800 100 4 (2 ^ 20) = Some (900, 931).
Proof. split; [reflexivity|vm_compute; reflexivity]. Qed.
Print Assumptions C52_selects_components.
