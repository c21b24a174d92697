From Coq Require Import List Arith ZArith Reals Bool Lia.
From Verif Require Import Spec.Grid Spec.Consistency Model.Pattern Model.Intensity Model.MapOverlap Model.Downsample Model.PyArray Model.GridIndices
  Model.SignalSlices Model.SignalHistory Proofs.ListLemmas Proofs.GridIndicesProofs Proofs.SignalSlicesProofs.
From Verif Require Model.Detector Model.DictIndex Proofs.DetectorProofs Props.SignalSlices.
Import ListNotations.

Lemma same_shape_spec a b : same_shape a b = true <-> a = b.
Proof. unfold same_shape. destruct (list_eq_dec Nat.eq_dec a b); split; intros; congruence. Qed.

(** ** The grid *)

Lemma grid_eq g0 g1 n0 n1 idx : grid_indices_2d (g0, g1) (n0, n1) = Some idx ->
  1 <= n0 /\ 1 <= n1 /\ 1 <= count g0 n0 /\ 1 <= count g1 n1
  /\ idx = map (fun i => map (fun j => (grid_index g0 n0 i, grid_index g1 n1 j)) (seq 0 (count g1 n1))) (seq 0 (count g0 n0)).
Proof.
  rewrite grid_indices_2d_eq. destruct (Nat.eqb_spec n0 0); [discriminate|]. destruct (Nat.eqb_spec n1 0); [discriminate|].
  destruct (Nat.eqb_spec (count g0 n0) 0); [discriminate|]. destruct (Nat.eqb_spec (count g1 n1) 0); [discriminate|].
  cbn [orb]. intros E. injection E as <-. repeat split; lia.
Qed.

(** Position of grid row i. *)
Definition pos (g n i : nat) : nat := Z.to_nat (grid_index g n i).
Lemma pos_inside g n i : 1 <= n -> i < count g n -> pos g n i < n.
Proof. intros H Hi. unfold pos. pose proof (grid_index_inside g n i H Hi). lia. Qed.
Lemma pos_step g n i : 1 <= n -> S i < count g n -> pos g n (S i) = pos g n i + spacing g n.
Proof.
  intros H Hi. unfold pos. rewrite grid_index_step. pose proof (grid_index_inside g n i H ltac:(lia)). lia.
Qed.
Lemma pos_from_first g n i : 1 <= n -> i < count g n -> pos g n i = pos g n 0 + i * spacing g n.
Proof. intros H. induction i; intros Hi; [lia|]. rewrite pos_step by assumption. rewrite IHi by lia. lia. Qed.

Section Grid.
  Context {g0 g1 n0 n1 : nat} {idx : list (list (Z * Z))}.
  Hypothesis E : grid_indices_2d (g0, g1) (n0, n1) = Some idx.

  Lemma grid_size_eq : grid_size idx = (count g0 n0, count g1 n1).
  Proof using E.
    destruct (grid_eq _ _ _ _ _ E) as (H1 & H2 & H3 & H4 & ->). unfold grid_size.
    rewrite map_length, seq_length. f_equal.
    destruct (count g0 n0); [lia|]. cbn [seq map nth]. now rewrite map_length, seq_length.
  Qed.
  Lemma cell_eq i j : i < count g0 n0 -> j < count g1 n1 -> cell idx i j = (pos g0 n0 i, pos g1 n1 j).
  Proof using E.
    intros Hi Hj. destruct (grid_eq _ _ _ _ _ E) as (H1 & H2 & H3 & H4 & ->). unfold cell.
    rewrite (nth_indep _ [] (map (fun j => (grid_index g0 n0 0, grid_index g1 n1 j)) (seq 0 (count g1 n1)))) by (rewrite map_length, seq_length; lia).
    rewrite (map_nth (fun i => map (fun j => (grid_index g0 n0 i, grid_index g1 n1 j)) (seq 0 (count g1 n1)))).
    rewrite seq_nth by lia.
    rewrite (nth_indep _ (0%Z, 0%Z) (grid_index g0 n0 (0 + i), grid_index g1 n1 0)) by (rewrite map_length, seq_length; lia).
    rewrite (map_nth (fun j => (grid_index g0 n0 (0 + i), grid_index g1 n1 j))). rewrite seq_nth by lia. reflexivity.
  Qed.
  Lemma grid_points_eq : grid_points idx = flat_map (fun i => map (fun j => (pos g0 n0 i, pos g1 n1 j)) (seq 0 (count g1 n1))) (seq 0 (count g0 n0)).
  Proof using E.
    destruct (grid_eq _ _ _ _ _ E) as (H1 & H2 & H3 & H4 & ->). unfold grid_points.
    rewrite flat_map_concat_map, concat_map, map_map. f_equal. apply map_ext. intros i. rewrite map_map. reflexivity.
  Qed.
  Lemma in_grid_points y x : In (y, x) (grid_points idx) <-> In y (map (pos g0 n0) (seq 0 (count g0 n0))) /\ In x (map (pos g1 n1) (seq 0 (count g1 n1))).
  Proof using E.
    rewrite grid_points_eq, in_flat_map. setoid_rewrite in_map_iff. split.
    - intros (i & Hi & j & Ej & Hj). injection Ej as <- <-. split; [exists i|exists j]; auto.
    - intros ((i & <- & Hi) & (j & <- & Hj)). exists i. split; [exact Hi|]. exists j. auto.
  Qed.
End Grid.

(** *** Boolean masks and increasing lists *)

Definition mem (l : list nat) (y : nat) : bool := existsb (Nat.eqb y) l.
Lemma mem_spec l y : mem l y = true <-> In y l.
Proof.
  unfold mem. rewrite existsb_exists. split.
  - intros (x & Hx & Ex). apply Nat.eqb_eq in Ex. now subst.
  - intros H. exists y. split; [exact H|]. apply Nat.eqb_refl.
Qed.

(** Selecting with a mask along 0, ..., n - 1 what is in an increasing list. *)
Fixpoint increasing (lo : nat) (l : list nat) : Prop :=
  match l with [] => True | a :: r => lo <= a /\ increasing (S a) r end.
Lemma increasing_weak : forall l lo lo', lo' <= lo -> increasing lo l -> increasing lo' l.
Proof. destruct l; cbn; intros; [auto|]. intuition lia. Qed.
Lemma increasing_in : forall l lo y, increasing lo l -> In y l -> lo <= y.
Proof. induction l as [|a l IH]; cbn; intros lo y H K; [contradiction|]. destruct H as [H1 H2], K as [<-|H]; [auto|]. apply (IH (S a)) in H; [lia|exact H2]. Qed.

(** Keep the blocks f y of the rows y that are in the list. *)
Lemma filter_increasing {A} (f : nat -> list A) : forall n lo l, increasing lo l -> (forall y, In y l -> y < lo + n) ->
  flat_map (fun y => if mem l y then f y else []) (seq lo n) = flat_map f l.
Proof.
  induction n as [|n IH]; intros lo l Hi Hl.
  - destruct l as [|a l]; [reflexivity|]. cbn [increasing] in Hi. specialize (Hl a (or_introl eq_refl)). lia.
  - cbn [seq flat_map]. destruct l as [|a l].
    + cbn. rewrite flat_map_concat_map. clear. generalize (S lo). induction n; intros k; [reflexivity|]. cbn. apply IHn.
    + cbn [increasing] in Hi. destruct Hi as [Ha Hi]. destruct (Nat.eq_dec lo a) as [->|Hn].
      * unfold mem at 1. cbn [existsb]. rewrite Nat.eqb_refl. cbn [orb flat_map]. f_equal.
        rewrite <- (IH (S a) l Hi) by (intros y Hy; specialize (Hl y (or_intror Hy)); lia).
        rewrite !flat_map_concat_map. f_equal. apply map_ext_in. intros y Hy. apply in_seq in Hy.
        unfold mem. cbn [existsb]. destruct (Nat.eqb_spec y a); [lia|]. reflexivity.
      * assert (Em : mem (a :: l) lo = false).
        { apply not_true_iff_false. rewrite mem_spec. intros [H|H]; [lia|]. apply increasing_in with (lo := S a) in H; [lia|exact Hi]. }
        rewrite Em. cbn [app]. apply IH; [cbn; split; [lia|exact Hi]|]. intros y Hy. specialize (Hl y Hy). lia.
Qed.

Lemma compress_app {A} : forall k (a : list A) k' b, length k = length a ->
  DictIndex.compress (k ++ k') (a ++ b) = DictIndex.compress k a ++ DictIndex.compress k' b.
Proof.
  induction k as [|x k IH]; intros [|y a] k' b L; cbn in *; try lia; [reflexivity|].
  destruct x; cbn; now rewrite IH by lia.
Qed.
Lemma compress_map_seq {A} (p : nat -> bool) (f : nat -> A) : forall l,
  DictIndex.compress (map p l) (map f l) = flat_map (fun x => if p x then [f x] else []) l.
Proof. induction l as [|a l IH]; [reflexivity|]. cbn. destruct (p a); cbn; now rewrite IH. Qed.
Lemma compress_false {A} : forall n (l : list A), DictIndex.compress (repeat false n) l = [].
Proof. induction n; intros [|x l]; cbn; auto. Qed.

Lemma compress_grid {A} (rows cols : list nat) (f : nat -> nat -> A) n0 n1 :
  increasing 0 rows -> (forall y, In y rows -> y < n0) -> increasing 0 cols -> (forall x, In x cols -> x < n1) ->
  DictIndex.compress (flat_map (fun y => map (fun x => mem rows y && mem cols x) (seq 0 n1)) (seq 0 n0))
    (flat_map (fun y => map (f y) (seq 0 n1)) (seq 0 n0))
  = flat_map (fun y => map (f y) cols) rows.
Proof.
  intros H1 H2 H3 H4. rewrite <- (filter_increasing (fun y => map (f y) cols) n0 0 rows H1 H2).
  generalize (seq 0 n0). induction l as [|y l IH]; [reflexivity|]. cbn [flat_map].
  rewrite compress_app by now rewrite !map_length. rewrite IH. f_equal. rewrite compress_map_seq.
  destruct (mem rows y); cbn [andb].
  - transitivity (flat_map (fun x => [f y x]) cols).
    + rewrite <- (filter_increasing (fun x => [f y x]) n1 0 cols H3 H4). reflexivity.
    + clear. induction cols; cbn; [reflexivity|]. now rewrite IHcols.
  - clear. induction (seq 0 n1); cbn; auto.
Qed.

Lemma pos_increasing g n : 1 <= n -> increasing 0 (map (pos g n) (seq 0 (count g n))).
Proof.
  intros H.
  assert (G : forall k i lo, i + k = count g n -> (1 <= k -> lo <= pos g n i) -> increasing lo (map (pos g n) (seq i k))).
  { induction k as [|k IH]; intros i lo Ek Hlo; [exact I|]. cbn [seq map increasing]. split; [apply Hlo; lia|].
    apply IH; [lia|]. intros Hk. rewrite pos_step by lia. pose proof (spacing_pos g n H). lia. }
  apply G; [lia|]. intros _. lia.
Qed.

Lemma fold_min_le : forall l d x, In x l -> fold_right Nat.min d l <= x.
Proof. induction l as [|a l IH]; cbn; intros d x H; [contradiction|]. destruct H as [<-|H]; [lia|]. specialize (IH d x H). lia. Qed.
Lemma fold_max_ge : forall l d x, In x l -> x <= fold_right Nat.max d l.
Proof. induction l as [|a l IH]; cbn; intros d x H; [contradiction|]. destruct H as [<-|H]; [lia|]. specialize (IH d x H). lia. Qed.
Lemma fold_min_in : forall l d, fold_right Nat.min d l = d \/ In (fold_right Nat.min d l) l.
Proof. induction l as [|a l IH]; cbn; intros d; [auto|]. destruct (IH d); destruct (Nat.min_spec a (fold_right Nat.min d l)) as [[? ->]|[? ->]]; auto. Qed.
Lemma fold_max_in : forall l d, fold_right Nat.max d l = d \/ In (fold_right Nat.max d l) l.
Proof. induction l as [|a l IH]; cbn; intros d; [auto|]. destruct (IH d); destruct (Nat.max_spec a (fold_right Nat.max d l)) as [[? ->]|[? ->]]; auto. Qed.
Lemma least_unique l a : In a l -> (forall x, In x l -> a <= x) -> least l = a.
Proof.
  intros Ha Hl. unfold least. pose proof (fold_min_le l (hd 0 l) a Ha).
  destruct (fold_min_in l (hd 0 l)) as [E|E].
  - destruct l; [contradiction|]. cbn [hd] in *. specialize (Hl n (or_introl eq_refl)). lia.
  - specialize (Hl _ E). lia.
Qed.
Lemma greatest_unique l a : In a l -> (forall x, In x l -> x <= a) -> greatest l = a.
Proof.
  intros Ha Hl. unfold greatest. pose proof (fold_max_ge l (hd 0 l) a Ha).
  destruct (fold_max_in l (hd 0 l)) as [E|E].
  - destruct l; [contradiction|]. cbn [hd] in *. specialize (Hl n (or_introl eq_refl)). lia.
  - specialize (Hl _ E). lia.
Qed.

Lemma box_size {A} g0 g1 n0 n1 idx (m : amap A) : grid_indices_2d (g0, g1) (n0, n1) = Some idx ->
  nrows (box idx m) = (count g0 n0 - 1) * spacing g0 n0 + 1 /\ ncols (box idx m) = (count g1 n1 - 1) * spacing g1 n1 + 1.
Proof.
  intros E. destruct (grid_eq _ _ _ _ _ E) as (H1 & H2 & H3 & H4 & _). unfold box, sub. cbn [nrows ncols].
  assert (Hy : forall y, In y (map fst (grid_points idx)) <-> exists i, i < count g0 n0 /\ y = pos g0 n0 i).
  { intros y. rewrite in_map_iff. split.
    - intros ((y', x) & Ey & Hi). cbn in Ey. subst y'. apply (in_grid_points E) in Hi. destruct Hi as [Hi _].
      apply in_map_iff in Hi. destruct Hi as (i & <- & Hi). apply in_seq in Hi. exists i. split; [lia|reflexivity].
    - intros (i & Hi & ->). exists (pos g0 n0 i, pos g1 n1 0). split; [reflexivity|]. apply (in_grid_points E).
      split; apply in_map, in_seq; lia. }
  assert (Hx : forall x, In x (map snd (grid_points idx)) <-> exists i, i < count g1 n1 /\ x = pos g1 n1 i).
  { intros x. rewrite in_map_iff. split.
    - intros ((y, x') & Ey & Hi). cbn in Ey. subst x'. apply (in_grid_points E) in Hi. destruct Hi as [_ Hi].
      apply in_map_iff in Hi. destruct Hi as (i & <- & Hi). apply in_seq in Hi. exists i. split; [lia|reflexivity].
    - intros (i & Hi & ->). exists (pos g0 n0 0, pos g1 n1 i). split; [reflexivity|]. apply (in_grid_points E).
      split; apply in_map, in_seq; lia. }
  rewrite (least_unique (map fst _) (pos g0 n0 0)); [|apply Hy; exists 0; split; [lia|reflexivity]|
    intros y Hyy; apply Hy in Hyy; destruct Hyy as (i & Hi & ->); rewrite (pos_from_first _ _ i) by lia; lia].
  rewrite (greatest_unique (map fst _) (pos g0 n0 (count g0 n0 - 1))); [|apply Hy; eexists; split; [|reflexivity]; lia|
    intros y Hyy; apply Hy in Hyy; destruct Hyy as (i & Hi & ->); rewrite (pos_from_first _ _ i), (pos_from_first _ _ (count g0 n0 - 1)) by lia; nia].
  rewrite (least_unique (map snd _) (pos g1 n1 0)); [|apply Hx; exists 0; split; [lia|reflexivity]|
    intros y Hyy; apply Hx in Hyy; destruct Hyy as (i & Hi & ->); rewrite (pos_from_first _ _ i) by lia; lia].
  rewrite (greatest_unique (map snd _) (pos g1 n1 (count g1 n1 - 1))); [|apply Hx; eexists; split; [|reflexivity]; lia|
    intros y Hyy; apply Hx in Hyy; destruct Hyy as (i & Hi & ->); rewrite (pos_from_first _ _ i), (pos_from_first _ _ (count g1 n1 - 1)) by lia; nia].
  rewrite (pos_from_first g0 n0 (count g0 n0 - 1)), (pos_from_first g1 n1 (count g1 n1 - 1)) by lia.
  generalize ((count g0 n0 - 1) * spacing g0 n0) ((count g1 n1 - 1) * spacing g1 n1). clear. intros. lia.
Qed.

Lemma xmap_points_eq {A} g0 g1 idx (m : amap A) : grid_indices_2d (g0, g1) (nrows m, ncols m) = Some idx ->
  xmap_points idx m = flat_map (fun i => map (fun j => at_ m (pos g0 (nrows m) i) (pos g1 (ncols m) j)) (seq 0 (count g1 (ncols m))))
                        (seq 0 (count g0 (nrows m))).
Proof.
  intros E. destruct (grid_eq _ _ _ _ _ E) as (H1 & H2 & H3 & H4 & _).
  set (rows := map (pos g0 (nrows m)) (seq 0 (count g0 (nrows m)))). set (cols := map (pos g1 (ncols m)) (seq 0 (count g1 (ncols m)))).
  unfold xmap_points, grid_mask, ravel. cbn [nrows ncols at_ fst snd].
  replace (flat_map (fun y => map (is_grid_point idx y) (seq 0 (ncols m))) (seq 0 (nrows m)))
    with (flat_map (fun y => map (fun x => mem rows y && mem cols x) (seq 0 (ncols m))) (seq 0 (nrows m))).
  - rewrite compress_grid.
    + unfold rows, cols. clear. rewrite !flat_map_concat_map, map_map. f_equal. apply map_ext. intros i. now rewrite map_map.
    + now apply pos_increasing.
    + intros y Hy. apply in_map_iff in Hy. destruct Hy as (i & <- & Hi). apply in_seq in Hi. apply pos_inside; lia.
    + now apply pos_increasing.
    + intros y Hy. apply in_map_iff in Hy. destruct Hy as (i & <- & Hi). apply in_seq in Hi. apply pos_inside; lia.
  - rewrite !flat_map_concat_map. f_equal. apply map_ext. intros y. apply map_ext. intros x. unfold is_grid_point.
    apply eq_true_iff_eq. rewrite andb_true_iff, !mem_spec, existsb_exists. unfold rows, cols. rewrite <- (in_grid_points E). split.
    + intros H. exists (y, x). split; [exact H|]. cbn. now rewrite !Nat.eqb_refl.
    + intros ((y', x') & Hi & Ee). cbn in Ee. apply andb_true_iff in Ee. destruct Ee as [E1 E2].
      apply Nat.eqb_eq in E1, E2. now subst.
Qed.

Lemma flat_grid_length {A} (f : nat -> nat -> A) a b n m : length (flat_map (fun y => map (f y) (seq a n)) (seq b m)) = m * n.
Proof. revert b. induction m; intros b; cbn; [reflexivity|]. rewrite app_length, map_length, seq_length, IHm. reflexivity. Qed.
