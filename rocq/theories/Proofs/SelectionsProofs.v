From Coq Require Import String List Arith ZArith Reals Bool Lia Sorted.
From Verif Require Import Model.Binary Model.NdArray Model.Selections Spec.Slices Spec.Selections.
From Verif Require Model.Detector Model.SignalSlices.
Import ListNotations.
Local Open Scope nat_scope.

(** ** Positions of a slice *)

Definition step_of (s : option Z) : Z := match s with Some s => s | None => 1%Z end.

Lemma count_up i j s k : (0 < s)%Z -> (k < count i j s <-> (i + Z.of_nat k * s < j)%Z).
Proof.
  intros H. unfold count. destruct (Z.ltb_spec s 0) as [?|_]; [lia|]. destruct (Z.ltb_spec i j) as [L|L].
  - pose proof (Z.div_pos (j - i - 1) s ltac:(lia) ltac:(lia)) as P.
    pose proof (Z.mul_div_le (j - i - 1) s ltac:(lia)) as Q. pose proof (Z.mul_succ_div_gt (j - i - 1) s ltac:(lia)) as T.
    set (q := ((j - i - 1) / s)%Z) in *. clearbody q. split; intros K.
    + assert (Z.of_nat k <= q)%Z by lia. nia.
    + assert (Z.of_nat k < q + 1)%Z by nia. lia.
  - rewrite Z2Nat.inj_0. split; intros K; [lia|nia].
Qed.
Lemma count_down i j s k : (s < 0)%Z -> (k < count i j s <-> (j < i + Z.of_nat k * s)%Z).
Proof.
  intros H. unfold count. destruct (Z.ltb_spec s 0) as [_|?]; [|lia]. destruct (Z.ltb_spec j i) as [L|L].
  - pose proof (Z.div_pos (i - j - 1) (- s) ltac:(lia) ltac:(lia)) as P.
    pose proof (Z.mul_div_le (i - j - 1) (- s) ltac:(lia)) as Q. pose proof (Z.mul_succ_div_gt (i - j - 1) (- s) ltac:(lia)) as T.
    set (q := ((i - j - 1) / (- s))%Z) in *. clearbody q. split; intros K.
    + assert (Z.of_nat k <= q)%Z by lia. nia.
    + assert (Z.of_nat k < q + 1)%Z by nia. lia.
  - rewrite Z2Nat.inj_0. split; intros K; [lia|nia].
Qed.

Lemma sorted_map_seq {f : nat -> nat} {P : nat -> nat -> Prop} n : forall m, (forall a b, m <= a < b -> b < m + n -> P (f a) (f b)) -> StronglySorted P (map f (seq m n)).
Proof.
  induction n as [|n IH]; intros m H; cbn [seq map]; [constructor|]. constructor.
  - apply IH. intros a b K1 K2. apply H; lia.
  - apply Forall_map, Forall_forall. intros b K. apply in_seq in K. apply H; lia.
Qed.

Lemma positions_chosen n a b s : step_of s <> 0%Z ->
  in_order (step_of s) (positions n a b s) /\ forall k, In k (positions n a b s) <-> chosen (Z.of_nat n) a b (step_of s) (Z.of_nat k).
Proof.
  intros H. unfold positions. fold (step_of s). set (st := step_of s) in *. clearbody st. clear s.
  destruct (slice_indices (Z.of_nat n) a b st) as [i j] eqn:E. unfold slice_indices in E. injection E as Ei Ej.
  destruct (Z_lt_dec 0 st) as [L|L].
  - destruct (Z.ltb_spec st 0) as [?|_]; [lia|].
    assert (I0 : (0 <= i <= Z.of_nat n)%Z) by (clear Ej; revert Ei; destruct a as [a|]; [destruct (Z.ltb_spec a 0)|]; lia).
    assert (J0 : (0 <= j <= Z.of_nat n)%Z) by (clear Ei; revert Ej; destruct b as [b|]; [destruct (Z.ltb_spec b 0)|]; lia).
    assert (F : i = first_of (Z.of_nat n) a st \/ (i = Z.of_nat n /\ (Z.of_nat n <= first_of (Z.of_nat n) a st)%Z)).
    { unfold first_of, from_end. rewrite (proj2 (Z.ltb_lt 0 st) L). clear Ej. revert Ei. destruct a as [a|]; [destruct (Z.ltb_spec a 0)|]; lia. }
    assert (G : forall k, (0 <= k)%Z -> ((k < j)%Z <-> (k < Z.of_nat n)%Z /\ match b with Some t => (k < from_end (Z.of_nat n) t)%Z | None => True end)).
    { intros k K. unfold from_end. clear Ei. revert Ej. destruct b as [b|]; [destruct (Z.ltb_spec b 0)|]; lia. }
    split.
    + split; [|lia]. intros _. apply sorted_map_seq. intros x y K1 K2. cbn [Nat.add] in K2. apply count_up in K2; [|exact L]. nia.
    + intros k. rewrite in_map_iff. unfold chosen. split.
      * intros (t & T & U). apply in_seq in U. destruct U as [_ U]. cbn [Nat.add] in U. apply count_up in U; [|exact L].
        assert (T' : (Z.of_nat k = i + Z.of_nat t * st)%Z) by (rewrite <- T; nia).
        assert (B : (Z.of_nat k < j)%Z) by lia. apply G in B; [|lia]. destruct B as [B1 B2].
        assert (P : (0 <= Z.of_nat t * st)%Z) by (apply Z.mul_nonneg_nonneg; lia).
        destruct F as [F|[F1 F2]]; [|lia]. rewrite <- F. split; [lia|]. split; [exists (Z.of_nat t); lia|]. split; [|lia]. intros _. split; [lia|exact B2].
      * intros (K1 & [q Q] & K3 & _). destruct (K3 L) as [K4 K5]. destruct F as [F|F]; [|lia]. rewrite <- F in *.
        assert (0 <= q)%Z by nia. exists (Z.to_nat q). split; [lia|]. apply in_seq. split; [lia|]. cbn [Nat.add]. apply count_up; [exact L|].
        rewrite Z2Nat.id by lia. replace (i + q * st)%Z with (Z.of_nat k) by lia. apply G; [lia|]. split; [lia|exact K5].
  - destruct (Z.ltb_spec st 0) as [M|?]; [|lia].
    assert (I0 : (-1 <= i < Z.of_nat n)%Z \/ n = 0 /\ i = (-1)%Z) by (clear Ej; revert Ei; destruct a as [a|]; [destruct (Z.ltb_spec a 0)|]; lia).
    assert (J0 : (-1 <= j)%Z) by (clear Ei; revert Ej; destruct b as [b|]; [destruct (Z.ltb_spec b 0)|]; lia).
    assert (F : i = first_of (Z.of_nat n) a st \/ (i = -1 /\ first_of (Z.of_nat n) a st <= -1)%Z).
    { unfold first_of, from_end. destruct (Z.ltb_spec 0 st) as [?|_]; [lia|]. clear Ej. revert Ei. destruct a as [a|]; [destruct (Z.ltb_spec a 0)|]; lia. }
    assert (G : forall k, (0 <= k < Z.of_nat n)%Z -> ((j < k)%Z <-> match b with Some t => (from_end (Z.of_nat n) t < k)%Z | None => True end)).
    { intros k K. unfold from_end. clear Ei. revert Ej. destruct b as [b|]; [destruct (Z.ltb_spec b 0)|]; lia. }
    split.
    + split; [lia|]. intros _. apply sorted_map_seq. intros x y K1 K2. cbn [Nat.add] in K2. apply count_down in K2; [|exact M]. nia.
    + intros k. rewrite in_map_iff. unfold chosen. split.
      * intros (t & T & U). apply in_seq in U. destruct U as [_ U]. cbn [Nat.add] in U. apply count_down in U; [|exact M].
        assert (T' : (Z.of_nat k = i + Z.of_nat t * st)%Z) by (rewrite <- T; nia).
        assert (0 <= Z.of_nat k < Z.of_nat n)%Z by nia.
        assert (B : (j < Z.of_nat k)%Z) by lia. apply G in B; [|lia].
        assert (P : (Z.of_nat t * st <= 0)%Z) by (apply Z.mul_nonneg_nonpos; lia).
        destruct F as [F|[F1 F2]]; [|lia]. rewrite <- F. split; [lia|]. split; [exists (Z.of_nat t); lia|]. split; [lia|]. intros _. split; [lia|exact B].
      * intros (K1 & [q Q] & _ & K3). destruct (K3 M) as [K4 K5]. destruct F as [F|F]; [|lia]. rewrite <- F in *.
        assert (0 <= q)%Z by nia. exists (Z.to_nat q). split; [lia|]. apply in_seq. split; [lia|]. cbn [Nat.add]. apply count_down; [exact M|].
        rewrite Z2Nat.id by lia. replace (i + q * st)%Z with (Z.of_nat k) by lia. apply G; [lia|exact K5].
Qed.
Lemma positions_bound n a b s k : step_of s <> 0%Z -> In k (positions n a b s) -> k < n.
Proof. intros H K. apply (proj2 (positions_chosen n a b s H)) in K. destruct K as [K _]. lia. Qed.

(** ** Indexing *)

(** The position of a pattern in the map before, for its position after. *)
Inductive placed : list (list nat * bool) -> list nat -> list nat -> Prop :=
| placed_nil : placed [] [] []
| placed_kept l ls k i p j : nth_error l k = Some p -> placed ls i j -> placed ((l, true) :: ls) (k :: i) (p :: j)
| placed_dropped p ls i j : placed ls i j -> placed (([p], false) :: ls) i (p :: j).

Lemma placed_source ps i j : placed ps i j -> source ps i = j.
Proof.
  induction 1 as [|l ls k i p j H _ IH|p ls i j _ IH]; cbn [source hd tl]; [reflexivity| |].
  - rewrite (nth_error_nth _ _ _ H), IH. reflexivity.
  - cbn [nth]. rewrite IH. reflexivity.
Qed.
Lemma placed_within ps i j : placed ps i j -> Forall2 lt i (new_shape ps).
Proof.
  induction 1 as [|l ls k i p j H _ IH|p ls i j _ IH]; unfold new_shape in *; cbn [filter snd map fst]; [constructor| |exact IH].
  constructor; [|exact IH]. apply nth_error_Some. rewrite H. discriminate.
Qed.
Lemma position_spec n i k : position n i = Some k -> k < n /\ Z.of_nat k = from_end (Z.of_nat n) i.
Proof.
  unfold position, from_end. destruct (Z.leb_spec 0 i), (Z.ltb_spec i (Z.of_nat n)); cbn [andb];
    try (intros E; injection E as <-; destruct (Z.ltb_spec i 0); lia);
    destruct (Z.leb_spec (- Z.of_nat n) i), (Z.ltb_spec i 0); cbn [andb]; intros E; try discriminate; injection E as <-; lia.
Qed.
Lemma all_some_inv {A B} (f : A -> option B) : forall l r, all_some (map f l) = Some r -> Forall2 (fun a b => f a = Some b) l r.
Proof.
  induction l as [|a l IH]; intros r E; cbn [map all_some] in E; [injection E as <-; constructor|].
  destruct (f a) as [b|] eqn:F; [|discriminate]. cbn [bind] in E. destruct (all_some (map f l)) as [t|]; [|discriminate]. cbn [bind] in E.
  injection E as <-. constructor; [exact F|apply IH; reflexivity].
Qed.
Lemma axes_positions_all sh : forall es ps, length es = length sh -> axes_positions sh es = Some ps ->
  Forall2 (fun ne p => entry_positions (fst ne) (snd ne) = Some p) (combine sh es) ps.
Proof.
  induction sh as [|n sh IH]; intros [|e es] ps L E; try discriminate; cbn [axes_positions combine] in *; [injection E as <-; constructor|].
  destruct (entry_positions n e) as [p|] eqn:F; [|discriminate]. cbn [bind] in E. destruct (axes_positions sh es) as [r|] eqn:G; [|discriminate].
  cbn [bind] in E. injection E as <-. constructor; [exact F|]. apply IH; [now injection L|exact G].
Qed.

(** ** Row-major order *)

Lemma nth_error_flat_map {A B} (f : A -> list B) m l : forall k r x, (forall a, In a l -> length (f a) = m) -> r < m -> nth_error l k = Some x ->
  nth_error (flat_map f l) (k * m + r) = nth_error (f x) r.
Proof.
  induction l as [|a l IH]; intros [|k] r x H L E; try discriminate; cbn [flat_map].
  - injection E as ->. cbn [Nat.mul Nat.add]. rewrite nth_error_app1; [reflexivity|]. rewrite H by (left; reflexivity). exact L.
  - rewrite nth_error_app2; rewrite H by (left; reflexivity); [|nia]. replace (S k * m + r - m) with (k * m + r) by nia.
    apply IH; [|exact L|exact E]. intros b K. apply H. right. exact K.
Qed.
Lemma length_flat_map {A B} (f : A -> list B) m l : (forall a, In a l -> length (f a) = m) -> length (flat_map f l) = length l * m.
Proof.
  induction l as [|a l IH]; intros H; [reflexivity|]. cbn [flat_map]. rewrite app_length, H by (left; reflexivity). rewrite IH; [reflexivity|].
  intros b K. apply H. right. exact K.
Qed.
Lemma length_cross qs : length (cross qs) = product (map (@length nat) qs).
Proof.
  induction qs as [|q qs IH]; [reflexivity|]. cbn [cross map product fold_right]. rewrite (length_flat_map _ (length (cross qs))).
  - rewrite IH. reflexivity.
  - intros a _. apply map_length.
Qed.
Lemma flat_bound sh : forall i, Forall2 lt i sh -> flat sh i < product sh.
Proof.
  induction sh as [|n sh IH]; intros i H; inversion H; subst; cbn [flat product fold_right]; [lia|].
  match goal with K : Forall2 lt _ sh |- _ => pose proof (IH _ K) end. unfold product in *. nia.
Qed.
(** The element of a product of lists at a position. *)
Lemma cross_at qs : forall i j, Forall2 (fun qk p => nth_error (fst qk) (snd qk) = Some p) (combine qs i) j -> length i = length qs ->
  nth_error (cross qs) (flat (map (@length nat) qs) i) = Some j.
Proof.
  induction qs as [|q qs IH]; intros [|k i] j H L; try discriminate; cbn [combine] in H; inversion H; subst; [reflexivity|].
  cbn [cross map flat fst snd] in *. rewrite <- (length_cross qs).
  match goal with K : Forall2 _ (combine qs i) ?t |- _ => pose proof (IH i t K ltac:(now injection L)) as E end.
  assert (flat (map (@length nat) qs) i < length (cross qs)) as B by (apply nth_error_Some; rewrite E; discriminate).
  match goal with K : nth_error q k = Some ?p |- _ => rewrite (nth_error_flat_map _ (length (cross qs)) q k _ p); [|intros a _; apply map_length|exact B|exact K] end.
  rewrite nth_error_map, E. reflexivity.
Qed.
Lemma cross_seq_at sh : forall i, Forall2 lt i sh -> nth_error (cross (map (seq 0) sh)) (flat sh i) = Some i.
Proof.
  intros i H. pose proof (cross_at (map (seq 0) sh) i i) as E.
  assert (M : map (@length nat) (map (seq 0) sh) = sh) by (rewrite map_map; erewrite map_ext; [apply map_id|]; intros a; apply seq_length).
  rewrite M in E. apply E.
  - clear E M. induction H; cbn [map combine]; constructor; [|assumption]. cbn [fst snd].
    rewrite (nth_error_nth' _ 0) by (rewrite seq_length; assumption). rewrite seq_nth by assumption. reflexivity.
  - clear - H. induction H; cbn [map length]; congruence.
Qed.

(** ** Sorted lists *)

Lemma sorted_same {P : nat -> nat -> Prop} : (forall a b, P a b -> P b a -> False) -> forall l m, StronglySorted P l -> StronglySorted P m -> (forall k, In k l <-> In k m) -> l = m.
Proof.
  intros As. induction l as [|a l IH]; intros [|b m] Sl Sm H; [reflexivity|exfalso; apply (proj2 (H b)); left; reflexivity|exfalso; apply (proj1 (H a)); left; reflexivity|].
  inversion Sl as [|? ? Sl' Fl]; inversion Sm as [|? ? Sm' Fm]; subst. rewrite Forall_forall in Fl, Fm.
  assert (a = b) as ->.
  { destruct (proj1 (H a) (or_introl eq_refl)) as [E|K]; [congruence|]. destruct (proj2 (H b) (or_introl eq_refl)) as [E|K']; [congruence|].
    elim (As _ _ (Fm _ K) (Fl _ K')). }
  f_equal. apply IH; try assumption. intros k. split; intros K.
  - destruct (proj1 (H k) (or_intror K)) as [<-|K']; [|exact K']. elim (As _ _ (Fl _ K) (Fl _ K)).
  - destruct (proj2 (H k) (or_intror K)) as [<-|K']; [|exact K']. elim (As _ _ (Fm _ K) (Fm _ K)).
Qed.
Lemma sorted_filter (f : nat -> bool) : forall l, StronglySorted lt l -> StronglySorted lt (filter f l).
Proof.
  induction l as [|a l IH]; intros H; [constructor|]. inversion H as [|? ? H1 H2]; subst. cbn [filter]. destruct (f a); [|auto]. constructor; [auto|].
  rewrite Forall_forall in *. intros k K. apply filter_In in K. apply H2. tauto.
Qed.
Lemma sorted_seq a n : StronglySorted lt (seq a n).
Proof. rewrite <- (map_id (seq a n)). apply sorted_map_seq. intros x y H _. lia. Qed.
Lemma in_marked n p k : In k (marked n p) <-> k < n /\ In k p.
Proof.
  unfold marked. rewrite filter_In, in_seq, existsb_exists. split.
  - intros [H (x & X & E)]. apply Nat.eqb_eq in E. subst x. split; [lia|exact X].
  - intros [H K]. split; [lia|]. exists k. split; [exact K|apply Nat.eqb_refl].
Qed.
Lemma marked_sorted n p : StronglySorted lt (marked n p).
Proof. apply sorted_filter, sorted_seq. Qed.
Lemma marked_same n p : StronglySorted lt p -> Forall (fun k => k < n) p -> marked n p = p.
Proof.
  intros H B. rewrite Forall_forall in B. apply (sorted_same (P := lt)); [lia|apply marked_sorted|exact H|]. intros k. rewrite in_marked. specialize (B k). tauto.
Qed.
Lemma extent_seq a n : extent (seq a n) = n.
Proof.
  destruct n as [|n]; [reflexivity|]. cbn [seq extent]. destruct n as [|n]; [cbn; lia|].
  replace (last (a :: seq (S a) (S n)) a) with (a + S n); [lia|].
  rewrite seq_S. change (a :: seq (S a) n ++ [S a + n]) with ((a :: seq (S a) n) ++ [S a + n]). rewrite last_last. lia.
Qed.

Lemma slice_indices_up n a b : let '(i, j) := slice_indices (Z.of_nat n) a b 1 in (0 <= i <= Z.of_nat n)%Z /\ (0 <= j <= Z.of_nat n)%Z.
Proof.
  unfold slice_indices. destruct (Z.ltb_spec 1 0) as [?|_]; [lia|].
  destruct a as [a|], b as [b|]; try destruct (Z.ltb_spec a 0); try destruct (Z.ltb_spec b 0); lia.
Qed.
Lemma shifted_seq m : forall c q, map (fun k => m + k) (seq q c) = seq (m + q) c.
Proof. induction c as [|c IH]; intros q; [reflexivity|]. cbn [seq map]. rewrite IH. do 2 f_equal. lia. Qed.
Lemma positions_one n a b s : step_of s = 1%Z -> let '(i, j) := SignalSlices.indices n (SignalSlices.Slice a b) in positions n a b s = seq i (j - i).
Proof.
  intros H. unfold SignalSlices.indices, SignalSlices.bound. cbn [SignalSlices.start SignalSlices.stop]. unfold positions. fold (step_of s). rewrite H.
  pose proof (slice_indices_up n a b) as U. destruct (slice_indices (Z.of_nat n) a b 1) as [i j] eqn:E. unfold slice_indices in E. cbn [Z.ltb Z.compare] in E. injection E as Ei Ej.
  assert (C : count i j 1 = Z.to_nat j - Z.to_nat i).
  { unfold count. cbn [Z.ltb Z.compare]. destruct (Z.ltb_spec i j); [rewrite Z.div_1_r|]; lia. }
  rewrite C.
  replace (match a with Some i => Z.to_nat (if (i <? 0)%Z then Z.max (i + Z.of_nat n) 0 else Z.min i (Z.of_nat n)) | None => 0 end) with (Z.to_nat i)
    by (rewrite <- Ei; destruct a; reflexivity).
  replace (match b with Some i => Z.to_nat (if (i <? 0)%Z then Z.max (i + Z.of_nat n) 0 else Z.min i (Z.of_nat n)) | None => n end) with (Z.to_nat j)
    by (rewrite <- Ej; destruct b; [reflexivity|lia]).
  set (c := Z.to_nat j - Z.to_nat i). clearbody c. replace (seq (Z.to_nat i) c) with (map (fun k => Z.to_nat i + k) (seq 0 c)).
  - apply map_ext. intros k. lia.
  - rewrite shifted_seq, Nat.add_0_r. reflexivity.
Qed.

(** Selected positions as positions in the lists of all axes. *)
Lemma placed_in_lists ps i j : placed ps i j ->
  product (map (fun p => length (fst p)) ps) = product (new_shape ps) /\
  exists i', Forall2 (fun qk p => nth_error (fst qk) (snd qk) = Some p) (combine (map fst ps) i') j /\ length i' = length (map fst ps)
    /\ flat (map (@length nat) (map fst ps)) i' = flat (new_shape ps) i.
Proof.
  induction 1 as [|l ls k i p j H _ (E & i' & A & B & C)|p ls i j _ (E & i' & A & B & C)]; unfold new_shape in *; cbn [filter snd map fst].
  - split; [reflexivity|]. exists []. repeat split. constructor.
  - split; [cbn [product fold_right]; unfold product in E; rewrite E; reflexivity|]. exists (k :: i'). cbn [combine length flat]. repeat split.
    + constructor; [exact H|exact A].
    + congruence.
    + rewrite C, map_map. rewrite E. reflexivity.
  - split; [unfold product in *; cbn [fold_right length map]; rewrite E; lia|]. exists (0 :: i'). cbn [combine length flat]. repeat split.
    + constructor; [reflexivity|exact A].
    + congruence.
    + rewrite C. reflexivity.
Qed.

Lemma blocks_of_seq p : forall n a, flat_map (fun k => seq (k * p) p) (seq a n) = seq (a * p) (n * p).
Proof.
  induction n as [|n IH]; intros a; [reflexivity|]. cbn [seq flat_map Nat.mul]. rewrite IH, seq_app. do 2 f_equal. lia.
Qed.
Lemma map_flat_map {A B C} (g : B -> C) (f : A -> list B) l : map g (flat_map f l) = flat_map (fun a => map g (f a)) l.
Proof. induction l as [|a l IH]; [reflexivity|]. cbn [flat_map]. rewrite map_app, IH. reflexivity. Qed.
Lemma flat_all sh : map (flat sh) (cross (map (seq 0) sh)) = seq 0 (product sh).
Proof.
  induction sh as [|n sh IH]; [reflexivity|]. cbn [map cross product fold_right]. rewrite map_flat_map. fold (product sh).
  rewrite (flat_map_ext _ (fun k => seq (k * product sh) (product sh))).
  - rewrite blocks_of_seq. reflexivity.
  - intros k. rewrite map_map. cbn [flat]. rewrite <- (map_map (flat sh) (fun r => k * product sh + r)), IH, shifted_seq, Nat.add_0_r. reflexivity.
Qed.
Lemma listed_all {A} sh (l : list A) d : length l = product sh -> map (listed sh l d) (cross (map (seq 0) sh)) = l.
Proof.
  intros H. unfold listed. rewrite <- (map_map (flat sh) (fun k => nth k l d)), flat_all, <- H. clear H.
  induction l as [|a l IH]; [reflexivity|]. cbn [length seq map nth]. f_equal. rewrite <- seq_shift, map_map. exact IH.
Qed.
Lemma position_nat n i : i < n -> position n (Z.of_nat i) = Some i.
Proof. intros H. unfold position. destruct (Z.leb_spec 0 (Z.of_nat i)); [|lia]. destruct (Z.ltb_spec (Z.of_nat i) (Z.of_nat n)); [|lia]. cbn [andb]. f_equal. lia. Qed.
Lemma position_out n i : n <= i -> position n (Z.of_nat i) = None.
Proof.
  intros H. unfold position. destruct (Z.ltb_spec (Z.of_nat i) (Z.of_nat n)); [lia|]. rewrite andb_false_r. destruct (Z.ltb_spec (Z.of_nat i) 0); [lia|]. rewrite andb_false_r. reflexivity.
Qed.
Lemma skipn_nth {A} (d : A) : forall l k, k < length l -> skipn k l = nth k l d :: skipn (S k) l.
Proof. induction l as [|a l IH]; intros [|k] H; cbn [length] in H; try lia; [reflexivity|]. cbn [skipn nth]. apply IH. lia. Qed.
Lemma repeat_snoc {A} (a : A) n : repeat a n ++ [a] = a :: repeat a n.
Proof. induction n as [|n IH]; [reflexivity|]. cbn [repeat app]. rewrite IH. reflexivity. Qed.
Lemma rev_repeat {A} (a : A) n : rev (repeat a n) = repeat a n.
Proof. induction n as [|n IH]; [reflexivity|]. cbn [repeat rev]. rewrite IH. apply repeat_snoc. Qed.
