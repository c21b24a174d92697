From Coq Require Import List Arith ZArith Bool Reals Lra Lia.
From Verif Require Import Model.Pattern Model.MapOverlap Model.NeighbourDot Proofs.ListLemmas Proofs.MapOverlapProofs
  Proofs.PatternProofs Proofs.PyArrayProofs.
Import ListNotations.

(** ** Lists *)
Lemma filter_seq_nth {A} (p : A -> bool) l d :
  map (fun j => nth j l d) (filter (fun j => p (nth j l d)) (seq 0 (length l))) = filter p l.
Proof.
  induction l as [|a l IH]; [reflexivity|]. cbn [length seq filter nth].
  rewrite <- seq_shift.
  assert (E : forall (q : nat -> bool) s, filter q (map S s) = map S (filter (fun j => q (S j)) s)).
  { intros q s. induction s as [|b s IHs]; [reflexivity|]. simpl. destruct (q (S b)); simpl; rewrite IHs; reflexivity. }
  rewrite E. cbn [nth]. destruct (p a); simpl; rewrite map_map; simpl; rewrite IH; reflexivity.
Qed.
Lemma position_some k l i : position k l = Some i -> nth_error l i = Some k.
Proof.
  revert i. induction l as [|a l IH]; intros i H; simpl in H; [discriminate|].
  destruct (Nat.eqb_spec a k) as [->|]; [injection H as <-; reflexivity|].
  destruct (position k l) as [j|]; [|discriminate]. injection H as <-. simpl. apply IH. reflexivity.
Qed.
Lemma position_none k l : position k l = None -> ~ In k l.
Proof.
  induction l as [|a l IH]; intros H; simpl in *; [tauto|].
  destruct (Nat.eqb_spec a k); [discriminate|]. destruct (position k l); [discriminate|].
  intros [|]; [contradiction|]. apply IH; trivial.
Qed.
Lemma upd_length {A} (l : list A) i v : length (upd l i v) = length l.
Proof. revert i. induction l as [|a l IH]; intros [|i]; simpl; try reflexivity. rewrite IH. reflexivity. Qed.
Lemma upd_nth {A} (l : list A) i v k :
  nth_error (upd l i v) k = if (k =? i) && (k <? length l) then Some v else nth_error l k.
Proof.
  revert i k. induction l as [|a l IH]; intros i k; simpl.
  - rewrite andb_false_r. destruct k; reflexivity.
  - destruct i as [|i]; destruct k as [|k]; simpl; try reflexivity.
    rewrite IH. replace (S k <? S (length l)) with (k <? length l) by (apply eq_iff_eq_true; rewrite !Nat.ltb_lt; lia).
    reflexivity.
Qed.
Lemma write_length {A} (ps : list nat) (vs : list A) out : length (write out ps vs) = length out.
Proof.
  unfold write. generalize (combine ps vs) as l. intros l. revert out.
  induction l as [|a l IH]; intros out; simpl; [reflexivity|]. rewrite IH, upd_length. reflexivity.
Qed.
Lemma write_nth {A} (g : nat -> A) ps out k :
  nth_error (write out ps (map g ps)) k =
  if existsb (Nat.eqb k) ps && (k <? length out) then Some (g k) else nth_error out k.
Proof.
  unfold write. revert out. induction ps as [|a ps IH]; intros out; simpl; [reflexivity|].
  rewrite IH, upd_length, upd_nth.
  destruct (Nat.eqb_spec k a) as [->|]; simpl.
  - destruct (a <? length out); simpl.
    + destruct (existsb (Nat.eqb a) ps); reflexivity.
    + rewrite andb_false_r. reflexivity.
  - reflexivity.
Qed.

Lemma not_nan_filter {A} (b : A -> bool) (e : A -> option R) l :
  not_nan (map (fun k => if b k then e k else None) l) = not_nan (map e (filter b l)).
Proof.
  induction l as [|a l IH]; [reflexivity|]. simpl. unfold not_nan in *.
  destruct (b a); simpl; rewrite IH; reflexivity.
Qed.
Lemma not_nan_in v l : In v (not_nan l) <-> In (Some v) l.
Proof.
  unfold not_nan. rewrite in_flat_map. split.
  - intros ([r|] & H1 & H2); simpl in H2; [|contradiction]. destruct H2 as [<-|[]]. exact H1.
  - intros H. exists (Some v). split; [exact H|]. left. reflexivity.
Qed.
Lemma not_nan_length l : (length (not_nan l) <= length l)%nat.
Proof. induction l as [|[r|] l IH]; simpl; unfold not_nan in *; simpl; lia. Qed.

Lemma filter_filter {A} (a b : A -> bool) l : filter a (filter b l) = filter (fun k => a k && b k) l.
Proof.
  induction l as [|c l IH]; [reflexivity|]. simpl.
  destruct (b c) eqn:Eb; simpl; [destruct (a c); simpl; rewrite IH; reflexivity|]. rewrite andb_false_r. exact IH.
Qed.
Lemma flat_map_flat_map {A B C} (g : B -> list C) (f : A -> list B) l :
  flat_map g (flat_map f l) = flat_map (fun a => flat_map g (f a)) l.
Proof. induction l as [|a l IH]; [reflexivity|]. simpl. rewrite flat_map_app, IH. reflexivity. Qed.
Lemma map_flat_map {A B C} (g : B -> C) (f : A -> list B) l :
  map g (flat_map f l) = flat_map (fun a => map g (f a)) l.
Proof. induction l as [|a l IH]; [reflexivity|]. simpl. rewrite map_app, IH. reflexivity. Qed.
Lemma flat_map_map {A B C} (g : B -> list C) (f : A -> B) l :
  flat_map g (map f l) = flat_map (fun a => g (f a)) l.
Proof. induction l as [|a l IH]; [reflexivity|]. simpl. rewrite IH. reflexivity. Qed.
Lemma flat_map_ext_in {A B} (f g : A -> list B) l : (forall a, In a l -> f a = g a) -> flat_map f l = flat_map g l.
Proof.
  induction l as [|a l IH]; intros H; [reflexivity|]. simpl. rewrite (H a) by (left; reflexivity).
  rewrite IH; [reflexivity|]. intros b Hb. apply H. right. exact Hb.
Qed.
Lemma seq_offset a n : seq a n = map (fun j => a + j) (seq 0 n).
Proof.
  revert a. induction n as [|n IH]; intros a; [reflexivity|]. simpl. f_equal; [lia|].
  rewrite (IH (S a)), (IH 1), map_map. apply map_ext. intros j. lia.
Qed.
Lemma seq_rows n k : seq 0 (n * k) = flat_map (fun i => map (fun j => i * k + j) (seq 0 k)) (seq 0 n).
Proof.
  induction n as [|n IH]; [reflexivity|].
  rewrite seq_S, flat_map_app, <- IH. simpl flat_map. rewrite app_nil_r.
  replace (S n * k) with (n * k + k) by lia. rewrite seq_app. simpl. f_equal. apply seq_offset.
Qed.

(** ** Flat indices *)
Section Flat.
Context {A : Type}.
Variables (m : amap A) (w : bwindow).

Lemma inside_iff yy xx : inside m yy xx = true <->
  (0 <= yy < Z.of_nat (nrows m) /\ 0 <= xx < Z.of_nat (ncols m))%Z.
Proof. unfold inside. rewrite !andb_true_iff, !Z.leb_le, !Z.ltb_lt. tauto. Qed.

Lemma unravel_flat yy xx : inside m yy xx = true -> unravel m (flat m yy xx) = at_ m (Z.to_nat yy) (Z.to_nat xx).
Proof.
  rewrite inside_iff. intros H. unfold unravel, flat.
  rewrite Z.add_comm, Z.div_add, Z.mod_add by lia.
  rewrite Z.div_small, Z.mod_small by lia. reflexivity.
Qed.
Lemma flat_inj yy xx y' x' : inside m yy xx = true -> inside m y' x' = true ->
  flat m yy xx = flat m y' x' -> yy = y' /\ xx = x'.
Proof. rewrite !inside_iff. unfold flat. intros H1 H2 E. assert (yy = y') by nia. subst. split; [reflexivity|lia]. Qed.
Lemma flat_nonneg yy xx : inside m yy xx = true -> (0 <= flat m yy xx)%Z.
Proof. rewrite inside_iff. unfold flat. nia. Qed.

Variables (y x : nat).
Hypothesis Hy : y < nrows m.
Hypothesis Hx : x < ncols m.
Lemma here_inside : inside m (Z.of_nat y) (Z.of_nat x) = true.
Proof. apply inside_iff. lia. Qed.

Lemma origin_under : (0 < wnx w) -> under w y x (window_origin w) = (Z.of_nat y, Z.of_nat x).
Proof.
  clear Hy Hx. intros Hw. unfold under, window_origin.
  assert (wnx w / 2 < wnx w) by (apply Nat.div_lt; lia).
  assert (E1 : (wny w / 2 * wnx w + wnx w / 2) / wnx w = wny w / 2).
  { rewrite Nat.div_add_l by lia. rewrite (Nat.div_small (wnx w / 2)) by lia. lia. }
  assert (E2 : (wny w / 2 * wnx w + wnx w / 2) mod wnx w = wnx w / 2).
  { rewrite Nat.add_comm, Nat.mod_add by lia. apply Nat.mod_small. lia. }
  rewrite E1, E2. f_equal; lia.
Qed.
Lemma under_inj k : under w y x k = (Z.of_nat y, Z.of_nat x) -> 0 < wnx w -> k = window_origin w.
Proof.
  clear Hy Hx. unfold under, window_origin. intros E Hw. apply pair_equal_spec in E as [E1 E2].
  pose proof (Nat.div_mod k (wnx w) ltac:(lia)) as E.
  set (q := k / wnx w) in *. set (r := k mod wnx w) in *.
  set (a := wny w / 2) in *. set (b := wnx w / 2) in *.
  assert (q = a) by lia. assert (r = b) by lia. nia.
Qed.

Lemma index_under_origin : 0 < wnx w -> index_under m w y x (window_origin w) = flat m (Z.of_nat y) (Z.of_nat x).
Proof. intros Hw. unfold index_under. rewrite origin_under by exact Hw. rewrite here_inside. reflexivity. Qed.
Lemma is_neighbour k : 0 < wnx w ->
  negb (index_under m w y x k =? flat m (Z.of_nat y) (Z.of_nat x))%Z && negb (index_under m w y x k =? -1)%Z
  = negb (k =? window_origin w) && (let (yy, xx) := under w y x k in inside m yy xx).
Proof.
  intros Hw. unfold index_under. destruct (under w y x k) as [yy xx] eqn:U.
  destruct (inside m yy xx) eqn:I.
  - pose proof (flat_nonneg yy xx I).
    replace (flat m yy xx =? -1)%Z with false by (symmetry; apply Z.eqb_neq; lia). simpl. rewrite !andb_true_r. f_equal.
    apply eq_iff_eq_true. rewrite Z.eqb_eq, Nat.eqb_eq. split.
    + intros E. apply flat_inj in E; [|exact I|exact here_inside]. destruct E; subst. apply under_inj; assumption.
    + intros ->. rewrite origin_under in U by exact Hw. injection U as <- <-. reflexivity.
  - rewrite Z.eqb_refl. rewrite !andb_false_r. reflexivity.
Qed.
End Flat.

(** ** The value at one window position *)
Definition entry (zm nz : bool) (w : bwindow) (m : amap pattern) (y x k : nat) : option R :=
  let (yy, xx) := under w y x k in
  match look m yy xx with Some q => dot_product zm nz q (at_ m y x) | None => None end.

Lemma truthy_in w k : In k (truthy w) <-> k < wny w * wnx w /\ nth k (wflat w) false = true.
Proof. unfold truthy. rewrite filter_In, in_seq. split; intros [H1 H2]; split; try exact H2; lia. Qed.

Section Closed.
Variables (zm nz : bool) (w : bwindow) (ci : nat) (m : amap pattern) (y x : nat).
Hypothesis Hw : 0 < wnx w.
Hypothesis Hci : center_index w = Some ci.
Hypothesis Hy : y < nrows m.
Hypothesis Hx : x < ncols m.

Lemma pat_idx_eq : nth ci (indices_at m w y x) (-1)%Z = flat m (Z.of_nat y) (Z.of_nat x).
Proof.
  unfold indices_at. apply position_some in Hci.
  apply nth_error_nth. rewrite nth_error_map, Hci. simpl. f_equal. apply index_under_origin; assumption.
Qed.

Let neigh (k : nat) : bool :=
  negb (k =? window_origin w) && (let (yy, xx) := under w y x k in inside m yy xx).

Lemma neighbour_positions :
  map (fun j => nth j (truthy w) 0) (neighbour_idx (indices_at m w y x) (flat m (Z.of_nat y) (Z.of_nat x)))
  = filter neigh (truthy w).
Proof.
  unfold neighbour_idx. unfold indices_at. rewrite map_length.
  rewrite <- (filter_seq_nth neigh (truthy w) 0). f_equal.
  apply filter_ext_in. intros j Hj. apply in_seq in Hj.
  assert (E : nth j (map (index_under m w y x) (truthy w)) (-1)%Z = index_under m w y x (nth j (truthy w) 0)).
  { apply nth_error_nth. rewrite nth_error_map, (nth_error_nth' (truthy w) 0) by lia. reflexivity. }
  rewrite E. apply is_neighbour; assumption.
Qed.

Lemma dot_products_eq :
  dot_products zm nz m (indices_at m w y x) (flat m (Z.of_nat y) (Z.of_nat x))
  = map (entry zm nz w m y x) (filter neigh (truthy w)).
Proof.
  rewrite <- neighbour_positions. unfold dot_products. rewrite map_map. apply map_ext_in. intros j Hj.
  unfold neighbour_idx in Hj. apply filter_In in Hj as [H1 H2]. apply in_seq in H1.
  unfold indices_at in *. rewrite map_length in H1.
  assert (E : nth j (map (index_under m w y x) (truthy w)) (-1)%Z = index_under m w y x (nth j (truthy w) 0)).
  { apply nth_error_nth. rewrite nth_error_map, (nth_error_nth' (truthy w) 0) by lia. reflexivity. }
  rewrite E in *. clear E. set (k := nth j (truthy w) 0) in *.
  unfold entry, index_under in *. destruct (under w y x k) as [yy xx].
  unfold look. destruct (inside m yy xx) eqn:I.
  - rewrite unravel_flat by exact I. rewrite unravel_flat by (apply here_inside; assumption).
    rewrite !Nat2Z.id. reflexivity.
  - exfalso. rewrite Z.eqb_refl, andb_false_r in H2. discriminate.
Qed.

Lemma average_closed : average_dot_product zm nz w ci m y x =
  nanmean (map (entry zm nz w m y x) (filter (fun k => negb (k =? window_origin w)) (truthy w))).
Proof.
  unfold average_dot_product. rewrite pat_idx_eq, dot_products_eq. unfold nanmean.
  assert (E : not_nan (map (entry zm nz w m y x) (filter neigh (truthy w)))
    = not_nan (map (entry zm nz w m y x) (filter (fun k => negb (k =? window_origin w)) (truthy w)))).
  { rewrite <- !not_nan_filter. f_equal. apply map_ext. intros k. unfold neigh.
    destruct (negb (k =? window_origin w)); cbn [andb]; [|reflexivity].
    unfold entry, look. destruct (under w y x k) as [yy xx]. destruct (inside m yy xx); reflexivity. }
  rewrite E. reflexivity.
Qed.

Lemma entry_origin : entry zm nz w m y x (window_origin w) = dot_product zm nz (at_ m y x) (at_ m y x).
Proof.
  unfold entry. rewrite origin_under by assumption. unfold look. rewrite here_inside by assumption.
  rewrite !Nat2Z.id. reflexivity.
Qed.

Lemma matrix_closed : dot_product_matrix zm nz w ci m y x =
  map (fun k => if nth k (wflat w) false then entry zm nz w m y x k else None) (seq 0 (wny w * wnx w)).
Proof.
  unfold dot_product_matrix. rewrite pat_idx_eq, dot_products_eq, neighbour_positions.
  rewrite (unravel_flat m) by (apply here_inside; assumption). rewrite !Nat2Z.id.
  pose proof (position_some _ _ _ Hci) as Hc. rewrite (nth_error_nth _ _ _ Hc).
  rewrite <- entry_origin. set (o := window_origin w) in *.
  assert (Ho : o < wny w * wnx w /\ nth o (wflat w) false = true).
  { apply truthy_in. apply nth_error_In in Hc. exact Hc. }
  apply nth_error_ext. intros k.
  rewrite write_nth, upd_length, repeat_length, upd_nth, repeat_length, nth_error_map.
  destruct (Nat.ltb_spec k (wny w * wnx w)) as [Hk|Hk].
  2:{ rewrite !andb_false_r.
      rewrite (proj2 (nth_error_None _ k)) by (rewrite repeat_length; lia).
      rewrite (proj2 (nth_error_None _ k)) by (rewrite seq_length; lia). reflexivity. }
  rewrite !andb_true_r. rewrite nth_error_seq by exact Hk. cbn [option_map].
  assert (Er : nth_error (repeat (@None R) (wny w * wnx w)) k = Some None).
  { clear -Hk. revert k Hk. induction (wny w * wnx w) as [|n IH]; intros [|k] H; simpl; try lia; [reflexivity|]. apply IH. lia. }
  rewrite Er. replace (0 + k) with k by lia.
  destruct (existsb (Nat.eqb k) (filter neigh (truthy w))) eqn:E.
  - apply existsb_exists in E as (k' & H1 & H2). apply Nat.eqb_eq in H2. subst k'.
    apply filter_In in H1 as [H1 _]. apply truthy_in in H1 as [_ ->]. reflexivity.
  - destruct (Nat.eqb_spec k o) as [->|Hne].
    + destruct Ho as [_ ->]. reflexivity.
    + destruct (nth k (wflat w) false) eqn:F; [|reflexivity]. f_equal.
      destruct (neigh k) eqn:N.
      * exfalso. rewrite <- not_true_iff_false in E. apply E. apply existsb_exists. exists k.
        split; [|apply Nat.eqb_refl]. apply filter_In. split; [|exact N]. apply truthy_in. split; assumption.
      * unfold neigh in N. rewrite (proj2 (Nat.eqb_neq _ _)) in N by exact Hne. cbn [andb negb] in N.
        unfold entry, look. destruct (under w y x k) as [yy xx]. rewrite N. reflexivity.
Qed.

Lemma average_from_matrix_eq :
  average_from_matrix w (dot_product_matrix zm nz w ci m y x) = average_dot_product zm nz w ci m y x.
Proof.
  rewrite average_closed. unfold average_from_matrix, nanmean. rewrite matrix_closed.
  set (o := window_origin w).
  assert (E : upd (map (fun k => if nth k (wflat w) false then entry zm nz w m y x k else None) (seq 0 (wny w * wnx w))) o None
    = map (fun k => if (negb (k =? o) && nth k (wflat w) false)%bool then entry zm nz w m y x k else None) (seq 0 (wny w * wnx w))).
  { apply nth_error_ext. intros k. rewrite upd_nth, map_length, seq_length, !nth_error_map.
    destruct (Nat.ltb_spec k (wny w * wnx w)) as [Hk|Hk].
    - rewrite andb_true_r. rewrite nth_error_seq by exact Hk. simpl.
      destruct (Nat.eqb_spec k o); reflexivity.
    - rewrite andb_false_r. rewrite (proj2 (nth_error_None _ k)) by (rewrite seq_length; lia). reflexivity. }
  rewrite E, not_nan_filter. unfold truthy. 
  rewrite filter_filter. reflexivity.
Qed.
End Closed.

(** ** Locality *)
Lemma under_shift w y x y' x' k :
  under w y x k = (let (a, b) := under w y' x' k in (a + (Z.of_nat y - Z.of_nat y'), b + (Z.of_nat x - Z.of_nat x')))%Z.
Proof. unfold under. f_equal; lia. Qed.

Lemma entry_local zm nz w m m' y x y' x' k :
  0 < wnx w -> k < wny w * wnx w ->
  y < nrows m -> x < ncols m -> y' < nrows m' -> x' < ncols m' ->
  (forall i j, - Z.of_nat (wny w / 2) <= i <= Z.of_nat (wny w - 1 - wny w / 2) ->
               - Z.of_nat (wnx w / 2) <= j <= Z.of_nat (wnx w - 1 - wnx w / 2) ->
       look m (Z.of_nat y + i) (Z.of_nat x + j) = look m' (Z.of_nat y' + i) (Z.of_nat x' + j))%Z ->
  entry zm nz w m y x k = entry zm nz w m' y' x' k.
Proof.
  intros Hw Hk Hy Hx Hy' Hx' H. unfold entry, under.
  assert (Hq : k / wnx w < wny w) by (apply Nat.div_lt_upper_bound; lia).
  assert (Hr : k mod wnx w < wnx w) by (apply Nat.mod_upper_bound; lia).
  assert (H1 : wny w / 2 < wny w) by (apply Nat.div_lt; lia).
  assert (H2 : wnx w / 2 < wnx w) by (apply Nat.div_lt; lia).
  assert (Ec : at_ m y x = at_ m' y' x').
  { specialize (H 0 0)%Z. rewrite !Z.add_0_r in H. unfold look in H.
    rewrite !here_inside in H by assumption. rewrite !Nat2Z.id in H.
    assert (E : Some (at_ m y x) = Some (at_ m' y' x')) by (apply H; lia). congruence. }
  rewrite Ec.
  rewrite <- !Z.add_sub_assoc. rewrite H by lia. reflexivity.
Qed.

Lemma average_local zm nz w ci : 0 < wnx w -> center_index w = Some ci ->
  local (wny w / 2) (wny w - 1 - wny w / 2) (wnx w / 2) (wnx w - 1 - wnx w / 2) (average_dot_product zm nz w ci).
Proof.
  intros Hw Hci m m' y x y' x' Hy Hx Hy' Hx' H.
  rewrite !average_closed by assumption. f_equal. apply map_ext_in. intros k Hk.
  apply filter_In in Hk as [Hk _]. apply truthy_in in Hk as [Hk _]. apply entry_local; assumption.
Qed.
Lemma matrix_local zm nz w ci : 0 < wnx w -> center_index w = Some ci ->
  local (wny w / 2) (wny w - 1 - wny w / 2) (wnx w / 2) (wnx w - 1 - wnx w / 2) (dot_product_matrix zm nz w ci).
Proof.
  intros Hw Hci m m' y x y' x' Hy Hx Hy' Hx' H.
  rewrite !matrix_closed by assumption. apply map_ext_in. intros k Hk. apply in_seq in Hk.
  destruct (nth k (wflat w) false); [|reflexivity]. apply entry_local; try assumption. lia.
Qed.

(** ** Bounds *)
Local Open Scope R_scope.
Lemma dot_product_bounded zm p q v : length p = length q ->
  dot_product zm true p q = Some v -> -1 <= v <= 1.
Proof.
  intros HL H. unfold dot_product, prepare in H.
  set (p' := if zm then zero_mean p else p) in *. set (q' := if zm then zero_mean q else q) in *.
  assert (HL' : length p' = length q').
  { unfold p', q'. destruct zm; [rewrite !zero_mean_length|]; exact HL. }
  destruct (Req_EM_T (dot p' p') 0) as [|Hp]; [discriminate|].
  destruct (Req_EM_T (dot q' q') 0) as [|Hq]; [discriminate|]. injection H as <-.
  pose proof (dot_self_nonneg p'). pose proof (dot_self_nonneg q').
  apply dot_normalize_bounded; [exact HL'|lra|lra].
Qed.
Lemma vmean_bounds lo hi v : v <> [] -> (forall x, In x v -> lo <= x <= hi) -> lo <= vmean v <= hi.
Proof.
  intros Hne H.
  assert (Hs : lo * INR (length v) <= vsum v <= hi * INR (length v)).
  { clear Hne. induction v as [|a v IH]; simpl length; [simpl; lra|]. rewrite S_INR.
    assert (H1 : lo <= a <= hi) by (apply H; left; reflexivity).
    assert (H2 : lo * INR (length v) <= vsum v <= hi * INR (length v)).
    { apply IH. intros b Hb. apply H. right. exact Hb. }
    unfold vsum in *. simpl. lra. }
  assert (Hn : 0 < INR (length v)).
  { apply lt_0_INR. destruct v; [contradiction|simpl; lia]. }
  unfold vmean. split.
  - apply (Rmult_le_reg_r (INR (length v))); [exact Hn|]. unfold Rdiv. rewrite Rmult_assoc, Rinv_l by lra. lra.
  - apply (Rmult_le_reg_r (INR (length v))); [exact Hn|]. unfold Rdiv. rewrite Rmult_assoc, Rinv_l by lra. lra.
Qed.
Lemma nanmean_bounds lo hi l v : nanmean l = Some v ->
  (forall x, In (Some x) l -> lo <= x <= hi) -> lo <= v <= hi.
Proof.
  unfold nanmean. intros H Hb. destruct (not_nan l) as [|a r] eqn:E; [discriminate|]. injection H as <-.
  apply vmean_bounds; [discriminate|]. intros x Hx. rewrite <- E in Hx. apply Hb. apply not_nan_in. exact Hx.
Qed.
