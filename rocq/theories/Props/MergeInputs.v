(** C107: which points merge_crystal_maps() compares, and where it puts them. *)
From Coq Require Import String List Arith ZArith QArith Bool Lia Permutation.
From Verif Require Import Model.Binary Model.MergeInputs Spec.Merging Spec.MapPlaces.
From Verif Require Model.MergeMaps Model.Hough Props.MergeMaps.
Import ListNotations.
Local Open Scope nat_scope.

(** A map of one or two dimensions with as many marks as places, and a point for each place that is marked. *)
Definition valid {A} (m : cmap A) : Prop :=
  (length (shape m) = 1 \/ length (shape m) = 2) /\ length (in_data m) = rows (shape m) * columns (shape m) /\
  length (points m) = length (filter (fun b => b) (in_data m)).

(** ** Lemmas *)

Lemma all_some_map {B} (l : list (option B)) r : Model.MergeMaps.all_some l = Some r -> l = map Some r.
Proof. revert r. induction l as [|x l IH]; cbn; intros r H; [injection H as <-; reflexivity|]. destruct x; [|discriminate]. destruct (Model.MergeMaps.all_some l); [|discriminate]. injection H as <-. cbn. f_equal. now apply IH. Qed.
Lemma all_some_none {B} (l : list (option B)) : Model.MergeMaps.all_some l = None <-> In None l.
Proof.
  induction l as [|x l IH]; cbn; [split; [discriminate|tauto]|]. destruct x as [b|]; [|split; [tauto|reflexivity]]. destruct (Model.MergeMaps.all_some l).
  - split; [discriminate|]. intros [X|X]; [discriminate|]. apply IH in X. discriminate.
  - split; [intros _; right; now apply IH|reflexivity].
Qed.
Lemma smallest_spec l x : smallest l = Some x -> In x l /\ forall y, In y l -> x <= y.
Proof.
  destruct l as [|a l]; [discriminate|]. cbn [smallest]. intros H. injection H as <-. induction l as [|b l IH]; cbn [fold_right]; [split; [now left|intros y [->|[]]; lia]|].
  destruct IH as [I L]. split.
  - destruct (Nat.min_dec b (fold_right Nat.min a l)) as [->| ->]; [right; now left|]. destruct I as [I|I]; [left; exact I|right; right; exact I].
  - intros y [->|[->|Y]]; [specialize (L y (or_introl eq_refl)); lia|lia|]. specialize (L y (or_intror Y)). lia.
Qed.
Lemma largest_spec l x : largest l = Some x -> In x l /\ forall y, In y l -> y <= x.
Proof.
  destruct l as [|a l]; [discriminate|]. cbn [largest]. intros H. injection H as <-. induction l as [|b l IH]; cbn [fold_right]; [split; [now left|intros y [->|[]]; lia]|].
  destruct IH as [I L]. split.
  - destruct (Nat.max_dec b (fold_right Nat.max a l)) as [->| ->]; [right; now left|]. destruct I as [I|I]; [left; exact I|right; right; exact I].
  - intros y [->|[->|Y]]; [specialize (L y (or_introl eq_refl)); lia|lia|]. specialize (L y (or_intror Y)). lia.
Qed.
Lemma width_columns s : width s = columns s. Proof. destruct s as [|a [|b [|c s]]]; reflexivity. Qed.
Lemma in_positions {A} (m : cmap A) k : valid m -> (In k (positions m) <-> is_kept (shape m) (in_data m) (k / columns (shape m)) (k mod columns (shape m)) /\ k < rows (shape m) * columns (shape m)).
Proof.
  intros (_ & L & _). unfold positions, is_kept. rewrite filter_In, in_seq, L. set (C := columns (shape m)). split.
  - intros [[_ K] N]. cbn in K. assert (C <> 0) by (intros E; rewrite E in K; lia). pose proof (Nat.div_mod k C H). pose proof (Nat.mod_upper_bound k C H).
    assert (k / C < rows (shape m)) by (apply Nat.div_lt_upper_bound; lia). split; [|lia]. split; [assumption|]. split; [assumption|]. replace (k / C * C + k mod C) with k by lia. exact N.
  - intros ((R & Cc & N) & K). assert (C <> 0) by lia. pose proof (Nat.div_mod k C H). replace (k / C * C + k mod C) with k in N by lia. split; [lia|exact N].
Qed.
Lemma kept_position {A} (m : cmap A) r c : valid m -> is_kept (shape m) (in_data m) r c -> In (r * columns (shape m) + c) (positions m) /\
  (r * columns (shape m) + c) / columns (shape m) = r /\ (r * columns (shape m) + c) mod columns (shape m) = c.
Proof.
  intros V K. destruct K as (R & C & N). set (W := columns (shape m)) in *.
  assert (D : (r * W + c) / W = r) by (rewrite Nat.div_add_l, Nat.div_small; lia).
  assert (M : (r * W + c) mod W = c) by (rewrite Nat.add_comm, Nat.mod_add, Nat.mod_small; lia).
  split; [|split; assumption]. apply in_positions; [exact V|]. fold W. rewrite D, M. split; [split; [exact R|split; [exact C|exact N]]|nia].
Qed.
Lemma slices_rectangle {A} (m : cmap A) r0 r1 c0 c1 : valid m -> data_slices m = Some (r0, r1, (c0, c1)) ->
  rectangle (shape m) (in_data m) r0 (r1 - r0) c0 (c1 - c0) /\ r0 < r1 /\ c0 < c1.
Proof.
  intros V H. unfold data_slices in H. rewrite width_columns in H. set (W := columns (shape m)) in *.
  destruct (smallest (map (fun k => k / W) _)) as [a|] eqn:E1; [|discriminate]. destruct (largest (map (fun k => k / W) _)) as [b|] eqn:E2; [|discriminate].
  destruct (smallest (map (fun k => k mod W) _)) as [c|] eqn:E3; [|discriminate]. destruct (largest (map (fun k => k mod W) _)) as [d|] eqn:E4; [|discriminate].
  cbn [bind] in H. injection H as <- <- <- <-.
  apply smallest_spec in E1 as [I1 L1]. apply largest_spec in E2 as [I2 L2]. apply smallest_spec in E3 as [I3 L3]. apply largest_spec in E4 as [I4 L4].
  assert (X1 : a <= b) by (apply L1; exact I2). assert (X2 : c <= d) by (apply L3; exact I4). split; [|lia].
  replace (S b - a) with (b - a + 1) by lia. replace (S d - c) with (d - c + 1) by lia.
  assert (P : forall (f : nat -> nat) x, In x (map f (positions m)) -> exists k, In k (positions m) /\ f k = x) by (intros f x Q; apply in_map_iff in Q as (k & <- & Q); eauto).
  split; [|split; [|split; [|split; [|split; [|lia]]]]].
  - intros r c' K. destruct (kept_position m r c' V K) as (Q & D & M). fold W in D, M, Q.
    assert (a <= r) by (apply L1, in_map_iff; eauto). assert (r <= b) by (apply L2, in_map_iff; eauto). assert (c <= c') by (apply L3, in_map_iff; eauto). assert (c' <= d) by (apply L4, in_map_iff; eauto). lia.
  - destruct (P _ _ I1) as (k & Q & <-). apply in_positions in Q as [Q _]; [|exact V]. eexists. exact Q.
  - replace (a + (b - a + 1) - 1) with b by lia. destruct (P _ _ I2) as (k & Q & <-). apply in_positions in Q as [Q _]; [|exact V]. eexists. exact Q.
  - destruct (P _ _ I3) as (k & Q & <-). apply in_positions in Q as [Q _]; [|exact V]. eexists. exact Q.
  - replace (c + (d - c + 1) - 1) with d by lia. destruct (P _ _ I4) as (k & Q & <-). apply in_positions in Q as [Q _]; [|exact V]. eexists. exact Q.
Qed.
Lemma rectangle_unique s k r0 h c0 w r0' h' c0' w' : rectangle s k r0 h c0 w -> rectangle s k r0' h' c0' w' -> r0 = r0' /\ h = h' /\ c0 = c0' /\ w = w'.
Proof.
  intros (B & (x1 & P1) & (x2 & P2) & (x3 & P3) & (x4 & P4) & H & W) (B' & (y1 & Q1) & (y2 & Q2) & (y3 & Q3) & (y4 & Q4) & H' & W').
  apply B' in P1, P2, P3, P4. apply B in Q1, Q2, Q3, Q4. lia.
Qed.
Lemma rectangle_slices {A} (m : cmap A) r0 h c0 w : valid m -> rectangle (shape m) (in_data m) r0 h c0 w -> data_slices m = Some (r0, r0 + h, (c0, c0 + w)).
Proof.
  intros V R. destruct (data_slices m) as [[[a b] [c d]]|] eqn:E.
  - destruct (slices_rectangle m a b c d V E) as (R' & L1 & L2). destruct (rectangle_unique _ _ _ _ _ _ _ _ _ _ R R') as (-> & -> & -> & ->). do 2 f_equal; [|f_equal]; try f_equal; lia.
  - exfalso. destruct R as (_ & (c & K) & _). apply (kept_position m r0 c V) in K as (K & _). unfold data_slices in E. destruct (positions m); [destruct K|]. cbn in E. discriminate.
Qed.
Lemma rectangle_shape {A} (m : cmap A) r0 h c0 w : valid m -> rectangle (shape m) (in_data m) r0 h c0 w -> map_shape m = Some (of_dimensions (shape m) h w).
Proof.
  intros V R. unfold map_shape. rewrite (rectangle_slices m r0 h c0 w V R). cbn [bind]. replace (c0 + w - c0) with w by lia. replace (r0 + h - r0) with h by lia. reflexivity.
Qed.
Lemma rectangle_inside s k r0 h c0 w : rectangle s k r0 h c0 w -> r0 + h <= rows s /\ c0 + w <= columns s.
Proof. intros (_ & _ & (c & P) & _ & (r & Q) & H & W). destruct P as (P & _), Q as (_ & Q & _). lia. Qed.

Lemma count_firstn L : forall p, length (filter (fun b : bool => b) (firstn p L)) = length (filter (fun k => nth k L false) (seq 0 p)).
Proof.
  induction L as [|x L IH]; intros p.
  - rewrite firstn_nil. cbn. assert (N : forall l, filter (fun k => nth k ([] : list bool) false) l = []) by (induction l as [|a l J]; [reflexivity|cbn; destruct a; exact J]). rewrite N. reflexivity.
  - destruct p as [|p]; [reflexivity|]. cbn [firstn seq filter]. change (nth 0 (x :: L) false) with x. rewrite <- seq_shift.
    assert (F : forall l, length (filter (fun k => nth k (x :: L) false) (map S l)) = length (filter (fun k => nth k L false) l)) by (induction l as [|a l J]; [reflexivity|cbn [map filter]; change (nth (S a) (x :: L) false) with (nth a L false); destruct (nth a L false); cbn [length]; now rewrite J]).
    destruct x; cbn [length]; rewrite F, IH; reflexivity.
Qed.
Lemma hidden_count L p : length (filter negb (firstn p (map negb L))) = length (filter (fun k => nth k L false) (seq 0 p)).
Proof.
  rewrite <- count_firstn, firstn_map. induction (firstn p L) as [|x l IH]; [reflexivity|]. cbn. rewrite negb_involutive. destruct x; cbn; rewrite ?IH; exact IH || reflexivity.
Qed.
Lemma nth_negb L p : p < length L -> nth p (map negb L) true = negb (nth p L false).
Proof. intros H. rewrite (nth_indep _ _ (negb false)) by (rewrite map_length; exact H). apply map_nth. Qed.
Lemma box_nth (D : list bool) W c0 w : forall h r0 r c, r < h -> c < w ->
  nth (r * w + c) (flat_map (fun r => map (fun c => nth (r * W + c) D false) (seq c0 w)) (seq r0 h)) false = nth ((r0 + r) * W + (c0 + c)) D false.
Proof.
  induction h as [|h IH]; intros r0 r c R C; [lia|]. cbn [seq flat_map]. destruct r as [|r].
  - rewrite app_nth1 by (rewrite map_length, seq_length; lia). cbn [Nat.mul Nat.add]. rewrite (nth_indep _ _ (nth (r0 * W + 0) D false)) by (rewrite map_length, seq_length; lia).
    rewrite (map_nth (fun c => nth (r0 * W + c) D false) (seq c0 w) 0 c), seq_nth by lia. f_equal. lia.
  - rewrite app_nth2 by (rewrite map_length, seq_length; cbn; lia). rewrite map_length, seq_length. replace (S r * w + c - w) with (r * w + c) by (cbn; lia). rewrite IH by lia. f_equal. lia.
Qed.
Lemma box_length (D : list bool) W c0 w : forall h r0, length (flat_map (fun r => map (fun c => nth (r * W + c) D false) (seq c0 w)) (seq r0 h)) = h * w.
Proof. induction h as [|h IH]; intros r0; [reflexivity|]. cbn [seq flat_map]. rewrite app_length, map_length, seq_length, IH. lia. Qed.

Section Places.
Context {A : Type}.
Lemma box_entry (m : cmap A) r0 h c0 w r c : valid m -> rectangle (shape m) (in_data m) r0 h c0 w -> r < h -> c < w ->
  entry_at (Some (map negb (flat_map (fun r => map (fun c => nth (r * columns (shape m) + c) (in_data m) false) (seq c0 w)) (seq r0 h)))) (points m) (r * w + c)
  = stored_at (shape m) (in_data m) (points m) (r0 + r) (c0 + c).
Proof.
  intros V Rec R C. pose proof V as (_ & L & _). unfold stored_at, entry_at. set (W := columns (shape m)) in *. set (D := in_data m) in *.
  set (B := flat_map _ _). destruct (rectangle_inside _ _ _ _ _ _ Rec) as [I1 I2]. fold W in I2.
  assert (LB : length B = h * w) by apply box_length.
  assert (NB : forall r c, r < h -> c < w -> nth (r * w + c) B false = nth ((r0 + r) * W + (c0 + c)) D false) by (intros; apply box_nth; assumption).
  rewrite !nth_negb by nia. rewrite NB by assumption. destruct (nth ((r0 + r) * W + (c0 + c)) D false); cbn [negb]; [|reflexivity]. f_equal. rewrite !hidden_count.
  set (orig := fun p => (r0 + p / w) * W + (c0 + p mod w)).
  assert (dm : forall p, p < h * w -> p / w < h /\ p mod w < w /\ p = p / w * w + p mod w).
  { intros p P. assert (w <> 0) by lia. pose proof (Nat.div_mod p w H). pose proof (Nat.mod_upper_bound p w H). assert (p / w < h) by (apply Nat.div_lt_upper_bound; nia). lia. }
  assert (mono : forall p q, q < h * w -> p < q -> orig p < orig q).
  { intros p q Q P. destruct (dm p ltac:(lia)) as (P1 & P2 & P3), (dm q Q) as (Q1 & Q2 & Q3). unfold orig.
    assert (p / w <= q / w) by (apply Nat.div_le_mono; lia). destruct (Nat.eq_dec (p / w) (q / w)) as [E|E]; [rewrite E in *; lia|]. assert (p / w + 1 <= q / w) by lia. nia. }
  assert (O : orig (r * w + c) = (r0 + r) * W + (c0 + c)).
  { unfold orig. rewrite Nat.div_add_l, Nat.div_small by lia. rewrite (Nat.add_comm (r * w) c), Nat.mod_add, Nat.mod_small by lia. f_equal. f_equal. lia. }
  rewrite <- O. set (p := r * w + c). assert (Pn : p < h * w) by (unfold p; nia). rewrite <- (map_length orig). apply Permutation_length, NoDup_Permutation.
  - assert (ND : NoDup (filter (fun k => nth k B false) (seq 0 p))) by (apply NoDup_filter, seq_NoDup).
    assert (Q : forall x, In x (filter (fun k => nth k B false) (seq 0 p)) -> x < h * w) by (intros x X; apply filter_In in X as [X _]; apply in_seq in X; lia).
    revert ND Q. generalize (filter (fun k => nth k B false) (seq 0 p)). induction l as [|x l IH]; intros ND Q; [constructor|]. inversion ND; subst. cbn. constructor.
    + intros X. apply in_map_iff in X as (y & E & Y). assert (x <> y) by congruence. destruct (lt_eq_lt_dec x y) as [[Z|Z]|Z]; [|contradiction|].
      * pose proof (mono x y (Q y (or_intror Y)) Z). lia.
      * pose proof (mono y x (Q x (or_introl eq_refl)) Z). lia.
    + apply IH; [assumption|]. intros z Z. apply Q. now right.
  - apply NoDup_filter, seq_NoDup.
  - intros x. rewrite in_map_iff, filter_In, in_seq. split.
    + intros (q & <- & X). apply filter_In in X as [X N]. apply in_seq in X. destruct (dm q ltac:(lia)) as (Q1 & Q2 & Q3). split; [pose proof (mono q p Pn); lia|].
      rewrite Q3, NB in N by assumption. exact N.
    + intros [[_ X] N]. cbn in X.
      assert (Xl : x < length D). { destruct (le_lt_dec (length D) x) as [Z|Z]; [|exact Z]. rewrite nth_overflow in N by exact Z. discriminate. }
      assert (K : In x (positions m)) by (unfold positions; apply filter_In; split; [apply in_seq; fold D; lia|exact N]).
      apply in_positions in K as [K _]; [|exact V]. fold W D in K. destruct Rec as (Rec & _). fold W D in Rec. pose proof (Rec _ _ K) as [K1 K2]. destruct K as (_ & Kc & _). fold W in Kc.
      pose proof (Nat.div_mod x W ltac:(lia)) as DM. exists ((x / W - r0) * w + (x mod W - c0)).
      assert (E : orig ((x / W - r0) * w + (x mod W - c0)) = x).
      { unfold orig. rewrite Nat.div_add_l, (Nat.div_small (x mod W - c0) w) by lia. rewrite (Nat.add_comm ((x / W - r0) * w)), Nat.mod_add, (Nat.mod_small (x mod W - c0) w) by lia.
        replace (r0 + (x / W - r0 + 0)) with (x / W) by lia. replace (c0 + (x mod W - c0)) with (x mod W) by lia. lia. }
      assert (Lq : (x / W - r0) * w + (x mod W - c0) < h * w) by nia.
      split; [exact E|]. apply filter_In. split.
      * apply in_seq. split; [apply Nat.le_0_l|]. cbn. destruct (lt_eq_lt_dec ((x / W - r0) * w + (x mod W - c0)) p) as [[Z|Z]|Z]; [exact Z| |].
        -- rewrite Z in E. lia.
        -- pose proof (mono _ _ Lq Z). lia.
      * rewrite NB by lia. rewrite <- N. f_equal. replace (r0 + (x / W - r0)) with (x / W) by lia. replace (c0 + (x mod W - c0)) with (x mod W) by lia. lia.
Qed.

Lemma same_shape_eq a : forall b, same_shape a b = true <-> a = b.
Proof.
  induction a as [|x a IH]; intros [|y b]; cbn; try (split; [discriminate|discriminate]); [split; reflexivity|].
  rewrite andb_true_iff, Nat.eqb_eq, IH. split; [intros [-> ->]; reflexivity|]. intros H. injection H as -> ->. split; reflexivity.
Qed.
Lemma all_equal_iff {B} (eq : B -> B -> bool) l : (forall a b, eq a b = true <-> a = b) -> (all_equal eq l = true <-> forall x, In x l -> hd_error l = Some x).
Proof.
  intros E. destruct l as [|a l]; [cbn; split; [intros _ x []|reflexivity]|]. cbn [hd_error]. unfold all_equal. cbn [tl]. revert a. induction l as [|b l IH]; intros a.
  - cbn. split; [intros _ x [->|[]]; reflexivity|reflexivity].
  - cbn [combine forallb fst snd]. rewrite andb_true_iff, E. specialize (IH b). split.
    + intros [-> H] x [->|X]; [reflexivity|]. exact (proj1 IH H x X).
    + intros H. assert (Eb : Some a = Some b) by (apply H; right; now left). injection Eb as ->. split; [reflexivity|]. apply IH. intros x X. apply H. now right.
Qed.
Lemma merge_inv str (maps : list (cmap A)) mean gib masks out : merge str maps mean gib masks = Some out ->
  exists ms shapes m0, used_masks maps masks = Some ms /\ map_shapes maps ms = Some shapes /\ hd_error maps = Some m0 /\
  (forall s, In s shapes -> s = merged_shape out) /\ shapes <> [] /\ (forall m, In m maps -> rotations_per_point m = rotations_per_point m0) /\
  Model.MergeMaps.merge_crystal_maps str (fold_right Nat.mul 1 (merged_shape out)) (rotations_per_point m0) (map to_xmap maps) mean gib (option_map (map hidden) ms) = Some (merged out) /\
  coordinates out = Hough.coordinates (merged_shape out) (firstn (length (merged_shape out)) [dx m0; dy m0]) /\ unit_ out = scan_unit m0.
Proof.
  unfold merge. destruct (used_masks maps masks) as [ms|] eqn:E1; [|discriminate]. cbn [bind]. destruct (map_shapes maps ms) as [shapes|] eqn:E2; [|discriminate]. cbn [bind].
  destruct maps as [|m0 maps]; [discriminate|]. destruct shapes as [|s shapes]; [discriminate|]. destruct (all_equal same_shape (s :: shapes)) eqn:E3; [|discriminate]. cbn [negb].
  destruct (all_equal Nat.eqb (map rotations_per_point (m0 :: maps))) eqn:E4; [|discriminate]. cbn [negb].
  destruct (Model.MergeMaps.merge_crystal_maps _ _ _ _ _ _ _) as [o|] eqn:E5; [|discriminate]. cbn [bind]. intros H. injection H as <-. cbn [merged merged_shape coordinates unit_].
  exists ms, (s :: shapes), m0. split; [reflexivity|]. split; [exact E2|]. split; [reflexivity|].
  split. { intros t T. apply (proj1 (all_equal_iff _ _ same_shape_eq) E3) in T. injection T as ->. reflexivity. } split; [discriminate|].
  split. { intros m M. pose proof (proj1 (all_equal_iff _ _ Nat.eqb_eq) E4 _ (in_map rotations_per_point _ _ M)) as Q. injection Q as Q. clear M. rename Q into M. symmetry. exact M. }
  split; [exact E5|]. split; reflexivity.
Qed.
Lemma stored_whole (m : cmap A) r c : valid m -> (forall b, In b (in_data m) -> b = true) -> r < rows (shape m) -> c < columns (shape m) ->
  stored_at (shape m) (in_data m) (points m) r c = nth_error (points m) (r * columns (shape m) + c).
Proof.
  intros (_ & L & _) T R C. unfold stored_at, entry_at. set (p := r * columns (shape m) + c). assert (P : p < length (in_data m)) by (unfold p; nia).
  rewrite nth_negb by exact P. rewrite (T (nth p (in_data m) false)) by (apply nth_In; exact P). cbn [negb]. f_equal. rewrite firstn_map.
  assert (Q : forall l, (forall b, In b l -> b = true) -> length (filter negb (map negb l)) = length l).
  { induction l as [|b l IH]; intros Tl; [reflexivity|]. cbn. rewrite (Tl b (or_introl eq_refl)). cbn. f_equal. apply IH. intros x X. apply Tl. now right. }
  rewrite Q, firstn_length, Nat.min_l by (intros b B; apply T; rewrite <- (firstn_skipn p (in_data m)); apply in_or_app; now left) || lia. reflexivity.
Qed.
Lemma whole_rectangle (m : cmap A) r0 h c0 w : valid m -> (forall b, In b (in_data m) -> b = true) -> rectangle (shape m) (in_data m) r0 h c0 w ->
  r0 = 0 /\ h = rows (shape m) /\ c0 = 0 /\ w = columns (shape m).
Proof.
  intros V T R. assert (K : forall r c, r < rows (shape m) -> c < columns (shape m) -> is_kept (shape m) (in_data m) r c).
  { intros r c Hr Hc. split; [exact Hr|split; [exact Hc|]]. apply T, nth_In. destruct V as (_ & -> & _). nia. }
  destruct (rectangle_inside _ _ _ _ _ _ R) as [I1 I2]. destruct R as (B & _ & _ & _ & _ & H1 & H2).
  pose proof (B 0 0 (K 0 0 ltac:(lia) ltac:(lia))). pose proof (B _ _ (K (rows (shape m) - 1) (columns (shape m) - 1) ltac:(lia) ltac:(lia))). lia.
Qed.
Lemma nth_error_combine_map {B C} (f : B -> option C) l r k b : Model.MergeMaps.all_some (map f l) = Some r -> nth_error l k = Some b -> exists c, f b = Some c /\ nth_error r k = Some c.
Proof.
  intros H K. apply all_some_map in H. pose proof (map_nth_error f k l K) as M. rewrite H in M. rewrite nth_error_map in M. destruct (nth_error r k) as [c|]; [|discriminate]. cbn in M. injection M as M. exists c. split; [symmetry; exact M|reflexivity].
Qed.

(** *** Which points are compared *)

(** Without masks: in each map, numbers count the points of the smallest rectangle with its points. *)
Theorem C107_compared_places str (maps : list (cmap A)) mean gib out : (forall m, In m maps -> valid m) -> merge str maps mean gib None = Some out ->
  exists masks, Model.MergeMaps.merge_crystal_maps str (fold_right Nat.mul 1 (merged_shape out)) (hd 0 (map rotations_per_point maps)) (map to_xmap maps) mean gib masks = Some (merged out) /\
  forall k m r0 h c0 w, nth_error maps k = Some m -> rectangle (shape m) (in_data m) r0 h c0 w ->
    merged_shape out = of_dimensions (shape m) h w /\
    forall r c pt, r < h -> c < w ->
      (Props.MergeMaps.has_point (map to_xmap maps) masks k (r * w + c) pt <-> stored_at (shape m) (in_data m) (points m) (r0 + r) (c0 + c) = Some pt).
Proof.
  intros V H. destruct (merge_inv _ _ _ _ _ _ H) as (ms & shapes & m0 & E1 & E2 & E3 & E4 & _ & _ & E5 & _). exists (option_map (map hidden) ms).
  replace (hd 0 (map rotations_per_point maps)) with (rotations_per_point m0) by (destruct maps; [discriminate|]; injection E3 as ->; reflexivity). split; [exact E5|].
  intros k m r0 h c0 w K Rec. assert (Vm : valid m) by (apply V; eapply nth_error_In; exact K). cbn [used_masks] in E1.
  destruct (forallb (fun m => forallb (fun b => b) (in_data m)) maps) eqn:W.
  - injection E1 as <-. cbn [map_shapes option_map] in *. destruct (nth_error_combine_map _ _ _ _ _ E2 K) as (s & S1 & S2). rewrite (rectangle_shape m r0 h c0 w Vm Rec) in S1. injection S1 as <-.
    split; [symmetry; apply E4; eapply nth_error_In; exact S2|]. intros r c pt R C.
    assert (T : forall b, In b (in_data m) -> b = true). { rewrite forallb_forall in W. specialize (W m (nth_error_In _ _ K)). rewrite forallb_forall in W. exact W. }
    destruct (whole_rectangle m r0 h c0 w Vm T Rec) as (-> & -> & -> & ->). rewrite (stored_whole m (0 + r) (0 + c) Vm T) by assumption. cbn [Nat.add].
    unfold Props.MergeMaps.has_point. cbn [Props.MergeMaps.mask_of entry_at]. rewrite nth_error_map, K. cbn. split; [intros (x & X & Y); injection X as <-; exact Y|intros Y; eexists; split; [reflexivity|exact Y]].
  - destruct (Model.MergeMaps.all_some (map mask_from_data maps)) as [l|] eqn:D; [|discriminate]. cbn in E1. injection E1 as <-. cbn [map_shapes option_map] in *.
    destruct (length l =? length maps) eqn:Ln; [|discriminate]. destruct (nth_error_combine_map _ _ _ _ _ D K) as (mk & M1 & M2).
    assert (Kc : nth_error (combine l maps) k = Some (mk, m)).
    { clear - M2 K. revert l maps M2 K. induction k as [|k IH]; intros [|a l] [|b maps] M2 K; try discriminate; cbn in *; [congruence|]. apply IH; assumption. }
    destruct (nth_error_combine_map _ _ _ _ _ E2 Kc) as (s & S1 & S2).
    unfold mask_from_data in M1. rewrite (rectangle_slices m r0 h c0 w Vm Rec), (rectangle_shape m r0 h c0 w Vm Rec) in M1. cbn [bind] in M1. injection M1 as <-.
    unfold shape_from_mask in S1. cbn [fst snd] in S1. destruct (_ =? _) in S1; [|discriminate]. injection S1 as <-.
    split; [symmetry; apply E4; eapply nth_error_In; exact S2|]. intros r c pt R C. rewrite <- (box_entry m r0 h c0 w r c Vm Rec R C).
    replace (c0 + w - c0) with w in M2 by lia. replace (r0 + h - r0) with h in M2 by lia. rewrite width_columns in M2.
    unfold Props.MergeMaps.has_point, Props.MergeMaps.mask_of. rewrite (nth_error_nth _ k None (map_nth_error hidden k l M2)), nth_error_map, K. cbn [hidden option_map].
    split; [intros (x & X & Y); injection X as <-; exact Y|intros Y; eexists; split; [reflexivity|exact Y]].
Qed.

(** Maps cut out of maps of the same size in the same way: each point of the merged map is taken from the first map with the best score at the
    very place of the sample. *)
Theorem C107_best_at_its_place str (maps : list (cmap A)) mean gib out n r0 h c0 w : (forall m, In m maps -> valid m) ->
  (forall m, In m maps -> rectangle (shape m) (in_data m) r0 h c0 w) ->
  Props.MergeMaps.regular (hd 0 (map rotations_per_point maps)) (map to_xmap maps) -> Props.MergeMaps.averages mean gib n -> Props.MergeMaps.names_allowed (map to_xmap maps) ->
  merge str maps mean gib None = Some out -> forall r c, r < h -> c < w ->
  (nth (r * w + c) (Model.MergeMaps.m_phase_id (merged out)) 0%Z = (-1)%Z /\
   forall m pt, In m maps -> stored_at (shape m) (in_data m) (points m) (r0 + r) (c0 + c) = Some pt -> Model.MergeMaps.pid pt = (-1)%Z) \/
  exists k m pt v, nth_error maps k = Some m /\ stored_at (shape m) (in_data m) (points m) (r0 + r) (c0 + c) = Some pt /\
    nth (r * w + c) (Model.MergeMaps.m_points (merged out)) None = Some pt /\ mean_of_first n (Model.MergeMaps.scores pt) v /\
    forall k' m' pt' v', nth_error maps k' = Some m' -> stored_at (shape m') (in_data m') (points m') (r0 + r) (c0 + c) = Some pt' -> mean_of_first n (Model.MergeMaps.scores pt') v' ->
      at_least_as_good (Props.MergeMaps.greater mean gib) v v' /\ (k' < k -> better (Props.MergeMaps.greater mean gib) v v').
Proof.
  intros V Rec REG AV NM H r c R C. destruct (C107_compared_places str maps mean gib out V H) as (masks & E & P).
  destruct (Props.MergeMaps.C05_best_map str _ _ _ mean gib masks _ n REG AV NM E) as (_ & _ & B).
  assert (X : exists m, In m maps). { destruct maps as [|m maps]; [|exists m; now left]. unfold merge in H. cbn in H. discriminate. }
  destruct X as (m1 & M1). destruct (In_nth_error _ _ M1) as (k1 & K1). destruct (P k1 m1 r0 h c0 w K1 (Rec _ M1)) as (S1 & _).
  assert (Sz : r * w + c < fold_right Nat.mul 1 (merged_shape out)).
  { rewrite S1. unfold of_dimensions. destruct (Rec _ M1) as (_ & _ & _ & _ & _ & H1 & _). destruct (rectangle_inside _ _ _ _ _ _ (Rec _ M1)) as [I1 _]. destruct (shape m1) as [|a [|b l]]; cbn [fold_right] in *; try nia. cbn [rows] in I1. assert (r = 0) by lia. subst r. nia. }
  destruct (B _ Sz) as [(I & _ & _ & _ & N)|(_ & k & pt & (v & HP & Mv & G & F) & O)].
  - left. split; [exact I|]. intros m pt M S. destruct (In_nth_error _ _ M) as (k & K). apply (N k pt). apply (P k m r0 h c0 w K (Rec _ M)); assumption.
  - right. destruct (nth_error maps k) as [m|] eqn:K; [|destruct HP as (x & X & _); rewrite nth_error_map, K in X; discriminate]. exists k, m, pt, v.
    assert (M : In m maps) by (eapply nth_error_In; exact K).
    split; [exact K|]. split; [apply (P k m r0 h c0 w K (Rec _ M)); assumption|]. split; [exact O|]. split; [exact Mv|].
    intros k' m' pt' v' K' S' Mv'. assert (M' : In m' maps) by (eapply nth_error_In; exact K').
    assert (HP' : Props.MergeMaps.has_point (map to_xmap maps) masks k' (r * w + c) pt') by (apply (P k' m' r0 h c0 w K' (Rec _ M')); assumption).
    split; [exact (G k' pt' v' HP' Mv')|]. intros L. exact (F k' pt' v' L HP' Mv').
Qed.
(** Maps cut out in different places, to the same size: points of different places on the sample are compared. *)
Theorem C107_other_places_refuted str (maps : list (cmap A)) mean gib out k m k' m' r0 r0' h c0 c0' w : (forall m, In m maps -> valid m) -> merge str maps mean gib None = Some out ->
  nth_error maps k = Some m -> nth_error maps k' = Some m' ->
  rectangle (shape m) (in_data m) r0 h c0 w -> rectangle (shape m') (in_data m') r0' h c0' w -> (r0, c0) <> (r0', c0') ->
  exists masks, Model.MergeMaps.merge_crystal_maps str (fold_right Nat.mul 1 (merged_shape out)) (hd 0 (map rotations_per_point maps)) (map to_xmap maps) mean gib masks = Some (merged out) /\
  forall r c, r < h -> c < w -> (r0 + r, c0 + c) <> (r0' + r, c0' + c) /\ forall pt,
    (Props.MergeMaps.has_point (map to_xmap maps) masks k (r * w + c) pt <-> stored_at (shape m) (in_data m) (points m) (r0 + r) (c0 + c) = Some pt) /\
    (Props.MergeMaps.has_point (map to_xmap maps) masks k' (r * w + c) pt <-> stored_at (shape m') (in_data m') (points m') (r0' + r) (c0' + c) = Some pt).
Proof.
  intros V H K K' R R' D. destruct (C107_compared_places str maps mean gib out V H) as (masks & E & P). exists masks. split; [exact E|]. intros r c Hr Hc.
  split; [intros X; injection X as X Y; apply D; f_equal; lia|]. intros pt. split; [apply (P k m r0 h c0 w K R)|apply (P k' m' r0' h c0' w K' R')]; assumption.
Qed.
(** Maps cut out to different sizes cannot be merged, also if each place is in one of them, or all in one. *)
Theorem C107_cut_differently_refuted str (maps : list (cmap A)) mean gib m m' r0 h c0 w r0' h' c0' w' : (forall m, In m maps -> valid m) -> In m maps -> In m' maps ->
  rectangle (shape m) (in_data m) r0 h c0 w -> rectangle (shape m') (in_data m') r0' h' c0' w' -> of_dimensions (shape m) h w <> of_dimensions (shape m') h' w' ->
  merge str maps mean gib None = None.
Proof.
  intros V M M' R R' D. destruct (merge str maps mean gib None) as [out|] eqn:E; [|reflexivity]. exfalso. destruct (C107_compared_places str maps mean gib out V E) as (masks & _ & P).
  destruct (In_nth_error _ _ M) as (k & K), (In_nth_error _ _ M') as (k' & K'). destruct (P k m _ _ _ _ K R) as (S & _), (P k' m' _ _ _ _ K' R') as (S' & _). congruence.
Qed.

(** *** Masks *)

(** What is accepted with masks: a mask for each map with as many places left as the map has points, all of the same shape, or None for a
    map of this shape. *)
Definition mask_fits (s : list nat) (mk : mask) (m : cmap A) : Prop :=
  match mk with
  | Array s' v => s' = s /\ length (filter negb v) = length (points m)
  | NoMask => exists r0 h c0 w, rectangle (shape m) (in_data m) r0 h c0 w /\ of_dimensions (shape m) h w = s
  | NotAnArray => False
  end.
Lemma count_negb v : count (map negb v) = length (filter negb v).
Proof. unfold count. induction v as [|b v IH]; [reflexivity|]. cbn. destruct b; cbn; rewrite IH; reflexivity. Qed.
Lemma shape_from_mask_iff (m : cmap A) mk s : valid m -> (shape_from_mask (mk, m) = Some s <-> mask_fits s mk m).
Proof.
  intros V. destruct mk as [s' v| |]; cbn [shape_from_mask fst snd mask_fits].
  - rewrite count_negb. destruct V as (_ & _ & ->). unfold count. destruct (Nat.eqb_spec (length (filter negb v)) (length (filter (fun b => b) (in_data m)))) as [E|E].
    + split; [intros X; injection X as <-; split; [reflexivity|exact E]|intros [<- _]; reflexivity].
    + split; [discriminate|intros [_ X]; contradiction].
  - split.
    + intros X. unfold map_shape in X. destruct (data_slices m) as [[[a b] [c d]]|] eqn:E; [|discriminate]. cbn [bind] in X. injection X as <-. destruct (slices_rectangle m a b c d V E) as (R & _). exists a, (b - a), c, (d - c). split; [exact R|reflexivity].
    + intros (r0 & h & c0 & w & R & <-). apply (rectangle_shape m r0 h c0 w V R).
  - split; [discriminate|contradiction].
Qed.
Theorem C107_masks_accepted_iff str (maps : list (cmap A)) mean gib ms : (forall m, In m maps -> valid m) ->
  (merge str maps mean gib (Some ms) <> None <->
   exists s m0, hd_error maps = Some m0 /\ length ms = length maps /\ (forall k mk m, nth_error ms k = Some mk -> nth_error maps k = Some m -> mask_fits s mk m) /\
     (forall m, In m maps -> rotations_per_point m = rotations_per_point m0) /\
     Model.MergeMaps.merge_crystal_maps str (fold_right Nat.mul 1 s) (rotations_per_point m0) (map to_xmap maps) mean gib (Some (map hidden ms)) <> None).
Proof.
  intros V.
  assert (CK : forall (l : list mask) (maps : list (cmap A)) k p, nth_error (combine l maps) k = Some p <-> nth_error l k = Some (fst p) /\ nth_error maps k = Some (snd p)).
  { clear. intros l maps k [a b]. cbn [fst snd]. revert l maps. induction k as [|k IH]; intros l maps.
    - destruct l, maps; cbn; (split; [intros X|intros [X Y]]); try discriminate; [injection X as -> ->; split; reflexivity|congruence].
    - destruct l as [|x l]; [cbn; split; [discriminate|intros [X _]; discriminate]|]. destruct maps as [|y maps]; [cbn; split; [discriminate|intros [_ X]; discriminate]|]. apply IH. }
  split.
  - intros N. destruct (merge str maps mean gib (Some ms)) as [out|] eqn:E; [|congruence]. destruct (merge_inv _ _ _ _ _ _ E) as (u & shapes & m0 & E1 & E2 & E3 & E4 & _ & E6 & E5 & _).
    cbn in E1. injection E1 as <-. exists (merged_shape out), m0. cbn [map_shapes] in E2. destruct (Nat.eqb_spec (length ms) (length maps)) as [L|]; [|discriminate]. split; [exact E3|]. split; [exact L|]. split; [|split; [exact E6|cbn in E5; congruence]].
    intros k mk m K1 K2. destruct (nth_error_combine_map _ _ _ k (mk, m) E2) as (s & S1 & S2); [apply CK; split; assumption|].
    apply shape_from_mask_iff; [apply V; eapply nth_error_In; exact K2|]. rewrite S1. f_equal. apply E4. eapply nth_error_In. exact S2.
  - intros (s & m0 & H0 & L & F & Rp & MM). unfold merge. cbn [used_masks bind map_shapes]. rewrite L, Nat.eqb_refl.
    destruct (Model.MergeMaps.all_some (map shape_from_mask (combine ms maps))) as [shapes|] eqn:E.
    + cbn [bind]. destruct maps as [|m1 maps]; [discriminate|]. injection H0 as ->. assert (Ls : length shapes = S (length maps)).
      { apply all_some_map in E. apply (f_equal (@length _)) in E. rewrite !map_length, combine_length, L in E. cbn in E. lia. }
      assert (Es : forall t, In t shapes -> t = s).
      { intros t T. destruct (In_nth_error _ _ T) as (k & K). apply all_some_map in E. pose proof (map_nth_error Some k shapes K) as Q. rewrite <- E, nth_error_map in Q.
        destruct (nth_error (combine ms (m0 :: maps)) k) as [[mk m]|] eqn:Kc; [|discriminate]. cbn [option_map] in Q. injection Q as Q. apply CK in Kc as [K1 K2]. cbn [fst snd] in *.
        pose proof (F k mk m K1 K2) as Fk. apply shape_from_mask_iff in Fk; [congruence|]. apply V. eapply nth_error_In. exact K2. }
      destruct shapes as [|t shapes]; [discriminate|]. rewrite (Es t (or_introl eq_refl)).
      assert (Q1 : all_equal same_shape (s :: shapes) = true). { apply (all_equal_iff _ _ same_shape_eq). intros x [->|X]; [reflexivity|]. cbn. f_equal. symmetry. apply Es. now right. }
      rewrite Q1. cbn [negb]. assert (Q2 : all_equal Nat.eqb (map rotations_per_point (m0 :: maps)) = true).
      { apply (all_equal_iff _ _ Nat.eqb_eq). intros x X. apply in_map_iff in X as (m & <- & X). cbn. f_equal. symmetry. apply Rp. exact X. }
      rewrite Q2. cbn [negb option_map]. destruct (Model.MergeMaps.merge_crystal_maps _ _ _ _ _ _ _); [discriminate|congruence].
    + exfalso. apply all_some_none, in_map_iff in E as ([mk m] & E & I). destruct (In_nth_error _ _ I) as (k & K). apply CK in K as [K1 K2]. cbn [fst snd] in *.
      pose proof (F k mk m K1 K2) as Fk. apply shape_from_mask_iff in Fk; [congruence|]. apply V. eapply nth_error_In. exact K2.
Qed.
(** With masks: the points of a map are those not masked, in order; all, without a mask for it. *)
Theorem C107_masked_points str (maps : list (cmap A)) mean gib ms out : merge str maps mean gib (Some ms) = Some out ->
  exists per_point, Model.MergeMaps.merge_crystal_maps str (fold_right Nat.mul 1 (merged_shape out)) per_point (map to_xmap maps) mean gib (Some (map hidden ms)) = Some (merged out) /\
  forall k m mk p pt, nth_error maps k = Some m -> nth_error ms k = Some mk ->
    (Props.MergeMaps.has_point (map to_xmap maps) (Some (map hidden ms)) k p pt <->
     match mk with Array _ v => entry_at (Some v) (points m) p = Some pt | _ => nth_error (points m) p = Some pt end).
Proof.
  intros H. destruct (merge_inv _ _ _ _ _ _ H) as (u & shapes & m0 & E1 & _ & _ & _ & _ & _ & E5 & _). cbn in E1. injection E1 as <-. exists (rotations_per_point m0). split; [exact E5|].
  intros k m mk p pt K M. unfold Props.MergeMaps.has_point, Props.MergeMaps.mask_of. rewrite (nth_error_nth _ k None (map_nth_error hidden k ms M)), nth_error_map, K. cbn [option_map].
  destruct mk; cbn [hidden entry_at]; (split; [intros (x & X & Y); injection X as <-; exact Y|intros Y; eexists; split; [reflexivity|exact Y]]).
Qed.
(** So with masks of the places that were left out of a map, places are kept. *)
Theorem C107_masks_keep_places str (maps : list (cmap A)) mean gib ms out k m s : merge str maps mean gib (Some ms) = Some out ->
  nth_error maps k = Some m -> nth_error ms k = Some (Array s (map negb (in_data m))) -> forall r c pt,
  (Props.MergeMaps.has_point (map to_xmap maps) (Some (map hidden ms)) k (r * columns (shape m) + c) pt <-> stored_at (shape m) (in_data m) (points m) r c = Some pt).
Proof. intros H K M r c pt. destruct (C107_masked_points str maps mean gib ms out H) as (n & _ & P). exact (P k m _ (r * columns (shape m) + c) pt K M). Qed.
(** All maps must have the same number of rotations per point. *)
Theorem C107_rotations_per_point str (maps : list (cmap A)) mean gib masks m m' : In m maps -> In m' maps -> rotations_per_point m <> rotations_per_point m' -> merge str maps mean gib masks = None.
Proof.
  intros M M' D. destruct (merge str maps mean gib masks) as [out|] eqn:E; [|reflexivity]. destruct (merge_inv _ _ _ _ _ _ E) as (_ & _ & m0 & _ & _ & _ & _ & _ & R & _). exfalso. apply D. rewrite (R m M), (R m' M'). reflexivity.
Qed.

(** *** Where points are put *)

Lemma coordinates_2d ny nx a b r c : r < ny -> c < nx -> nth (r * nx + c) (Hough.coordinates [ny; nx] [a; b]) (0, 0)%Q = position a b r c.
Proof.
  intros R C. cbn [Hough.coordinates]. unfold position.
  assert (G : forall ny r0 r, r < ny -> nth (r * nx + c) (flat_map (fun r => map (fun c => (inject_Z (Z.of_nat r) * a, inject_Z (Z.of_nat c) * b)%Q) (seq 0 nx)) (seq r0 ny)) (0, 0)%Q = (inject_Z (Z.of_nat (r0 + r)) * a, inject_Z (Z.of_nat c) * b)%Q).
  { clear - C. induction ny as [|ny IH]; intros r0 r R; [lia|]. cbn [seq flat_map]. destruct r as [|r].
    - rewrite app_nth1 by (rewrite map_length, seq_length; lia). cbn [Nat.mul Nat.add]. rewrite Nat.add_0_r.
      rewrite (nth_indep _ _ ((fun c => (inject_Z (Z.of_nat r0) * a, inject_Z (Z.of_nat c) * b)%Q) 0)) by (rewrite map_length, seq_length; lia).
      rewrite (map_nth (fun c => (inject_Z (Z.of_nat r0) * a, inject_Z (Z.of_nat c) * b)%Q) (seq 0 nx) 0 c), seq_nth by lia. reflexivity.
    - rewrite app_nth2 by (rewrite map_length, seq_length; cbn; lia). rewrite map_length, seq_length. replace (S r * nx + c - nx) with (r * nx + c) by (cbn; lia). rewrite IH by lia. do 3 f_equal; lia. }
  exact (G ny 0 r R).
Qed.
Lemma coordinates_1d nx b c : c < nx -> nth c (Hough.coordinates [nx] [b]) (0, 0)%Q = (0, inject_Z (Z.of_nat c) * b)%Q.
Proof.
  intros C. cbn [Hough.coordinates]. rewrite (nth_indep _ _ ((fun c => (0, inject_Z (Z.of_nat c) * b)%Q) 0)) by (rewrite map_length, seq_length; lia).
  rewrite (map_nth (fun c => (0, inject_Z (Z.of_nat c) * b)%Q) (seq 0 nx) 0 c), seq_nth by lia. reflexivity.
Qed.
Definition same_position (p q : Q * Q) : Prop := (fst p == fst q /\ snd p == snd q)%Q.
(** The merged map starts at the origin and has the steps of the first map, those along the rows and columns exchanged. *)
Theorem C107_positions str (maps : list (cmap A)) mean gib masks out m0 : merge str maps mean gib masks = Some out -> hd_error maps = Some m0 ->
  unit_ out = scan_unit m0 /\
  (forall h w, merged_shape out = [h; w] -> forall r c, r < h -> c < w -> nth (r * w + c) (coordinates out) (0, 0)%Q = position (dx m0) (dy m0) r c) /\
  (forall w, merged_shape out = [w] -> forall c, c < w -> nth c (coordinates out) (0, 0)%Q = (0, inject_Z (Z.of_nat c) * dx m0)%Q).
Proof.
  intros H M. destruct (merge_inv _ _ _ _ _ _ H) as (_ & _ & m & _ & _ & E & _ & _ & _ & _ & C & U). rewrite M in E. injection E as <-. split; [exact U|]. rewrite C. split.
  - intros h w -> r c R Cc. apply coordinates_2d; assumption.
  - intros w -> c Cc. apply coordinates_1d; assumption.
Qed.
(** So points stay where they are on the sample only in maps cut from the first row and column on, and with the same step in both directions. *)
Theorem C107_positions_kept_iff_refuted str (maps : list (cmap A)) mean gib out m0 r0 h c0 w : (forall m, In m maps -> valid m) -> merge str maps mean gib None = Some out -> hd_error maps = Some m0 ->
  length (shape m0) = 2 -> rectangle (shape m0) (in_data m0) r0 h c0 w -> 2 <= h -> 2 <= w -> (0 < dx m0)%Q -> (0 < dy m0)%Q ->
  ((forall r c, r < h -> c < w -> same_position (nth (r * w + c) (coordinates out) (0, 0)%Q) (position (dy m0) (dx m0) (r0 + r) (c0 + c))) <->
   r0 = 0 /\ c0 = 0 /\ (dx m0 == dy m0)%Q).
Proof.
  intros V H M L2 Rec Hh Hw X Y. destruct (C107_compared_places str maps mean gib out V H) as (masks & _ & P).
  assert (K : nth_error maps 0 = Some m0) by (destruct maps; [discriminate|]; exact M). destruct (P 0 m0 r0 h c0 w K Rec) as (S & _).
  assert (S2 : merged_shape out = [h; w]) by (rewrite S; destruct (shape m0) as [|a [|b l]]; [discriminate|discriminate|reflexivity]).
  destruct (C107_positions str maps mean gib None out m0 H M) as (_ & P2 & _).
  assert (Z0 : forall n q, (0 < q -> inject_Z (Z.of_nat n) * q == 0 -> n = 0%nat)%Q).
  { intros n q Q E. apply Qmult_integral in E as [E|E]; [|rewrite E in Q; inversion Q]. unfold Qeq in E. cbn [inject_Z Qnum Qden] in E. lia. }
  split.
  - intros F. pose proof (F 0 0 ltac:(lia) ltac:(lia)) as F0. rewrite (P2 h w S2 0 0) in F0 by lia. unfold same_position, position in F0. cbn [fst snd] in F0. rewrite !Nat.add_0_r in F0. destruct F0 as [A0 B0].
    assert (r0 = 0) by (apply (Z0 r0 (dy m0) Y); rewrite <- A0; change (inject_Z (Z.of_nat 0)) with 0%Q; ring).
    assert (c0 = 0) by (apply (Z0 c0 (dx m0) X); rewrite <- B0; change (inject_Z (Z.of_nat 0)) with 0%Q; ring). subst r0 c0. split; [reflexivity|]. split; [reflexivity|].
    pose proof (F 1 0 ltac:(lia) ltac:(lia)) as F1. rewrite (P2 h w S2 1 0) in F1 by lia. unfold same_position, position in F1. cbn [fst snd Nat.add] in F1. destruct F1 as [F1 _]. change (inject_Z (Z.of_nat 1)) with 1%Q in F1. rewrite !Qmult_1_l in F1. exact F1.
  - intros (-> & -> & E) r c R C. rewrite (P2 h w S2 r c R C). unfold same_position, position. cbn [fst snd Nat.add]. rewrite E. split; reflexivity.
Qed.
(** A line scan: if and only if it starts with the first point. *)
Theorem C107_positions_of_line_kept_iff str (maps : list (cmap A)) mean gib out m0 h c0 w : (forall m, In m maps -> valid m) -> merge str maps mean gib None = Some out -> hd_error maps = Some m0 ->
  length (shape m0) = 1 -> rectangle (shape m0) (in_data m0) 0 h c0 w -> (0 < dx m0)%Q ->
  ((forall c, c < w -> same_position (nth c (coordinates out) (0, 0)%Q) (position 0 (dx m0) 0 (c0 + c))) <-> c0 = 0).
Proof.
  intros V H M L1 Rec X. destruct (C107_compared_places str maps mean gib out V H) as (masks & _ & P).
  assert (K : nth_error maps 0 = Some m0) by (destruct maps; [discriminate|]; exact M). destruct (P 0 m0 0 h c0 w K Rec) as (S & _).
  assert (S2 : merged_shape out = [w]) by (rewrite S; destruct (shape m0) as [|a [|b l]]; [discriminate|reflexivity|discriminate]).
  destruct (C107_positions str maps mean gib None out m0 H M) as (_ & _ & P2). destruct Rec as (_ & _ & _ & _ & _ & _ & W).
  split.
  - intros F. pose proof (F 0 ltac:(lia)) as F0. rewrite (P2 w S2 0) in F0 by lia. unfold same_position, position in F0. cbn [fst snd] in F0. rewrite Nat.add_0_r in F0. destruct F0 as [_ B0].
    change (inject_Z (Z.of_nat 0)) with 0%Q in B0. rewrite Qmult_0_l in B0. symmetry in B0. apply Qmult_integral in B0 as [E|E]; [|rewrite E in X; inversion X]. unfold Qeq in E. cbn [inject_Z Qnum Qden] in E. lia.
  - intros -> c C. rewrite (P2 w S2 c C). unfold same_position, position. cbn [fst snd Nat.add]. split; [ring|reflexivity].
Qed.
End Places.

(** ** Examples *)

Module Examples.
Definition pt (s : Q) : Model.MergeMaps.point unit := Model.MergeMaps.Point tt [s] [0%Z] 0%Z.
(** The first two and the last two rows of a map of three rows and two columns. *)
Definition upper : cmap unit := CMap [3; 2] [true; true; true; true; false; false] (map pt [1; 2; 3; 4]%Q) (Model.MergeMaps.Phase "a" 1) 1 2 1 "um".
Definition lower : cmap unit := CMap [3; 2] [false; false; true; true; true; true] (map pt [4; 3; 2; 1]%Q) (Model.MergeMaps.Phase "b" 2) 1 2 1 "um".
Definition digits (n : nat) : string := "x".
Example valid_maps : valid upper /\ valid lower. Proof. repeat split; auto. Qed.
Example rectangles : rectangle (shape upper) (in_data upper) 0 2 0 2 /\ rectangle (shape lower) (in_data lower) 1 2 0 2.
Proof.
  split.
  - split; [|repeat split; try lia; (exists 0; repeat split; cbn; lia) || (exists 1; repeat split; cbn; lia)].
    intros r c (R & C & K). cbn in R, C. destruct r as [|[|[|r]]]; try lia; destruct c as [|[|c]]; try lia; try discriminate K; lia.
  - split; [|repeat split; try lia; (exists 0; repeat split; cbn; lia) || (exists 1; repeat split; cbn; lia)].
    intros r c (R & C & K). cbn in R, C. destruct r as [|[|[|r]]]; try lia; destruct c as [|[|c]]; try lia; try discriminate K; lia.
Qed.
(** They are merged without an error, the first rows of both with each other. *)
Example merged_in_wrong_place : exists out, merge digits [upper; lower] 1 None None = Some out /\ merged_shape out = [2; 2] /\
  Model.MergeMaps.m_phase_id (merged out) = [1%Z; 1%Z; 0%Z; 0%Z] /\ map (option_map Model.MergeMaps.scores) (Model.MergeMaps.m_points (merged out)) = [Some [4%Q]; Some [3%Q]; Some [3%Q]; Some [4%Q]].
Proof. eexists. split; [vm_compute; reflexivity|]. repeat split. Qed.
(** With masks they are merged in their places. *)
Example with_masks : exists out, merge digits [upper; lower] 1 None (Some [Array [3; 2] (map negb (in_data upper)); Array [3; 2] (map negb (in_data lower))]) = Some out /\
  merged_shape out = [3; 2] /\ Model.MergeMaps.m_phase_id (merged out) = [0%Z; 0%Z; 1%Z; 0%Z; 1%Z; 1%Z].
Proof. eexists. split; [vm_compute; reflexivity|]. repeat split. Qed.
Example same_cut : exists out, merge digits [upper; upper] 1 None None = Some out /\ Props.MergeMaps.regular 1 (map to_xmap [upper; upper]) /\ Props.MergeMaps.averages 1 None 1 /\ Props.MergeMaps.names_allowed (map to_xmap [upper; upper]).
Proof.
  eexists. split; [vm_compute; reflexivity|]. split; [|split; [split; [lia|left; reflexivity]|]].
  - split; [cbn; lia|]. split; [lia|]. intros m p [<-|[<-|[]]] P; cbn in P; repeat (destruct P as [<-|P]; [split; reflexivity|]); destruct P.
  - intros m [<-|[<-|[]]]; discriminate.
Qed.
Example refused : merge digits [upper; CMap [3; 2] (repeat true 6) (map pt [1; 2; 3; 4; 5; 6]%Q) (Model.MergeMaps.Phase "b" 2) 1 2 1 "um"] 1 None None = None. Proof. reflexivity. Qed.
Definition line : cmap unit := CMap [3] [false; true; true] (map pt [1; 2]%Q) (Model.MergeMaps.Phase "a" 1) 1 0 1 "um".
Example line_scan : exists out, merge digits [line] 1 None None = Some out /\ merged_shape out = [2]. Proof. eexists. split; [vm_compute; reflexivity|reflexivity]. Qed.
End Examples.

Print Assumptions C107_best_at_its_place.
Print Assumptions C107_other_places_refuted.
Print Assumptions C107_masks_accepted_iff.
Print Assumptions C107_positions_kept_iff_refuted.
