(** Grid tiles addressed by any integer. *)
From Coq Require Import List Arith ZArith Reals Lia Lra Bool.
From Verif Require Import Model.VirtualGrid Proofs.VirtualGridProofs Model.TileIndices.
Import ListNotations.
Local Open Scope Z_scope.

Lemma item_some {A} (a : list A) i : (exists x, item a i = Some x) <-> - Z.of_nat (length a) <= i < Z.of_nat (length a).
Proof.
  unfold item. destruct (Z.leb_spec 0 i), (Z.ltb_spec i (Z.of_nat (length a))); cbn [andb];
    [| | |]; try (destruct (Z.leb_spec (- Z.of_nat (length a)) i), (Z.ltb_spec i 0); cbn [andb]).
  all: try (split; [intros [x E]; discriminate|lia]).
  all: try (split; [lia|intros _]).
  all: try lia.
  all: try match goal with |- exists x, nth_error ?l ?n = _ =>
    destruct (nth_error l n) eqn:E; [eexists; reflexivity|apply nth_error_None in E; lia] end.
Qed.
Lemma linspace_len s g : length (linspace reals s g) = S g.
Proof. unfold linspace. rewrite map_length, seq_length. reflexivity. Qed.

(** Which edge an index stands for: there is one edge more than there are tiles. *)
Definition edge_number (g : nat) (i : Z) : nat := Z.to_nat (if i <? 0 then i + Z.of_nat g + 1 else i).
Lemma item_line s g i : (1 <= g)%nat -> - (Z.of_nat g + 1) <= i <= Z.of_nat g ->
  item (linspace reals s g) i = Some (line s g (edge_number g i)).
Proof.
  intros Hg Hi. unfold item, edge_number. rewrite linspace_len.
  destruct (Z.ltb_spec i 0).
  - destruct (Z.leb_spec 0 i); [lia|]. cbn [andb]. destruct (Z.leb_spec (- Z.of_nat (S g)) i); [|lia]. cbn [andb].
    replace (Z.of_nat (S g) + i) with (i + Z.of_nat g + 1) by lia. apply linspace_nth; lia.
  - destruct (Z.leb_spec 0 i); [|lia]. destruct (Z.ltb_spec i (Z.of_nat (S g))); [|lia]. cbn [andb].
    apply linspace_nth; lia.
Qed.

Lemma fold_min r : forall a, In (fold_left Z.min r a) (a :: r) /\ forall x, In x (a :: r) -> fold_left Z.min r a <= x.
Proof.
  induction r as [|b r IH]; intros a; cbn [fold_left].
  - split; [now left|]. intros x [<-|[]]. lia.
  - destruct (IH (Z.min a b)) as [I L]. split.
    + destruct I as [E|I]; [|right; now right]. rewrite <- E. destruct (Z.min_spec a b) as [[_ ->]|[_ ->]]; cbn; auto.
    + intros x [<-|[<-|H]]; [specialize (L _ (or_introl eq_refl)); lia|specialize (L _ (or_introl eq_refl)); lia|].
      apply L. now right.
Qed.
Lemma fold_max r : forall a, In (fold_left Z.max r a) (a :: r) /\ forall x, In x (a :: r) -> x <= fold_left Z.max r a.
Proof.
  induction r as [|b r IH]; intros a; cbn [fold_left].
  - split; [now left|]. intros x [<-|[]]. lia.
  - destruct (IH (Z.max a b)) as [I L]. split.
    + destruct I as [E|I]; [|right; now right]. rewrite <- E. destruct (Z.max_spec a b) as [[_ ->]|[_ ->]]; cbn; auto.
    + intros x [<-|[<-|H]]; [specialize (L _ (or_introl eq_refl)); lia|specialize (L _ (or_introl eq_refl)); lia|].
      apply L. now right.
Qed.

Lemma any_edges_some s g d l : (1 <= g)%nat ->
  (exists e, any_edges s g d l = Some e) <->
  l <> [] /\ forall i, In i l -> - (Z.of_nat g + 1) <= i <= Z.of_nat g.
Proof.
  intros Hg. unfold any_edges. destruct l as [|a r]; cbn [zmin zmax].
  - split; [intros [e E]; discriminate|intros [N _]; congruence].
  - destruct (fold_min r a) as [I1 L1], (fold_max r a) as [I2 L2].
    rewrite (item_line s g 1) by lia. split.
    + intros [e E]. split; [discriminate|]. intros i Hi.
      destruct (item _ (fold_left Z.min r a)) as [x|] eqn:E1; [|discriminate].
      destruct (item _ (fold_left Z.max r a)) as [y|] eqn:E2; [|discriminate].
      assert (B1 : exists x, item (linspace reals s g) (fold_left Z.min r a) = Some x) by eauto.
      assert (B2 : exists x, item (linspace reals s g) (fold_left Z.max r a) = Some x) by eauto.
      apply item_some in B1. apply item_some in B2. rewrite linspace_len in B1, B2.
      specialize (L1 i Hi). specialize (L2 i Hi). lia.
    + intros [_ B]. rewrite (item_line s g _ Hg (B _ I1)), (item_line s g _ Hg (B _ I2)). eauto.
Qed.

(** A region is returned exactly when at least one tile is given and every row index is from -(gy + 1) to gy and every
    column index from -(gx + 1) to gx: one more on either side than a grid of gy by gx tiles has. *)
Theorem C119_accepted_iff sy sx gy gx dr dc tiles : (1 <= gy)%nat -> (1 <= gx)%nat ->
  (exists o, any_roi_from_grid sy sx gy gx dr dc tiles = Some o) <->
  tiles <> [] /\ forall r c, In (r, c) tiles ->
    - (Z.of_nat gy + 1) <= r <= Z.of_nat gy /\ - (Z.of_nat gx + 1) <= c <= Z.of_nat gx.
Proof.
  intros Hy Hx. pose proof (any_edges_some sx gx dc (map snd tiles) Hx) as X.
  pose proof (any_edges_some sy gy dr (map fst tiles) Hy) as Y. unfold any_roi_from_grid. split.
  - intros [o E]. destruct (any_edges sx gx dc (map snd tiles)) as [[l r]|]; [|discriminate].
    destruct (any_edges sy gy dr (map fst tiles)) as [[t b]|]; [|discriminate].
    destruct X as [X _], Y as [Y _]. destruct X as [N X]; [eauto|]. destruct Y as [_ Y]; [eauto|].
    split; [intros ->; apply N; reflexivity|]. intros i j H. split.
    + apply Y. apply in_map_iff. exists (i, j). auto.
    + apply X. apply in_map_iff. exists (i, j). auto.
  - intros [N B]. destruct X as [_ X], Y as [_ Y].
    destruct X as [[l r] ->].
    { split; [destruct tiles; [congruence|discriminate]|]. intros i H. apply in_map_iff in H.
      destruct H as [[a b] [<- H]]. apply (B a b H). }
    destruct Y as [[t b] ->].
    { split; [destruct tiles; [congruence|discriminate]|]. intros i H. apply in_map_iff in H.
      destruct H as [[a b] [<- H]]. apply (B a b H). }
    eauto.
Qed.

Lemma any_edges_one s g d i : (1 <= g)%nat -> - (Z.of_nat g + 1) <= i <= Z.of_nat g ->
  any_edges s g d [i] = Some (line s g (edge_number g i) * d, line s g (S (edge_number g i)) * d)%R.
Proof.
  intros Hg Hi. unfold any_edges. cbn [zmin zmax fold_left]. rewrite (item_line s g i) by assumption.
  rewrite (item_line s g 1) by lia. change (edge_number g 1) with 1%nat. now rewrite line_succ.
Qed.

(** One tile of the grid, counted from the top left, covers its part of the detector: tile k along an axis of s pixels
    cut in g parts is from k s / g to (k + 1) s / g pixels. *)
Theorem C119_one_tile sy sx gy gx dr dc r c : (r < gy)%nat -> (c < gx)%nat ->
  any_roi_from_grid sy sx gy gx dr dc [(Z.of_nat r, Z.of_nat c)] =
  Some (ROI (INR c * (INR sx / INR gx) * dc) (INR r * (INR sy / INR gy) * dr)
            (INR (S c) * (INR sx / INR gx) * dc) (INR (S r) * (INR sy / INR gy) * dr))%R.
Proof.
  intros Hr Hc. unfold any_roi_from_grid. cbn [map fst snd].
  rewrite !any_edges_one by lia. unfold edge_number.
  destruct (Z.ltb_spec (Z.of_nat r) 0); [lia|]. destruct (Z.ltb_spec (Z.of_nat c) 0); [lia|].
  rewrite !Nat2Z.id. reflexivity.
Qed.

Lemma any_edges_grid s g d l : (1 <= g)%nat -> l <> [] -> (forall i, In i l -> 0 <= i < Z.of_nat g) ->
  exists lo hi : nat, In (Z.of_nat lo) l /\ In (Z.of_nat hi) l /\ (forall i, In i l -> Z.of_nat lo <= i <= Z.of_nat hi) /\
    any_edges s g d l = Some (INR lo * (INR s / INR g) * d, INR (S hi) * (INR s / INR g) * d)%R.
Proof.
  intros Hg N B. destruct l as [|a r]; [congruence|]. destruct (fold_min r a) as [I1 L1], (fold_max r a) as [I2 L2].
  pose proof (B _ I1) as B1. pose proof (B _ I2) as B2.
  exists (Z.to_nat (fold_left Z.min r a)), (Z.to_nat (fold_left Z.max r a)). rewrite !Z2Nat.id by lia.
  split; [assumption|]. split; [assumption|]. split; [intros i Hi; split; [apply L1|apply L2]; assumption|].
  unfold any_edges. cbn [zmin zmax]. rewrite !item_line by lia. change (edge_number g 1) with 1%nat. rewrite line_succ.
  unfold edge_number. destruct (Z.ltb_spec (fold_left Z.min r a) 0); [lia|].
  destruct (Z.ltb_spec (fold_left Z.max r a) 0); [lia|]. reflexivity.
Qed.
(** Several tiles of the grid: the region is from the first of their rows and columns up to and including the last. *)
Theorem C119_several_tiles sy sx gy gx dr dc tiles : (1 <= gy)%nat -> (1 <= gx)%nat -> tiles <> [] ->
  (forall r c, In (r, c) tiles -> 0 <= r < Z.of_nat gy /\ 0 <= c < Z.of_nat gx) ->
  exists r0 r1 c0 c1 : nat,
    (exists c, In (Z.of_nat r0, c) tiles) /\ (exists c, In (Z.of_nat r1, c) tiles) /\
    (exists r, In (r, Z.of_nat c0) tiles) /\ (exists r, In (r, Z.of_nat c1) tiles) /\
    (forall r c, In (r, c) tiles -> Z.of_nat r0 <= r <= Z.of_nat r1 /\ Z.of_nat c0 <= c <= Z.of_nat c1) /\
    any_roi_from_grid sy sx gy gx dr dc tiles =
    Some (ROI (INR c0 * (INR sx / INR gx) * dc) (INR r0 * (INR sy / INR gy) * dr)
              (INR (S c1) * (INR sx / INR gx) * dc) (INR (S r1) * (INR sy / INR gy) * dr))%R.
Proof.
  intros Hy Hx N B.
  destruct (any_edges_grid sy gy dr (map fst tiles) Hy) as (r0 & r1 & I0 & I1 & L & E).
  { destruct tiles; [congruence|discriminate]. }
  { intros i H. apply in_map_iff in H. destruct H as [[a b] [<- H]]. apply (B a b H). }
  destruct (any_edges_grid sx gx dc (map snd tiles) Hx) as (c0 & c1 & J0 & J1 & M & F).
  { destruct tiles; [congruence|discriminate]. }
  { intros i H. apply in_map_iff in H. destruct H as [[a b] [<- H]]. apply (B a b H). }
  exists r0, r1, c0, c1. unfold any_roi_from_grid. rewrite E, F.
  apply in_map_iff in I0, I1, J0, J1.
  destruct I0 as [[a0 b0] [X0 I0]], I1 as [[a1 b1] [X1 I1]], J0 as [[a2 b2] [X2 J0]], J1 as [[a3 b3] [X3 J1]].
  cbn [fst snd] in *. subst.
  split; [eauto|]. split; [eauto|]. split; [eauto|]. split; [eauto|]. split; [|reflexivity].
  intros r c H. split; [apply L|apply M]; apply in_map_iff; exists (r, c); auto.
Qed.

(** Refuted: "an index past the last tile is an error". One past the last row is accepted, and its region begins where the
    detector ends: it has no pixel in common with the patterns. *)
Theorem C119_past_the_end_refuted sy sx gy gx dr dc c : (1 <= gy)%nat -> (c < gx)%nat ->
  exists o, any_roi_from_grid sy sx gy gx dr dc [(Z.of_nat gy, Z.of_nat c)] = Some o /\
            roi_top o = (INR sy * dr)%R /\ roi_bottom o = ((INR sy + INR sy / INR gy) * dr)%R.
Proof.
  intros Hg Hc. unfold any_roi_from_grid. cbn [map fst snd].
  rewrite !any_edges_one by lia. eexists; split; [reflexivity|]. cbn [roi_top roi_bottom].
  unfold edge_number. destruct (Z.ltb_spec (Z.of_nat gy) 0); [lia|]. rewrite Nat2Z.id.
  rewrite <- line_succ, line_g by assumption. split; [reflexivity|]. unfold line. change (INR 1) with 1%R.
  now rewrite Rmult_1_l.
Qed.

(** Refuted: "a negative index counts tiles from the end, as for an array". The index -k gives the region of index g + 1 - k
    instead of g - k: -1 is the region outside the detector, and the last row is -2. *)
Theorem C119_negative_index_refuted sy sx gy gx dr dc k c : (1 <= gy)%nat -> (c < gx)%nat -> (1 <= k <= gy + 1)%nat ->
  any_roi_from_grid sy sx gy gx dr dc [(- Z.of_nat k, Z.of_nat c)] =
  any_roi_from_grid sy sx gy gx dr dc [(Z.of_nat (gy + 1 - k), Z.of_nat c)].
Proof.
  intros Hg Hc Hk. unfold any_roi_from_grid. cbn [map fst snd].
  rewrite !any_edges_one by lia.
  replace (edge_number gy (- Z.of_nat k)) with (edge_number gy (Z.of_nat (gy + 1 - k))); [reflexivity|].
  unfold edge_number. destruct (Z.ltb_spec (Z.of_nat (gy + 1 - k)) 0); [lia|].
  destruct (Z.ltb_spec (- Z.of_nat k) 0); lia.
Qed.

(** Refuted: "a region's top is above its bottom". The rows -1 and 0 together give a region which begins at the detector's
    lower edge and ends after the first row, above where it begins. *)
Theorem C119_mixed_signs_refuted sy sx gy gx dr dc c : (2 <= gy)%nat -> (c < gx)%nat -> (1 <= sy)%nat -> (0 < dr)%R ->
  exists o, any_roi_from_grid sy sx gy gx dr dc [(-1, Z.of_nat c); (0, Z.of_nat c)] = Some o /\
            roi_top o = (INR sy * dr)%R /\ roi_bottom o = (INR sy / INR gy * dr)%R /\ (roi_bottom o < roi_top o)%R.
Proof.
  intros Hg Hc Hs Hd. unfold any_roi_from_grid. cbn [map fst snd]. unfold any_edges. cbn [zmin zmax fold_left].
  rewrite Z.min_id, Z.max_id. change (Z.min (-1) 0) with (-1). change (Z.max (-1) 0) with 0.
  rewrite !item_line by lia. eexists; split; [reflexivity|]. cbn [roi_top roi_bottom].
  replace (edge_number gy (-1)) with gy by (unfold edge_number; cbn [Z.ltb Z.compare]; lia).
  change (edge_number gy 0) with 0%nat. change (edge_number gy 1) with 1%nat.
  rewrite line_g, line_0 by lia. unfold line. change (INR 1) with 1%R. rewrite Rplus_0_l, Rmult_1_l.
  split; [reflexivity|]. split; [reflexivity|]. apply Rmult_lt_compat_r; [assumption|].
  assert (G : (2 <= INR gy)%R) by (change 2%R with (INR 2); now apply le_INR).
  assert (S1 : (1 <= INR sy)%R) by (change 1%R with (INR 1); now apply le_INR).
  apply Rmult_lt_reg_r with (INR gy); [lra|]. unfold Rdiv. rewrite Rmult_assoc, Rinv_l by lra. nra.
Qed.

(** A detector of 60 by 60 pixels in 5 by 5 tiles: the tile in row 4 and column 0. *)
Example last_row : any_roi_from_grid 60 60 5 5 1 1 [(4, 0)] =
  Some (ROI (INR 0 * (INR 60 / INR 5) * 1) (INR 4 * (INR 60 / INR 5) * 1)
            (INR 1 * (INR 60 / INR 5) * 1) (INR 5 * (INR 60 / INR 5) * 1))%R.
Proof. apply (C119_one_tile 60 60 5 5 1 1 4 0); lia. Qed.
Example rejected : ~ exists o, any_roi_from_grid 60 60 5 5 1 1 [(6, 0)] = Some o.
Proof. rewrite C119_accepted_iff by lia. intros [_ B]. destruct (B 6 0 (or_introl eq_refl)). lia. Qed.

Print Assumptions C119_accepted_iff.
Print Assumptions C119_one_tile.
Print Assumptions C119_several_tiles.
Print Assumptions C119_past_the_end_refuted.
Print Assumptions C119_negative_index_refuted.
Print Assumptions C119_mixed_signs_refuted.
