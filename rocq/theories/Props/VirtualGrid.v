(** The grid of virtual detectors: property C45. *)
From Coq Require Import List Arith ZArith Bool Reals Floats Uint63 Lra Lia.
From Verif Require Import Model.Pattern Model.VirtualGrid Spec.Tiles Proofs.AverageNeighboursProofs Proofs.VirtualGridProofs.
Import ListNotations.
Local Open Scope R_scope.

(** The owner of each pixel of an axis of s pixels and g tiles. *)
Definition owns (rnd : R -> Z) (s g : nat) (o : nat -> nat) : Prop :=
  (forall k, (k < s)%nat -> (o k < g)%nat)
  /\ forall lo hi k, (k < s)%nat -> (lo <= hi < g)%nat ->
     ((lo <= o k <= hi)%nat <-> (cut_at rnd s g lo <= k < cut_at rnd s g (S hi))%nat).
Lemma owner_exists rnd s g : rounding rnd -> (1 <= g)%nat -> owns rnd s g (owner (cut_at rnd s g) g).
Proof.
  intros Hr Hg. split.
  - intros k Hk. apply (owner_spec (cut_at rnd s g) s g Hg (cut_0 rnd s g Hr) (cut_g rnd s g Hg Hr)); auto; try lia.
    + intros j _. now apply cut_mono1.
    + now rewrite cut_g.
  - intros lo hi k Hk Hb. apply (owner_box _ s); auto.
    + now apply cut_0.
    + now apply cut_g.
    + intros j _. now apply cut_mono1.
Qed.

Lemma lmin_le : forall l a b, lmin l = Some a -> In b l -> (a <= b)%nat.
Proof.
  intros [|c l] a b E; [discriminate|]. simpl in E. injection E as <-.
  assert (H : forall l c, (fold_left Nat.min l c <= c)%nat /\ forall x, In x l -> (fold_left Nat.min l c <= x)%nat).
  { clear. induction l as [|y l IH]; simpl; intros c; [split; [lia|tauto]|].
    destruct (IH (Nat.min c y)) as [H1 H2]. split; [lia|]. intros x [->|Hx]; [lia|auto]. }
  destruct (H l c) as [H1 H2]. intros [->|Hb]; auto.
Qed.
Lemma lmax_ge : forall l a b, lmax l = Some a -> In b l -> (b <= a)%nat.
Proof.
  intros [|c l] a b E; [discriminate|]. simpl in E. injection E as <-.
  assert (H : forall l c, (c <= fold_left Nat.max l c)%nat /\ forall x, In x l -> (x <= fold_left Nat.max l c)%nat).
  { clear. induction l as [|y l IH]; simpl; intros c; [split; [lia|tauto]|].
    destruct (IH (Nat.max c y)) as [H1 H2]. split; [lia|]. intros x [->|Hx]; [lia|auto]. }
  destruct (H l c) as [H1 H2]. intros [->|Hb]; auto.
Qed.
Lemma lmin_in : forall l a, lmin l = Some a -> In a l.
Proof.
  intros [|c l] a E; [discriminate|]. simpl in E. injection E as <-. revert c.
  induction l as [|y l IH]; simpl; intros c; [auto|].
  destruct (IH (Nat.min c y)) as [H|H]; [|auto]. rewrite <- H. destruct (Nat.min_spec c y) as [[_ ->]|[_ ->]]; auto.
Qed.
Lemma lmax_in : forall l a, lmax l = Some a -> In a l.
Proof.
  intros [|c l] a E; [discriminate|]. simpl in E. injection E as <-. revert c.
  induction l as [|y l IH]; simpl; intros c; [auto|].
  destruct (IH (Nat.max c y)) as [H|H]; [|auto]. rewrite <- H. destruct (Nat.max_spec c y) as [[_ ->]|[_ ->]]; auto.
Qed.

(** The general form: the region of a list of tiles is the box of tiles around them. *)
Lemma region_intensity rnd ny nx gy gx dr dc oy ox tiles p y0 y1 x0 x1 :
  rounding rnd -> (1 <= gy)%nat -> (1 <= gx)%nat -> dr <> 0 -> dc <> 0 ->
  owns rnd ny gy oy -> owns rnd nx gx ox ->
  lmin (map fst tiles) = Some y0 -> lmax (map fst tiles) = Some y1 -> (y1 < gy)%nat ->
  lmin (map snd tiles) = Some x0 -> lmax (map snd tiles) = Some x1 -> (x1 < gx)%nat ->
  option_map (fun r => virtual_intensity rnd (Axis ny dr 0) (Axis nx dc 0) r p) (roi_from_grid reals ny nx gy gx dr dc tiles)
  = Some (sum_pixels ny nx (fun y x => (y0 <=? oy y)%nat && (oy y <=? y1)%nat && ((x0 <=? ox x)%nat && (ox x <=? x1)%nat)) p).
Proof.
  intros Hr Hgy Hgx Hdr Hdc [_ Hoy] [_ Hox] Ey0 Ey1 By Ex0 Ex1 Bx.
  assert (y0 <= y1)%nat by (eapply lmax_ge; eauto; now apply lmin_in).
  assert (x0 <= x1)%nat by (eapply lmax_ge; eauto; now apply lmin_in).
  unfold roi_from_grid. rewrite (edges_eq nx gx dc _ x0 x1), (edges_eq ny gy dr _ y0 y1) by (auto; lia).
  cbn [option_map]. f_equal. unfold virtual_intensity. cbn [roi_left roi_top roi_right roi_bottom].
  rewrite !axis_index_cut by auto.
  assert (M : forall s g lo hi, (1 <= g)%nat -> (lo <= hi)%nat -> (hi <= g)%nat -> (cut_at rnd s g lo <= cut_at rnd s g hi)%nat).
  { intros s g lo hi Hg Hl. induction Hl; intros; [lia|]. pose proof (cut_mono1 rnd s g m Hg Hr). lia. }
  assert (B : forall s g k, (1 <= g)%nat -> (k <= g)%nat -> (cut_at rnd s g k <= s)%nat).
  { intros s g k Hg Hk. rewrite <- (cut_g rnd s g Hg Hr) at 2. now apply M. }
  rewrite (sum_range_indicator _ ny _ _ (fun y => (y0 <=? oy y)%nat && (oy y <=? y1)%nat)).
  - unfold sum_pixels. apply sum_below_ext. intros y Hy.
    destruct ((y0 <=? oy y)%nat && (oy y <=? y1)%nat) eqn:E.
    + rewrite (sum_range_indicator _ nx _ _ (fun x => (x0 <=? ox x)%nat && (ox x <=? x1)%nat)).
      * apply sum_below_ext. intros x Hx. reflexivity.
      * split; [apply M|apply B]; lia.
      * intros x Hx. rewrite andb_true_iff, !Nat.leb_le. apply Hox; lia.
    + symmetry. apply sum_below_zero. intros. reflexivity.
  - split; [apply M|apply B]; lia.
  - intros y Hy. rewrite andb_true_iff, !Nat.leb_le. apply Hoy; lia.
Qed.

(** ** The property, in exact arithmetic *)

(** For every detector with ny x nx pixels, grid, scales of the axes (offsets 0) and rounding: there
    are functions that give each pixel row the row of its tile and each pixel column the column of
    its tile, and the virtual image of tile (i, j) is, for every pattern, the sum over exactly the
    pixels that belong to (i, j). *)
Theorem C45_tiles_partition_the_detector rnd ny nx gy gx dr dc :
  rounding rnd -> (1 <= gy)%nat -> (1 <= gx)%nat -> dr <> 0 -> dc <> 0 ->
  exists tile_row tile_col : nat -> nat,
    (forall y, (y < ny)%nat -> (tile_row y < gy)%nat) /\ (forall x, (x < nx)%nat -> (tile_col x < gx)%nat)
    /\ forall i j p, (i < gy)%nat -> (j < gx)%nat ->
       tile_intensity rnd (Axis ny dr 0) (Axis nx dc 0) gy gx i j p
       = Some (sum_pixels ny nx (fun y x => (tile_row y =? i)%nat && (tile_col x =? j)%nat) p).
Proof.
  intros Hr Hgy Hgx Hdr Hdc. pose proof (owner_exists rnd ny gy Hr Hgy) as Oy. pose proof (owner_exists rnd nx gx Hr Hgx) as Ox.
  exists (owner (cut_at rnd ny gy) gy), (owner (cut_at rnd nx gx) gx).
  split; [apply Oy|]. split; [apply Ox|]. intros i j p Hi Hj.
  unfold tile_intensity. cbn [size scale].
  rewrite (region_intensity rnd ny nx gy gx dr dc _ _ [(i, j)] p i i j j Hr Hgy Hgx Hdr Hdc Oy Ox) by (auto; reflexivity).
  f_equal. unfold sum_pixels. apply sum_below_ext. intros y Hy. apply sum_below_ext. intros x Hx.
  assert (E : forall a b, (b <=? a)%nat && (a <=? b)%nat = (a =? b)%nat).
  { intros a b. destruct (Nat.eqb_spec a b) as [->|]; [now rewrite !Nat.leb_refl|].
    apply andb_false_iff. rewrite !Nat.leb_gt. lia. }
  now rewrite !E.
Qed.

(** All tiles together give the sum of the pattern: nothing is left out or counted twice. *)
Theorem C45_images_sum_to_the_pattern rnd ny nx gy gx dr dc p :
  rounding rnd -> (1 <= gy)%nat -> (1 <= gx)%nat -> dr <> 0 -> dc <> 0 ->
  exists image : nat -> nat -> R,
    images_from_grid rnd (Axis ny dr 0) (Axis nx dc 0) gy gx p
      = map (fun i => map (fun j => Some (image i j)) (seq 0 gx)) (seq 0 gy)
    /\ sum_below gy (fun i => sum_below gx (fun j => image i j)) = sum_pixels ny nx (fun _ _ => true) p.
Proof.
  intros Hr Hgy Hgx Hdr Hdc. destruct (C45_tiles_partition_the_detector rnd ny nx gy gx dr dc Hr Hgy Hgx Hdr Hdc) as (oy & ox & By & Bx & H).
  exists (fun i j => sum_pixels ny nx (fun y x => (oy y =? i)%nat && (ox x =? j)%nat) p). split.
  - unfold images_from_grid. apply map_ext_in. intros i Hi. apply map_ext_in. intros j Hj. apply in_seq in Hi, Hj. apply H; lia.
  - unfold sum_pixels.
    transitivity (sum_below gy (fun i => sum_below ny (fun y => sum_below gx (fun j => sum_below nx (fun x =>
      if (oy y =? i)%nat && (ox x =? j)%nat then p y x else 0))))).
    { apply sum_below_ext. intros i _. now rewrite sum_below_swap. }
    rewrite sum_below_swap. apply sum_below_ext. intros y Hy.
    transitivity (sum_below gy (fun i => if (oy y =? i)%nat then sum_below nx (p y) else 0)).
    { apply sum_below_ext. intros i Hi. rewrite sum_below_swap. destruct (Nat.eqb_spec (oy y) i).
      - apply sum_below_ext. intros x Hx. cbn [andb]. apply sum_below_delta. auto.
      - apply sum_below_zero. intros x Hx. apply sum_below_zero. reflexivity. }
    apply sum_below_delta. auto.
Qed.

(** With rounding to nearest and a grid not larger than the detector (the setter of grid_shape
    ensures it) no tile is empty, and the pixels of a tile lie within half a pixel of its exact
    borders j n/g and (j+1) n/g.  (Pixel k covers [k - 1/2, k + 1/2] on the axis, as in HyperSpy.)
    Stated for one axis: the first pixel and the one after the last. *)
Theorem C45_tile_borders rnd n g d j :
  rounding rnd -> nearest rnd -> (1 <= g <= n)%nat -> d <> 0 -> (j < g)%nat ->
  exists lo hi first past, edges reals n g d [j] = Some (lo, hi)
    /\ axis_index rnd (Axis n d 0) lo = first /\ axis_index rnd (Axis n d 0) hi = past
    /\ (first < past <= n)%nat
    /\ Rabs (INR first - INR j * INR n / INR g) <= / 2 /\ Rabs (INR past - INR (S j) * INR n / INR g) <= / 2.
Proof.
  intros Hr Hne Hg Hd Hj. exists (line n g j * d), (line n g (S j) * d), (cut_at rnd n g j), (cut_at rnd n g (S j)).
  split; [apply edges_eq; auto; lia|]. rewrite !axis_index_cut by auto. split; [reflexivity|]. split; [reflexivity|].
  pose proof (cut_unclamped rnd n g j ltac:(lia) ltac:(lia) Hr) as U1.
  pose proof (cut_unclamped rnd n g (S j) ltac:(lia) ltac:(lia) Hr) as U2.
  pose proof (Hne (line n g j)) as N1. pose proof (Hne (line n g (S j))) as N2.
  assert (S1 : 1 <= INR n / INR g).
  { assert (0 < INR g) by (apply lt_0_INR; lia). assert (INR g <= INR n) by (apply le_INR; lia).
    apply Rmult_le_reg_r with (INR g); [auto|]. unfold Rdiv. rewrite Rmult_assoc, Rinv_l by lra. lra. }
  assert (Lt : (rnd (line n g j) < rnd (line n g (S j)))%Z).
  { destruct (Req_dec (INR n / INR g) 1) as [E|E].
    - assert (I : forall k, line n g k = IZR (Z.of_nat k)) by (intros k; unfold line; rewrite E, Rmult_1_r; apply INR_IZR_INZ).
      rewrite !I. destruct Hr as [Hi _]. rewrite !Hi. lia.
    - apply lt_IZR. rewrite <- line_succ in *. assert (line n g 1 = INR n / INR g) by (unfold line; simpl; ring). lra. }
  assert (B : forall k, (k <= g)%nat -> (cut_at rnd n g k <= n)%nat) by (intros; unfold cut_at; lia).
  split; [specialize (B (S j)); lia|].
  rewrite (INR_IZR_INZ (cut_at rnd n g j)), (INR_IZR_INZ (cut_at rnd n g (S j))), U1, U2.
  replace (INR j * INR n / INR g) with (line n g j) by (unfold line, Rdiv; ring).
  replace (INR (S j) * INR n / INR g) with (line n g (S j)) by (unfold line, Rdiv; ring).
  split; apply Rabs_le; lra.
Qed.

(** A region made from several tiles covers the box of tiles around them, and nothing else. *)
Theorem C45_region_of_several_tiles rnd ny nx gy gx dr dc tiles :
  rounding rnd -> (1 <= gy)%nat -> (1 <= gx)%nat -> dr <> 0 -> dc <> 0 ->
  tiles <> [] -> Forall (fun t => (fst t < gy)%nat /\ (snd t < gx)%nat) tiles ->
  exists tile_row tile_col : nat -> nat,
    (forall i j p, (i < gy)%nat -> (j < gx)%nat ->
       tile_intensity rnd (Axis ny dr 0) (Axis nx dc 0) gy gx i j p
       = Some (sum_pixels ny nx (fun y x => (tile_row y =? i)%nat && (tile_col x =? j)%nat) p))
    /\ exists y0 y1 x0 x1,
      (forall t, In t tiles -> (y0 <= fst t <= y1)%nat /\ (x0 <= snd t <= x1)%nat)
      /\ In y0 (map fst tiles) /\ In y1 (map fst tiles) /\ In x0 (map snd tiles) /\ In x1 (map snd tiles)
      /\ forall p, option_map (fun r => virtual_intensity rnd (Axis ny dr 0) (Axis nx dc 0) r p)
            (roi_from_grid reals ny nx gy gx dr dc tiles)
         = Some (sum_pixels ny nx (fun y x => (y0 <=? tile_row y)%nat && (tile_row y <=? y1)%nat
                                              && ((x0 <=? tile_col x)%nat && (tile_col x <=? x1)%nat)) p).
Proof.
  intros Hr Hgy Hgx Hdr Hdc Hne Hall. pose proof (owner_exists rnd ny gy Hr Hgy) as Oy. pose proof (owner_exists rnd nx gx Hr Hgx) as Ox.
  exists (owner (cut_at rnd ny gy) gy), (owner (cut_at rnd nx gx) gx). split.
  - intros i j p Hi Hj. unfold tile_intensity. cbn [size scale].
    rewrite (region_intensity rnd ny nx gy gx dr dc _ _ [(i, j)] p i i j j Hr Hgy Hgx Hdr Hdc Oy Ox) by (auto; reflexivity).
    f_equal. unfold sum_pixels. apply sum_below_ext. intros y Hy. apply sum_below_ext. intros x Hx.
    assert (E : forall a b, (b <=? a)%nat && (a <=? b)%nat = (a =? b)%nat).
    { intros a b. destruct (Nat.eqb_spec a b) as [->|]; [now rewrite !Nat.leb_refl|].
      apply andb_false_iff. rewrite !Nat.leb_gt. lia. }
    now rewrite !E.
  - rewrite Forall_forall in Hall.
    destruct (lmin (map fst tiles)) as [y0|] eqn:Ey0; [|destruct tiles; [congruence|discriminate]].
    destruct (lmax (map fst tiles)) as [y1|] eqn:Ey1; [|destruct tiles; [congruence|discriminate]].
    destruct (lmin (map snd tiles)) as [x0|] eqn:Ex0; [|destruct tiles; [congruence|discriminate]].
    destruct (lmax (map snd tiles)) as [x1|] eqn:Ex1; [|destruct tiles; [congruence|discriminate]].
    exists y0, y1, x0, x1. split.
    { intros t Ht. pose proof (in_map fst _ _ Ht) as H1. pose proof (in_map snd _ _ Ht) as H2.
      split; (split; [eapply lmin_le|eapply lmax_ge]; eauto). }
    split; [now apply lmin_in|]. split; [now apply lmax_in|]. split; [now apply lmin_in|]. split; [now apply lmax_in|].
    intros p.
    apply (region_intensity rnd ny nx gy gx dr dc _ _ tiles p y0 y1 x0 x1 Hr Hgy Hgx Hdr Hdc Oy Ox); auto.
    + apply lmax_in in Ey1. apply in_map_iff in Ey1. destruct Ey1 as (t & <- & Ht). now apply Hall.
    + apply lmax_in in Ex1. apply in_map_iff in Ex1. destruct Ex1 as (t & <- & Ht). now apply Hall.
Qed.

(** The hypotheses can be met: flooring is a rounding, rounding half up is one to nearest. *)
Lemma Int_part_bounds x : IZR (Int_part x) <= x < IZR (Int_part x) + 1.
Proof. destruct (base_Int_part x). lra. Qed.
Example rounding_half_up : let rnd := fun x => Int_part (x + / 2) in rounding rnd /\ nearest rnd.
Proof.
  intros rnd. assert (N : nearest rnd).
  { intros x. unfold rnd. pose proof (Int_part_bounds (x + / 2)). lra. }
  split; [|exact N]. split.
  - intros n. unfold rnd. pose proof (Int_part_bounds (IZR n + / 2)) as H. set (z := Int_part (IZR n + / 2)) in *.
    assert (IZR z < IZR (n + 1)) by (rewrite plus_IZR; lra). assert (IZR n < IZR (z + 1)) by (rewrite plus_IZR; lra).
    apply lt_IZR in H0, H1. lia.
  - intros x y Hxy. unfold rnd. pose proof (Int_part_bounds (x + / 2)). pose proof (Int_part_bounds (y + / 2)).
    set (a := Int_part (x + / 2)) in *. set (b := Int_part (y + / 2)) in *.
    assert (IZR a < IZR (b + 1)) by (rewrite plus_IZR; lra). apply lt_IZR in H1. lia.
Qed.

(** ** Where it is false *)

(** A colour channel of get_rgb_image is, before normalising, the sum over the pixels of its tiles. *)
Theorem C45_rgb_channel rnd ny nx gy gx dr dc :
  rounding rnd -> (1 <= gy)%nat -> (1 <= gx)%nat -> dr <> 0 -> dc <> 0 ->
  exists tile_row tile_col : nat -> nat,
    (forall i j p, (i < gy)%nat -> (j < gx)%nat ->
       tile_intensity rnd (Axis ny dr 0) (Axis nx dc 0) gy gx i j p
       = Some (sum_pixels ny nx (fun y x => (tile_row y =? i)%nat && (tile_col x =? j)%nat) p))
    /\ forall tiles p, NoDup tiles -> Forall (fun t => (fst t < gy)%nat /\ (snd t < gx)%nat) tiles ->
       channel rnd (Axis ny dr 0) (Axis nx dc 0) gy gx tiles p
       = Some (sum_pixels ny nx (fun y x => existsb (fun t => (tile_row y =? fst t)%nat && (tile_col x =? snd t)%nat) tiles) p).
Proof.
  intros Hr Hgy Hgx Hdr Hdc. destruct (C45_tiles_partition_the_detector rnd ny nx gy gx dr dc Hr Hgy Hgx Hdr Hdc) as (oy & ox & By & Bx & H).
  exists oy, ox. split; [exact H|]. intros tiles p Hn Ht. unfold channel.
  assert (G : forall a, fold_left (fun acc t => match acc, tile_intensity rnd (Axis ny dr 0) (Axis nx dc 0) gy gx (fst t) (snd t) p with
                          | Some s, Some v => Some (s + v) | _, _ => None end) tiles (Some a)
    = Some (a + sum_pixels ny nx (fun y x => existsb (fun t => (oy y =? fst t)%nat && (ox x =? snd t)%nat) tiles) p)).
  { induction tiles as [|t l IH]; intros a; cbn [fold_left existsb].
    - f_equal. unfold sum_pixels. rewrite sum_below_zero; [ring|]. intros y _. now apply sum_below_zero.
    - inversion Hn as [|? ? Hn1 Hn2]. inversion Ht as [|? ? [Ht1 Ht2] Ht3]. subst. rewrite H by assumption. rewrite IH by assumption. f_equal.
      rewrite Rplus_assoc. f_equal. unfold sum_pixels. rewrite <- sum_below_plus. apply sum_below_ext. intros y Hy.
      rewrite <- sum_below_plus. apply sum_below_ext. intros x Hx.
      destruct ((oy y =? fst t)%nat && (ox x =? snd t)%nat) eqn:E; cbn [orb]; [|ring].
      destruct (existsb _ l) eqn:F; [|ring]. exfalso. apply existsb_exists in F. destruct F as ([t1 t2] & F1 & F2).
      apply andb_true_iff in E, F2. rewrite !Nat.eqb_eq in E, F2. cbn [fst snd] in F2. apply Hn1. destruct t as [u1 u2]. cbn [fst snd] in E.
      replace (u1, u2) with (t1, t2) by (f_equal; lia). exact F1. }
  rewrite G. now rewrite Rplus_0_l.
Qed.
Print Assumptions C45_rgb_channel.

(** If the signal axis has an offset (after cropping the detector HyperSpy sets it to the position of
    the first pixel kept), the tiles do not cover the detector: with an offset of k >= 1 pixels, the
    last k columns are in no tile. *)
Theorem C45_offset_axis_refuted rnd n g d k j lo hi pixel :
  rounding rnd -> (1 <= g)%nat -> d <> 0 -> (1 <= k <= n)%nat -> (j < g)%nat ->
  edges reals n g d [j] = Some (lo, hi) -> (n - k <= pixel < n)%nat ->
  ~ (axis_index rnd (Axis n d (INR k * d)) lo <= pixel < axis_index rnd (Axis n d (INR k * d)) hi)%nat.
Proof.
  intros Hr Hg Hd Hk Hj E Hp [_ H].
  rewrite (edges_eq n g d [j] j j) in E by (auto; lia). injection E as <- <-.
  assert (B : line n g (S j) <= INR n).
  { unfold line. assert (0 < INR g) by (apply lt_0_INR; lia).
    assert (INR (S j) <= INR g) by (apply le_INR; lia).
    apply Rle_trans with (INR g * (INR n / INR g)).
    - apply Rmult_le_compat_r; [|auto]. apply Rmult_le_pos; [apply pos_INR|left; now apply Rinv_0_lt_compat].
    - right. field. lra. }
  unfold axis_index in H. cbn [size scale offset] in H.
  replace ((line n g (S j) * d - INR k * d) / d) with (line n g (S j) - INR k) in H by (field; auto).
  destruct Hr as [Hi Hm]. assert (M : (rnd (line n g (S j) - INR k)%R <= rnd (IZR (Z.of_nat (n - k))))%Z).
  { apply Hm. rewrite <- INR_IZR_INZ, minus_INR by lia. lra. }
  rewrite Hi in M. lia.
Qed.

(** In double precision the right border of a tile, computed as lines[j] + lines[1], is not always the
    left border lines[j + 1] of the next one.  When this border is half way between two pixels they
    are rounded to different pixels.  Whatever the rule for ties: among detectors of 31 pixels
    (whose grids below are allowed) there is one with two neighbouring tiles that overlap or leave a
    gap.  (0x1.effffffffffffp+3 and 0x1.f000000000001p+3 are the neighbours of 15.5 among the doubles,
    about 15.499999999999998 and 15.500000000000002.) *)
Definition rounds_to_nearest_around_15_5 (rnd : float -> Z) : Prop :=
  rnd 0x1.effffffffffffp+3%float = 15%Z /\ rnd 0x1.f000000000001p+3%float = 16%Z.
Theorem C45_tiles_in_double_precision_refuted rnd : rounds_to_nearest_around_15_5 rnd ->
  (rnd 15.5%float = 15%Z \/ rnd 15.5%float = 16%Z) ->
  exists g j first past first' past', (1 <= g <= 31)%nat /\ (S j < g)%nat
    /\ float_slice rnd 31 g j = Some (first, past) /\ float_slice rnd 31 g (S j) = Some (first', past')
    /\ past <> first'.
Proof.
  intros [H1 H2] [E|E].
  - exists 12%nat, 5%nat. do 4 eexists. split; [lia|]. split; [lia|]. split; [reflexivity|]. split; [reflexivity|].
    cbn [fst snd].
    match goal with |- rnd ?a <> rnd ?b => replace a with 0x1.f000000000001p+3%float by reflexivity;
      replace b with 15.5%float by reflexivity end.
    rewrite H2, E. discriminate.
  - exists 26%nat, 12%nat. do 4 eexists. split; [lia|]. split; [lia|]. split; [reflexivity|]. split; [reflexivity|].
    cbn [fst snd].
    match goal with |- rnd ?a <> rnd ?b => replace a with 0x1.effffffffffffp+3%float by reflexivity;
      replace b with 15.5%float by reflexivity end.
    rewrite H1, E. discriminate.
Qed.
Example rounds_example : rounds_to_nearest_around_15_5 (fun v => if PrimFloat.leb v 15.5 then 15 else 16)%Z.
Proof. split; reflexivity. Qed.

Print Assumptions C45_tiles_partition_the_detector.
Print Assumptions C45_tiles_in_double_precision_refuted.
