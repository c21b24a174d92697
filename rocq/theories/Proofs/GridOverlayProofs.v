(** Lemmas about the overlay of plot_grid. *)
From Coq Require Import List Arith ZArith Bool Reals Lra Lia.
From Verif Require Import Model.Pattern Model.VirtualGrid Model.GridOverlay Spec.Tiles Spec.GridOverlaySpec
  Proofs.AverageNeighboursProofs Proofs.VirtualGridProofs.
Import ListNotations.
Local Open Scope R_scope.

(** ** Sums that depend on one entry *)
Lemma sum_range_ext f g lo hi : (forall k, (lo <= k < hi)%nat -> f k = g k) -> sum_range f lo hi = sum_range g lo hi.
Proof.
  intros H. unfold sum_range. f_equal. apply map_ext_in. intros k Hk. apply in_seq in Hk. apply H. lia.
Qed.
Lemma sum_range_zero f lo hi : (forall k, (lo <= k < hi)%nat -> f k = 0) -> sum_range f lo hi = 0.
Proof.
  intros H. unfold sum_range. remember (hi - lo)%nat as n. assert (G : forall k, (lo <= k < lo + n)%nat -> f k = 0) by (intros; apply H; lia).
  clear H Heqn hi. revert lo G. induction n as [|n IH]; intros lo G; [reflexivity|].
  cbn [seq map]. change (vsum (f lo :: map f (seq (S lo) n))) with (f lo + vsum (map f (seq (S lo) n))).
  rewrite G by lia. rewrite IH; [ring|]. intros. apply G. lia.
Qed.
Lemma sum_range_one f k0 lo hi : (forall k, k <> k0 -> f k = 0) -> (lo <= k0 < hi)%nat -> sum_range f lo hi = f k0.
Proof.
  intros H. unfold sum_range. intros [H1 H2]. remember (hi - lo)%nat as n. assert (G : (k0 < lo + n)%nat) by lia.
  clear Heqn hi H2. revert lo H1 G. induction n as [|n IH]; intros lo H1 G; [lia|].
  cbn [seq map]. change (vsum (f lo :: map f (seq (S lo) n))) with (f lo + vsum (map f (seq (S lo) n))).
  destruct (Nat.eq_dec lo k0) as [->|N].
  - enough (vsum (map f (seq (S k0) n)) = 0) by lra.
    pose proof (sum_range_zero f (S k0) (S k0 + n)) as Z. unfold sum_range in Z. replace (S k0 + n - S k0)%nat with n in Z by lia.
    apply Z. intros. apply H. lia.
  - rewrite (H lo N), (IH (S lo)) by lia. ring.
Qed.

(** ** The pixels of a tile *)
Definition slice_start rnd ax g i := axis_index rnd ax (line (size ax) g i * scale ax).

Lemma tile_intensity_eq rnd rows cols gy gx i j p : (i < gy)%nat -> (j < gx)%nat ->
  tile_intensity rnd rows cols gy gx i j p
  = Some (sum_range (fun y => sum_range (p y) (slice_start rnd cols gx j) (slice_start rnd cols gx (S j)))
            (slice_start rnd rows gy i) (slice_start rnd rows gy (S i))).
Proof.
  intros Hi Hj. unfold tile_intensity, roi_from_grid. cbn [map fst snd].
  rewrite (edges_eq (size cols) gx (scale cols) [j] j j), (edges_eq (size rows) gy (scale rows) [i] i i) by (auto; lia).
  reflexivity.
Qed.

Lemma counts_iff rnd rows cols gy gx i j y x : (i < gy)%nat -> (j < gx)%nat ->
  counts rnd rows cols gy gx i j y x
  <-> (slice_start rnd rows gy i <= y < slice_start rnd rows gy (S i))%nat
      /\ (slice_start rnd cols gx j <= x < slice_start rnd cols gx (S j))%nat.
Proof.
  intros Hi Hj. split.
  - intros (p & q & E & N). rewrite !tile_intensity_eq in N by assumption.
    set (y0 := slice_start rnd rows gy i) in *. set (y1 := slice_start rnd rows gy (S i)) in *.
    set (x0 := slice_start rnd cols gx j) in *. set (x1 := slice_start rnd cols gx (S j)) in *.
    destruct (le_lt_dec y0 y) as [A1|A1], (le_lt_dec y1 y) as [A2|A2], (le_lt_dec x0 x) as [A3|A3], (le_lt_dec x1 x) as [A4|A4];
      try (split; lia);
      (exfalso; apply N; f_equal; apply sum_range_ext; intros y' Hy'; apply sum_range_ext; intros x' Hx'; apply E; intros C;
       injection C as -> ->; lia).
  - intros [Hy Hx]. exists (fun y' x' => if (y' =? y)%nat && (x' =? x)%nat then 1 else 0), (fun _ _ => 0). split.
    + intros y' x' N. destruct (Nat.eqb_spec y' y) as [->|]; [|reflexivity]. destruct (Nat.eqb_spec x' x) as [->|]; [|reflexivity]. congruence.
    + rewrite !tile_intensity_eq by assumption. intros C. injection C as C.
      rewrite (sum_range_one _ y) in C; [|intros k Hk; apply sum_range_zero; intros k' _; destruct (Nat.eqb_spec k y); [congruence|reflexivity]|exact Hy].
      rewrite (sum_range_one _ x) in C; [|intros k Hk; destruct (Nat.eqb_spec k x); [congruence|now rewrite andb_false_r]|exact Hx].
      rewrite !Nat.eqb_refl in C. cbn [andb] in C.
      rewrite (sum_range_zero (fun _ => sum_range (fun _ => 0) _ _)) in C; [lra|]. intros. apply sum_range_zero. reflexivity.
Qed.

(** Where the pixels of a slice are. *)
Lemma index_le rnd ax v k : (k < size ax)%nat -> ((axis_index rnd ax v <= k)%nat <-> (rnd ((v - offset ax) / scale ax)%R <= Z.of_nat k)%Z).
Proof. intros Hk. unfold axis_index. lia. Qed.
Lemma index_gt rnd ax v k : (k < size ax)%nat -> ((k < axis_index rnd ax v)%nat <-> (Z.of_nat k < rnd ((v - offset ax) / scale ax)%R)%Z).
Proof. intros Hk. unfold axis_index. lia. Qed.

Lemma slice_lower rnd ax v k : nearest rnd -> 0 < scale ax -> (k < size ax)%nat ->
  ((axis_index rnd ax v <= k)%nat -> v - scale ax / 2 <= pixel_centre ax k)
  /\ (v - scale ax / 2 < pixel_centre ax k -> (axis_index rnd ax v <= k)%nat).
Proof.
  intros Hn Hd Hk. rewrite (index_le rnd ax v k Hk). unfold pixel_centre. set (u := (v - offset ax) / scale ax).
  assert (Ev : v = offset ax + u * scale ax) by (unfold u; field; lra). pose proof (Hn u) as B. rewrite INR_IZR_INZ. split.
  - intros H. apply IZR_le in H. assert (u - / 2 <= IZR (Z.of_nat k)) by lra.
    rewrite Ev. assert ((u - / 2) * scale ax <= IZR (Z.of_nat k) * scale ax) by (apply Rmult_le_compat_r; lra). lra.
  - intros H. assert (u - / 2 < IZR (Z.of_nat k)).
    { apply Rmult_lt_reg_r with (scale ax); [exact Hd|]. rewrite Ev in H. lra. }
    assert (IZR (rnd u) < IZR (Z.of_nat k + 1)) by (rewrite plus_IZR; lra). apply lt_IZR in H1. lia.
Qed.
Lemma slice_upper rnd ax v k : nearest rnd -> 0 < scale ax -> (k < size ax)%nat ->
  ((k < axis_index rnd ax v)%nat -> pixel_centre ax k <= v - scale ax / 2)
  /\ (pixel_centre ax k < v - scale ax / 2 -> (k < axis_index rnd ax v)%nat).
Proof.
  intros Hn Hd Hk. rewrite (index_gt rnd ax v k Hk). unfold pixel_centre. set (u := (v - offset ax) / scale ax).
  assert (Ev : v = offset ax + u * scale ax) by (unfold u; field; lra). pose proof (Hn u) as B. rewrite INR_IZR_INZ. split.
  - intros H. assert (H1 : (Z.of_nat k + 1 <= rnd u)%Z) by lia. apply IZR_le in H1. rewrite plus_IZR in H1.
    assert (IZR (Z.of_nat k) <= u - / 2) by lra.
    rewrite Ev. assert (IZR (Z.of_nat k) * scale ax <= (u - / 2) * scale ax) by (apply Rmult_le_compat_r; lra). lra.
  - intros H. assert (IZR (Z.of_nat k) < u - / 2).
    { apply Rmult_lt_reg_r with (scale ax); [exact Hd|]. rewrite Ev in H. lra. }
    apply lt_IZR. lra.
Qed.

(** ** The lines *)
Lemma grid_lines_length ax g : length (grid_lines ax g) = S g.
Proof. unfold grid_lines, linspace. now rewrite !map_length, seq_length. Qed.
Lemma grid_lines_nth ax g k : (1 <= g)%nat -> (k <= g)%nat ->
  nth_error (grid_lines ax g) k = Some (line (size ax) g k * scale ax - scale ax / 2).
Proof.
  intros Hg Hk. unfold grid_lines. erewrite map_nth_error by (now apply linspace_nth). f_equal. field.
Qed.

(** ** Tiles and texts *)
Lemma nth_error_removelast {A} (l : list A) k : (S k < length l)%nat -> nth_error (removelast l) k = nth_error l k.
Proof.
  revert k. induction l as [|a l IH]; intros k H; [cbn in H; lia|]. destruct l as [|b l]; [cbn in H; lia|].
  cbn [removelast]. destruct k; [reflexivity|]. cbn [nth_error]. apply IH. cbn in H |- *. lia.
Qed.
Lemma removelast_length {A} (l : list A) : length (removelast l) = (length l - 1)%nat.
Proof. induction l as [|a [|b l] IH]; [reflexivity|reflexivity|]. cbn [removelast length] in *. rewrite IH. lia. Qed.
Lemma linspace_length s g : length (linspace reals s g) = S g.
Proof. unfold linspace. now rewrite map_length, seq_length. Qed.

Lemma tile_rows_length rows cols gy gx : length (tile_coordinates rows cols gy gx) = gy.
Proof. unfold tile_coordinates. rewrite map_length, removelast_length, linspace_length. lia. Qed.
Lemma tile_row_eq rows cols gy gx i : (i < gy)%nat ->
  nth_error (tile_coordinates rows cols gy gx) i
  = Some (map (fun x => (x, line (size rows) gy i)) (removelast (linspace reals (size cols) gx))).
Proof.
  intros Hi. unfold tile_coordinates. erewrite map_nth_error; [reflexivity|].
  rewrite nth_error_removelast by (rewrite linspace_length; lia). apply linspace_nth; lia.
Qed.
Lemma tile_cell_eq cols gx j (y : R) : (j < gx)%nat ->
  nth_error (map (fun x => (x, y)) (removelast (linspace reals (size cols) gx))) j = Some (line (size cols) gx j, y).
Proof.
  intros Hj. erewrite map_nth_error; [reflexivity|].
  rewrite nth_error_removelast by (rewrite linspace_length; lia). apply linspace_nth; lia.
Qed.

Lemma wrapped_lt n k m : wrapped n k = Some m -> (m < n)%nat.
Proof. unfold wrapped. destruct (0 <=? k)%Z eqn:E1; [destruct (k <? Z.of_nat n)%Z eqn:E2|destruct (0 <=? k + Z.of_nat n)%Z eqn:E2]; intros H; try discriminate; injection H as <-; lia. Qed.
Lemma py_get_wrapped {A} (l : list A) k : py_get l k = match wrapped (length l) k with Some m => nth_error l m | None => None end.
Proof.
  unfold py_get, wrapped. destruct (0 <=? k)%Z eqn:E1.
  - destruct (k <? Z.of_nat (length l))%Z eqn:E2; [reflexivity|]. apply nth_error_None. lia.
  - destruct (0 <=? k + Z.of_nat (length l))%Z; reflexivity.
Qed.

(** The rectangle drawn for tile (i, j). *)
Definition tile_rectangle (rows cols : axis) (gy gx i j : nat) : rectangle :=
  let (h, w) := tile_shape rows cols gy gx in
  Rect (line (size cols) gx j + (- / 2 + INR h / 2)) (line (size rows) gy i + (- / 2 + INR w / 2)) (INR w) (INR h).

Lemma channel_rectangles_cons rows cols gy gx t l :
  channel_rectangles rows cols gy gx (t :: l)
  = match wrapped gy (fst t), wrapped gx (snd t), channel_rectangles rows cols gy gx l with
    | Some i, Some j, Some r => Some (tile_rectangle rows cols gy gx i j :: r)
    | _, _, _ => None
    end.
Proof.
  unfold channel_rectangles, tile_rectangle. destruct (tile_shape rows cols gy gx) as [h w]. cbn [fold_right].
  set (rest := fold_right _ _ _).
  rewrite py_get_wrapped, tile_rows_length. destruct (wrapped gy (fst t)) as [i|] eqn:Ei; [|reflexivity].
  rewrite tile_row_eq by (now apply wrapped_lt in Ei).
  rewrite py_get_wrapped, map_length, removelast_length, linspace_length. replace (S gx - 1)%nat with gx by lia.
  destruct (wrapped gx (snd t)) as [j|] eqn:Ej.
  - rewrite tile_cell_eq by (now apply wrapped_lt in Ej). now destruct rest.
  - now destruct rest.
Qed.

Lemma wrapped_nat n k : wrapped n (Z.of_nat k) = if (k <? n)%nat then Some k else None.
Proof.
  unfold wrapped. destruct (Z.leb_spec 0 (Z.of_nat k)); [|lia]. rewrite Nat2Z.id.
  destruct (Nat.ltb_spec k n), (Z.ltb_spec (Z.of_nat k) (Z.of_nat n)); auto; lia.
Qed.

(** ** Texts *)
Lemma concat_nth {A} (l : list (list A)) n i j : (forall r, In r l -> length r = n) -> (j < n)%nat ->
  nth_error (concat l) (i * n + j) = match nth_error l i with Some r => nth_error r j | None => None end.
Proof.
  intros H Hj. revert i. induction l as [|r l IH]; intros i.
  - cbn [concat]. destruct i; destruct (_ + _)%nat; reflexivity.
  - cbn [concat]. destruct i.
    + cbn [Nat.mul Nat.add nth_error]. rewrite nth_error_app1; [reflexivity|]. rewrite H by (now left). exact Hj.
    + rewrite nth_error_app2 by (rewrite (H r) by (now left); cbn [Nat.mul]; lia). rewrite (H r) by (now left).
      replace (S i * n + j - n)%nat with (i * n + j)%nat by (cbn [Nat.mul]; lia). cbn [nth_error]. apply IH. intros. apply H. now right.
Qed.
Lemma combine_nth {A B} (l : list A) (m : list B) k a b :
  nth_error l k = Some a -> nth_error m k = Some b -> nth_error (combine l m) k = Some (a, b).
Proof.
  revert m k. induction l as [|x l IH]; intros [|y m] [|k]; cbn; intros H1 H2; try discriminate; [congruence|]. now apply IH.
Qed.
Lemma list_prod_concat {A B} (l : list A) (m : list B) : list_prod l m = concat (map (fun a => map (fun b => (a, b)) m) l).
Proof. induction l as [|a l IH]; [reflexivity|]. cbn. now rewrite IH. Qed.

Lemma tile_texts_nth rows cols gy gx i j : (i < gy)%nat -> (j < gx)%nat ->
  nth_error (tile_texts rows cols gy gx) (i * gx + j) = Some ((line (size cols) gx j, line (size rows) gy i), (i, j)).
Proof.
  intros Hi Hj. unfold tile_texts. apply combine_nth.
  - rewrite concat_nth; [|intros r Hr; unfold tile_coordinates in Hr; apply in_map_iff in Hr; destruct Hr as (y & <- & _);
      rewrite map_length, removelast_length, linspace_length; lia|exact Hj].
    rewrite tile_row_eq by exact Hi. now apply tile_cell_eq.
  - unfold tile_labels. rewrite list_prod_concat, concat_nth; [|intros r Hr; apply in_map_iff in Hr; destruct Hr as (y & <- & _);
      now rewrite map_length, seq_length|exact Hj].
    assert (S1 : forall n k, (k < n)%nat -> nth_error (seq 0 n) k = Some k).
    { intros n k Hk. rewrite nth_error_nth' with (d := 0%nat) by (now rewrite seq_length). now rewrite seq_nth. }
    erewrite map_nth_error by (now apply S1). erewrite map_nth_error by (now apply S1). reflexivity.
Qed.
Lemma tile_texts_length rows cols gy gx : length (tile_texts rows cols gy gx) = (gy * gx)%nat.
Proof.
  unfold tile_texts. rewrite combine_length. unfold tile_labels. rewrite prod_length, !seq_length.
  enough (E : length (concat (tile_coordinates rows cols gy gx)) = (gy * gx)%nat) by (rewrite E; apply Nat.min_id).
  rewrite <- (tile_rows_length rows cols gy gx) at 2.
  assert (G : forall r, In r (tile_coordinates rows cols gy gx) -> length r = gx).
  { intros r Hr. unfold tile_coordinates in Hr. apply in_map_iff in Hr. destruct Hr as (y & <- & _).
    rewrite map_length, removelast_length, linspace_length. lia. }
  induction (tile_coordinates rows cols gy gx) as [|r l IH]; [reflexivity|]. cbn [concat length Nat.mul].
  rewrite app_length, IH by (intros; apply G; now right). now rewrite (G r) by (now left).
Qed.

(** One tile. *)
Lemma drawn_single rows cols gy gx i j : (i < gy)%nat -> (j < gx)%nat ->
  drawn_for_tile rows cols gy gx i j (tile_rectangle rows cols gy gx i j).
Proof.
  intros Hi Hj. unfold drawn_for_tile, plot_grid. cbn [channels]. rewrite channel_rectangles_cons. cbn [tile_of fst snd].
  rewrite !wrapped_nat. destruct (Nat.ltb_spec i gy); [|lia]. destruct (Nat.ltb_spec j gx); [|lia].
  unfold channel_rectangles. destruct (tile_shape rows cols gy gx) eqn:ET. cbn [fold_right]. eexists. split; reflexivity.
Qed.
