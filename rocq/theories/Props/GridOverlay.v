(** What plot_grid draws: property C94. *)
From Coq Require Import List Arith ZArith Bool Reals Lra Lia.
From Verif Require Import Model.Pattern Model.VirtualGrid Model.GridOverlay Spec.Tiles Spec.GridOverlaySpec
  Proofs.VirtualGridProofs Proofs.GridOverlayProofs.
Import ListNotations.
Local Open Scope R_scope.

(** ** The lines *)

(** For every detector, grid, scale and offset of the axes: between the lines i and i + 1, and j and j + 1, lie the
    centres of the pixels that count in the virtual image of tile (i, j).  A centre may lie on a line. *)
Theorem C94_tiles_between_their_lines rnd rows cols gy gx visible rgb o i j :
  nearest rnd -> 0 < scale rows -> 0 < scale cols -> (i < gy)%nat -> (j < gx)%nat ->
  plot_grid rows cols gy gx visible rgb = Drawn o ->
  exists top bottom left right,
    nth_error (horizontal o) i = Some top /\ nth_error (horizontal o) (S i) = Some bottom
    /\ nth_error (vertical o) j = Some left /\ nth_error (vertical o) (S j) = Some right
    /\ forall y x, (y < size rows)%nat -> (x < size cols)%nat ->
       (counts rnd rows cols gy gx i j y x ->
          top <= pixel_centre rows y <= bottom /\ left <= pixel_centre cols x <= right)
       /\ (top < pixel_centre rows y < bottom -> left < pixel_centre cols x < right ->
           counts rnd rows cols gy gx i j y x).
Proof.
  intros Hn Hr Hc Hi Hj E. unfold plot_grid in E. destruct (channels _ _ _ _ _ _); [|discriminate]. injection E as <-.
  cbn [horizontal vertical]. do 4 eexists.
  split; [apply grid_lines_nth; lia|]. split; [apply grid_lines_nth; lia|]. split; [apply grid_lines_nth; lia|]. split; [apply grid_lines_nth; lia|].
  intros y x Hy Hx. rewrite counts_iff by assumption. unfold slice_start.
  destruct (slice_lower rnd rows (line (size rows) gy i * scale rows) y Hn Hr Hy) as [A1 A2].
  destruct (slice_upper rnd rows (line (size rows) gy (S i) * scale rows) y Hn Hr Hy) as [B1 B2].
  destruct (slice_lower rnd cols (line (size cols) gx j * scale cols) x Hn Hc Hx) as [C1 C2].
  destruct (slice_upper rnd cols (line (size cols) gx (S j) * scale cols) x Hn Hc Hx) as [D1 D2].
  split.
  - intros [[? ?] [? ?]]. repeat split; auto.
  - intros [? ?] [? ?]. repeat split; auto.
Qed.

(** There is one line more than there are tiles; without an offset the outer lines are the edges of the image,
    half a pixel outside the centres of the first and last pixels. *)
Theorem C94_outer_lines rows cols gy gx visible rgb o :
  (1 <= gy)%nat -> (1 <= gx)%nat -> offset rows = 0 -> offset cols = 0 ->
  (1 <= size rows)%nat -> (1 <= size cols)%nat ->
  plot_grid rows cols gy gx visible rgb = Drawn o ->
  length (horizontal o) = S gy /\ length (vertical o) = S gx
  /\ nth_error (horizontal o) 0 = Some (pixel_centre rows 0 - scale rows / 2)
  /\ nth_error (horizontal o) gy = Some (pixel_centre rows (size rows - 1) + scale rows / 2)
  /\ nth_error (vertical o) 0 = Some (pixel_centre cols 0 - scale cols / 2)
  /\ nth_error (vertical o) gx = Some (pixel_centre cols (size cols - 1) + scale cols / 2).
Proof.
  intros Hy Hx Or Oc Sr Sc E. unfold plot_grid in E. destruct (channels _ _ _ _ _ _); [|discriminate]. injection E as <-.
  cbn [horizontal vertical]. rewrite !grid_lines_length. split; [reflexivity|]. split; [reflexivity|].
  rewrite !grid_lines_nth by lia. rewrite !line_0, !line_g by assumption. unfold pixel_centre. rewrite Or, Oc.
  rewrite !minus_INR by assumption. change (INR 1) with 1. change (INR 0) with 0.
  repeat split; f_equal; field.
Qed.

(** ** The coloured rectangles *)

Lemma line_div g t k : (1 <= g)%nat -> line (g * t) g k = INR (k * t).
Proof. intros. unfold line. rewrite !mult_INR. field. apply not_0_INR. lia. Qed.
Lemma slice_div rnd g t k : rounding rnd -> (1 <= g)%nat -> (k <= g)%nat ->
  slice_start rnd (Axis (g * t) 1 0) g k = (k * t)%nat.
Proof.
  intros [Hi _] Hg Hk. unfold slice_start, axis_index. cbn [size scale offset]. rewrite line_div by assumption.
  replace ((INR (k * t) * 1 - 0) / 1) with (INR (k * t)) by field. rewrite INR_IZR_INZ, Hi.
  assert (k * t <= g * t)%nat by (apply Nat.mul_le_mono_r; lia). lia.
Qed.

(** The rectangles are those of the tiles asked for, in their order, in the colour of their channel; and the
    channels are refused if and only if a tile is not in the grid, in the name of the first such channel. *)
Theorem C94_channels rows cols gy gx visible rgb :
  match plot_grid rows cols gy gx visible rgb with
  | Drawn o =>
      length (coloured o) = length rgb
      /\ forall k c, nth_error rgb k = Some c ->
         exists rects, nth_error (coloured o) k = Some rects
           /\ Forall2 (fun t r => exists i j, wrapped gy (fst t) = Some i /\ wrapped gx (snd t) = Some j
                                  /\ drawn_for_tile rows cols gy gx i j r) c rects
  | NotInGrid k =>
      (exists c t, nth_error rgb k = Some c /\ In t c /\ (wrapped gy (fst t) = None \/ wrapped gx (snd t) = None))
      /\ forall k' c t, (k' < k)%nat -> nth_error rgb k' = Some c -> In t c ->
         wrapped gy (fst t) <> None /\ wrapped gx (snd t) <> None
  end.
Proof.
  assert (One : forall c, match channel_rectangles rows cols gy gx c with
    | Some r => exists tiles, Forall2 (fun t ij => wrapped gy (fst t) = Some (fst ij) /\ wrapped gx (snd t) = Some (snd ij)) c tiles
                /\ r = map (fun ij => tile_rectangle rows cols gy gx (fst ij) (snd ij)) tiles
    | None => exists t, In t c /\ (wrapped gy (fst t) = None \/ wrapped gx (snd t) = None) end).
  { induction c as [|t c IH].
    - unfold channel_rectangles. destruct (tile_shape rows cols gy gx). exists []. split; [constructor|reflexivity].
    - rewrite channel_rectangles_cons. destruct (wrapped gy (fst t)) as [i|] eqn:Ei; [|exists t; split; [now left|auto]].
      destruct (wrapped gx (snd t)) as [j|] eqn:Ej; [|exists t; split; [now left|auto]].
      destruct (channel_rectangles rows cols gy gx c) as [r|].
      + destruct IH as (tiles & F & ->). exists ((i, j) :: tiles). split; [constructor; auto|reflexivity].
      + destruct IH as (t' & I & D). exists t'. split; [now right|exact D]. }
  assert (Some2 : forall c r t, channel_rectangles rows cols gy gx c = Some r -> In t c -> wrapped gy (fst t) <> None /\ wrapped gx (snd t) <> None).
  { intros c r t E I. specialize (One c). rewrite E in One. destruct One as (tiles & F & _). clear E. induction F as [|t' ij c' l [W1 W2] F IH]; [destruct I|].
    destruct I as [->|I]; [split; congruence|auto]. }
  unfold plot_grid.
  assert (G : forall rgb k, match channels rows cols gy gx k rgb with
    | inl l => length l = length rgb /\ forall n c, nth_error rgb n = Some c ->
         exists rects tiles, nth_error l n = Some rects
           /\ Forall2 (fun t ij => wrapped gy (fst t) = Some (fst ij) /\ wrapped gx (snd t) = Some (snd ij)) c tiles
           /\ rects = map (fun ij => tile_rectangle rows cols gy gx (fst ij) (snd ij)) tiles
    | inr e => (k <= e)%nat /\ (exists c t, nth_error rgb (e - k) = Some c /\ In t c /\ (wrapped gy (fst t) = None \/ wrapped gx (snd t) = None))
      /\ forall k' c t, (k' < e - k)%nat -> nth_error rgb k' = Some c -> In t c ->
         wrapped gy (fst t) <> None /\ wrapped gx (snd t) <> None end).
  { clear rgb. induction rgb as [|c rgb IH]; intros k; cbn [channels].
    - split; [reflexivity|]. intros [|n] c' H; discriminate.
    - pose proof (One c) as O. destruct (channel_rectangles rows cols gy gx c) as [r|] eqn:Ec.
      + specialize (IH (S k)). destruct (channels rows cols gy gx (S k) rgb) as [l|e].
        * destruct IH as [IH1 IH2]. split; [cbn; now rewrite IH1|]. intros [|n] c' H; cbn [nth_error] in *.
          -- injection H as <-. destruct O as (tiles & F & ->). do 2 eexists. split; [reflexivity|]. split; [exact F|reflexivity].
          -- now apply IH2.
        * destruct IH as (L & (c' & t & N & I & D) & B). split; [lia|]. replace (e - k)%nat with (S (e - S k)) by lia. split.
          -- exists c', t. cbn [nth_error]. auto.
          -- intros [|k'] c0 t0 Hk H I0; cbn [nth_error] in H.
             ++ injection H as <-. now apply (Some2 _ _ _ Ec).
             ++ apply (B k' c0 t0); auto. lia.
      + destruct O as (t & I & D). split; [lia|]. rewrite Nat.sub_diag. split; [exists c, t; auto|]. intros; lia. }
  specialize (G rgb 0%nat). destruct (channels rows cols gy gx 0 rgb) as [l|e].
  - cbn [coloured]. destruct G as [G1 G2]. split; [exact G1|]. intros k c H. destruct (G2 k c H) as (rects & tiles & N & F & ->).
    eexists. split; [exact N|]. clear N H. induction F as [|t [i j] c' tl [W1 W2] F IH]; cbn [map]; constructor; auto.
    cbn [fst snd] in *. exists i, j. split; [exact W1|]. split; [exact W2|]. apply drawn_single; eapply wrapped_lt; eassumption.
  - rewrite Nat.sub_0_r in G. split; apply G.
Qed.

(** If the tiles are squares of t x t pixels and the axes have scale 1 and offset 0, the rectangle of a tile
    outlines exactly the pixels of its virtual image. *)
Theorem C94_square_tiles_outlined rnd gy gx t visible i j o :
  rounding rnd -> (1 <= t)%nat -> (i < gy)%nat -> (j < gx)%nat ->
  let rows := Axis (gy * t) 1 0 in
  let cols := Axis (gx * t) 1 0 in
  plot_grid rows cols gy gx visible [[tile_of (i, j)]] = Drawn o ->
  exists r, coloured o = [[r]] /\ outlines rnd rows cols gy gx i j r.
Proof.
  intros Hr Ht Hi Hj rows cols E. unfold plot_grid in E. cbn [channels] in E.
  rewrite channel_rectangles_cons in E. cbn [tile_of fst snd] in E. rewrite !wrapped_nat in E.
  destruct (Nat.ltb_spec i gy); [|lia]. destruct (Nat.ltb_spec j gx); [|lia].
  unfold channel_rectangles in E. destruct (tile_shape rows cols gy gx) eqn:ET. cbn [fold_right] in E. injection E as <-.
  cbn [coloured]. eexists. split; [reflexivity|]. intros y x Hy Hx. cbn [rows cols size] in Hy, Hx.
  rewrite counts_iff by assumption. unfold rows, cols. rewrite !slice_div by (auto; lia).
  unfold pixel_within, pixel_beside, tile_rectangle, tile_shape, pixel_centre. cbn [size scale offset centre_x centre_y width height].
  replace (gy * t / gy)%nat with t by (rewrite Nat.mul_comm, Nat.div_mul; lia).
  replace (gx * t / gx)%nat with t by (rewrite Nat.mul_comm, Nat.div_mul; lia).
  cbn [centre_x centre_y width height]. rewrite !line_div by lia.
  assert (Le : forall a b, (a <= b)%nat -> INR a <= INR b) by (intros; now apply le_INR).
  assert (S1 : forall k, INR (S k * t) = INR (k * t) + INR t) by (intros; rewrite <- plus_INR; f_equal; lia).
  split.
  - intros [[Y1 Y2] [X1 X2]]. apply (le_INR (S y)) in Y2. apply (le_INR (S x)) in X2. apply Le in Y1, X1.
    rewrite S1, S_INR in Y2, X2. repeat split; lra.
  - intros N. destruct (le_lt_dec (j * t) x) as [A|A].
    2: { left. apply (le_INR (S x)) in A. rewrite S_INR in A. lra. }
    destruct (le_lt_dec (S j * t) x) as [B|B].
    { right. left. apply Le in B. rewrite S1 in B. lra. }
    destruct (le_lt_dec (i * t) y) as [C|C].
    2: { right. right. left. apply (le_INR (S y)) in C. rewrite S_INR in C. lra. }
    destruct (le_lt_dec (S i * t) y) as [D|D]; [|exfalso; apply N; lia].
    right. right. right. apply Le in D. rewrite S1 in D. lra.
Qed.

(** If the tiles are not squares (but the grid divides the detector, scale 1, offset 0), no rectangle outlines its
    tile: every one is moved by half the difference of height and width, right and up or left and down. *)
Theorem C94_oblong_tiles_refuted rnd gy gx h w visible i j o :
  rounding rnd -> (1 <= h)%nat -> (1 <= w)%nat -> h <> w -> (i < gy)%nat -> (j < gx)%nat ->
  let rows := Axis (gy * h) 1 0 in
  let cols := Axis (gx * w) 1 0 in
  plot_grid rows cols gy gx visible [[tile_of (i, j)]] = Drawn o ->
  exists r, coloured o = [[r]]
    /\ centre_x r = (pixel_centre cols (j * w) + pixel_centre cols (S j * w - 1)) / 2 + (INR h - INR w) / 2
    /\ centre_y r = (pixel_centre rows (i * h) + pixel_centre rows (S i * h - 1)) / 2 + (INR w - INR h) / 2
    /\ width r = INR w /\ height r = INR h
    /\ ~ outlines rnd rows cols gy gx i j r.
Proof.
  intros Hr Hh Hw Hne Hi Hj rows cols E. unfold plot_grid in E. cbn [channels] in E.
  rewrite channel_rectangles_cons in E. cbn [tile_of fst snd] in E. rewrite !wrapped_nat in E.
  destruct (Nat.ltb_spec i gy); [|lia]. destruct (Nat.ltb_spec j gx); [|lia].
  unfold channel_rectangles in E. destruct (tile_shape rows cols gy gx) eqn:ET. cbn [fold_right] in E. injection E as <-.
  cbn [coloured]. eexists. split; [reflexivity|].
  unfold tile_rectangle, tile_shape, outlines, pixel_within, pixel_centre. cbn [rows cols size scale offset].
  replace (gy * h / gy)%nat with h by (rewrite Nat.mul_comm, Nat.div_mul; lia).
  replace (gx * w / gx)%nat with w by (rewrite Nat.mul_comm, Nat.div_mul; lia).
  cbn [centre_x centre_y width height]. rewrite !line_div by lia.
  assert (S1 : forall k t, (1 <= t)%nat -> INR (S k * t - 1) = INR (k * t) + INR t - 1).
  { intros k t Ht. rewrite <- plus_INR, minus_INR by lia. change (INR 1) with 1. f_equal. f_equal. lia. }
  rewrite !S1 by assumption.
  split; [lra|]. split; [lra|]. split; [reflexivity|]. split; [reflexivity|].
  intros H1. assert (By : (S i * h <= gy * h)%nat) by (apply Nat.mul_le_mono_r; lia). assert (Bx : (S j * w <= gx * w)%nat) by (apply Nat.mul_le_mono_r; lia).
  destruct (H1 (i * h)%nat (j * w)%nat) as [H2 _]; [lia|lia|].
  destruct H2 as (W1 & W2 & W3 & W4).
  { unfold rows, cols. apply counts_iff; auto. rewrite !slice_div by (auto; lia). lia. }
  assert (INR h <> INR w) by (intros C; apply Hne; now apply INR_eq). lra.
Qed.

(** If the scale of the axes is not 1, the rectangles do not outline the tiles, square or not: they are drawn in
    pixels, not in the units of the axes.  Here the first tile, with another one beside it. *)
Theorem C94_scaled_axes_refuted rnd gy gx t d visible o :
  rounding rnd -> (1 <= t)%nat -> (1 <= gy)%nat -> (2 <= gx)%nat -> 0 < d -> d <> 1 ->
  let rows := Axis (gy * t) d 0 in
  let cols := Axis (gx * t) d 0 in
  plot_grid rows cols gy gx visible [[tile_of (0, 0)%nat]] = Drawn o ->
  exists r, coloured o = [[r]] /\ ~ outlines rnd rows cols gy gx 0 0 r.
Proof.
  intros Hr Ht Hy Hx Hd Hne rows cols E. unfold plot_grid in E. cbn [channels] in E.
  rewrite channel_rectangles_cons in E. cbn [tile_of fst snd] in E. rewrite !wrapped_nat in E.
  destruct (Nat.ltb_spec 0 gy); [|lia]. destruct (Nat.ltb_spec 0 gx); [|lia].
  unfold channel_rectangles in E. destruct (tile_shape rows cols gy gx) eqn:ET. cbn [fold_right] in E. injection E as <-.
  cbn [coloured]. eexists. split; [reflexivity|].
  assert (SL : forall g k, (1 <= g)%nat -> (k <= g)%nat -> slice_start rnd (Axis (g * t) d 0) g k = (k * t)%nat).
  { intros g k Hg Hk. unfold slice_start, axis_index. cbn [size scale offset]. rewrite line_div by assumption.
    replace ((INR (k * t) * d - 0) / d) with (INR (k * t)) by (field; lra). destruct Hr as [Hi _]. rewrite INR_IZR_INZ, Hi.
    assert (k * t <= g * t)%nat by (apply Nat.mul_le_mono_r; lia). lia. }
  unfold tile_rectangle, tile_shape, outlines. cbn [rows cols size].
  replace (gy * t / gy)%nat with t by (rewrite Nat.mul_comm, Nat.div_mul; lia).
  replace (gx * t / gx)%nat with t by (rewrite Nat.mul_comm, Nat.div_mul; lia).
  intros H1. assert (Gy : (1 * t <= gy * t)%nat) by (apply Nat.mul_le_mono_r; lia). assert (Gx : (2 * t <= gx * t)%nat) by (apply Nat.mul_le_mono_r; lia).
  assert (T1 : 1 <= INR t) by (change 1 with (INR 1); now apply le_INR).
  destruct (Rlt_le_dec 1 d) as [D|D].
  - destruct (H1 0%nat 0%nat) as [H2 _]; [lia|lia|]. destruct H2 as (W1 & _).
    { unfold rows, cols. apply counts_iff; try lia. rewrite !SL by lia. lia. }
    unfold pixel_centre, cols in W1. cbn [scale offset centre_x width] in W1. rewrite line_0 in W1. change (INR 0) with 0 in W1. lra.
  - destruct (H1 0%nat t) as [_ H2]; [lia|lia|]. destruct H2 as [W|[W|[W|W]]].
    { unfold rows, cols. rewrite counts_iff by lia. rewrite !SL by lia. lia. }
    all: unfold pixel_centre, rows, cols in W; cbn [scale offset centre_x centre_y width height] in W; rewrite ?line_0 in W; change (INR 0) with 0 in W.
    + assert (0 < INR t * d) by (apply Rmult_lt_0_compat; lra). lra.
    + assert (INR t * d - d / 2 = (INR t - / 2) * d) by field.
      assert ((INR t - / 2) * d < (INR t - / 2) * 1) by (apply Rmult_lt_compat_l; lra). lra.
    + lra.
    + lra.
Qed.

(** If the grid does not divide the detector, the rectangle of a tile of the last column leaves out part of it, as
    the size of the tiles is rounded down (scale 1, offset 0; tiles as high as wide after rounding). *)
Theorem C94_indivisible_detector_refuted rnd ny nx gy gx visible i o :
  rounding rnd -> nearest rnd -> (1 <= gy <= ny)%nat -> (1 <= gx <= nx)%nat -> (ny / gy = nx / gx)%nat -> (nx mod gx <> 0)%nat -> (i < gy)%nat ->
  let rows := Axis ny 1 0 in
  let cols := Axis nx 1 0 in
  plot_grid rows cols gy gx visible [[tile_of (i, gx - 1)%nat]] = Drawn o ->
  exists r, coloured o = [[r]] /\ ~ outlines rnd rows cols gy gx i (gx - 1) r.
Proof.
  intros Hr Hn Hy Hx Hs Hm Hi rows cols E. unfold plot_grid in E. cbn [channels] in E.
  rewrite channel_rectangles_cons in E. cbn [tile_of fst snd] in E. rewrite !wrapped_nat in E.
  destruct (Nat.ltb_spec i gy); [|lia]. destruct (Nat.ltb_spec (gx - 1) gx); [|lia].
  unfold channel_rectangles in E. destruct (tile_shape rows cols gy gx) eqn:ET. cbn [fold_right] in E. injection E as <-.
  cbn [coloured]. eexists. split; [reflexivity|].
  intros H1.
  assert (SC : forall s g k, slice_start rnd (Axis s 1 0) g k = cut_at rnd s g k).
  { intros. unfold slice_start. cbn [size scale]. now rewrite axis_index_cut by lra. }
  assert (G0 : 0 < INR gx) by (apply lt_0_INR; lia). assert (G1 : 0 < INR gy) by (apply lt_0_INR; lia).
  assert (Step : forall s g k, (1 <= g <= s)%nat -> line s g k + 1 <= line s g (S k)).
  { intros s g k Hg. rewrite <- line_succ. enough (1 <= line s g 1) by lra. unfold line. rewrite Rmult_1_l.
    assert (0 < INR g) by (apply lt_0_INR; lia). assert (INR g <= INR s) by (apply le_INR; lia).
    apply Rmult_le_reg_r with (INR g); [lra|]. unfold Rdiv. rewrite Rmult_assoc, Rinv_l by lra. lra. }
  assert (NE : forall s g k, (1 <= g <= s)%nat -> (k < g)%nat -> (cut_at rnd s g k < cut_at rnd s g (S k))%nat).
  { intros s g k Hg Hk. pose proof (cut_unclamped rnd s g k ltac:(lia) ltac:(lia) Hr) as U1.
    pose proof (cut_unclamped rnd s g (S k) ltac:(lia) ltac:(lia) Hr) as U2.
    destruct Hr as [Ri Rm]. specialize (Step s g k Hg).
    (* rnd (l) < rnd (l + 1) for nearest, order-keeping rounding: between them lies an integer at distance < 1/2 or l is half way *)
    pose proof (Hn (line s g k)) as N1. pose proof (Hn (line s g (S k))) as N2.
    destruct (Req_dec (INR s / INR g) 1) as [Q|Q].
    - assert (I : forall m, line s g m = IZR (Z.of_nat m)) by (intros m; unfold line; rewrite Q, Rmult_1_r; apply INR_IZR_INZ).
      rewrite !I, !Ri in *. lia.
    - assert (St : line s g k + 1 < line s g (S k)).
      { destruct Step as [?|Q2]; [lra|]. exfalso. apply Q. rewrite <- line_succ in Q2. unfold line in Q2 at 3. change (INR 1) with 1 in Q2. lra. }
      assert (IZR (rnd (line s g k)) < IZR (rnd (line s g (S k)))) by lra. apply lt_IZR in H2. lia. }
  assert (Cy : (cut_at rnd ny gy (S i) <= ny)%nat) by (unfold cut_at; lia).
  pose proof (NE ny gy i Hy Hi) as Ny. pose proof (NE nx gx (gx - 1)%nat Hx ltac:(lia)) as Nx.
  replace (S (gx - 1)) with gx in Nx by lia. rewrite cut_g in Nx by (auto; lia).
  destruct (H1 (cut_at rnd ny gy i) (nx - 1)%nat) as [H2 _]; [cbn; lia|cbn; lia|].
  destruct H2 as (_ & W & _).
  { unfold rows, cols. apply counts_iff; auto; try lia. rewrite !SC. replace (S (gx - 1)) with gx by lia. rewrite cut_g by (auto; lia). lia. }
  unfold tile_rectangle, tile_shape, pixel_centre in W. cbn [rows cols size scale offset centre_x width] in W.
  rewrite Hs in W. rewrite minus_INR in W by lia. change (INR 1) with 1 in W.
  assert (L : line nx gx (gx - 1) = INR nx - INR nx / INR gx).
  { unfold line. rewrite minus_INR by lia. change (INR 1) with 1. field. lra. }
  rewrite L in W.
  assert (D : INR (nx / gx) < INR nx / INR gx).
  { apply Rmult_lt_reg_r with (INR gx); [lra|]. unfold Rdiv. rewrite Rmult_assoc, Rinv_l by lra. rewrite Rmult_1_r, <- mult_INR. apply lt_INR.
    pose proof (Nat.div_mod nx gx ltac:(lia)). rewrite Nat.mul_comm. lia. }
  lra.
Qed.

(** ** The labels *)

(** Every tile has one label, in reading order. *)
Theorem C94_one_label_per_tile rows cols gy gx rgb o :
  plot_grid rows cols gy gx true rgb = Drawn o ->
  length (texts o) = (gy * gx)%nat
  /\ (forall i j, (i < gy)%nat -> (j < gx)%nat -> exists at_, nth_error (texts o) (i * gx + j) = Some (at_, (i, j))).
Proof.
  intros E. unfold plot_grid in E. destruct (channels _ _ _ _ _ _); [|discriminate]. injection E as <-. cbn [texts].
  split; [apply tile_texts_length|]. intros i j Hi Hj. eexists. now apply tile_texts_nth.
Qed.

(** With axes of scale 1, and a grid not larger than the detector, the label of a tile starts between the lines
    of the tile. *)
Theorem C94_labels_in_their_tiles rows cols gy gx rgb o i j :
  scale rows = 1 -> scale cols = 1 -> (gy <= size rows)%nat -> (gx <= size cols)%nat -> (i < gy)%nat -> (j < gx)%nat ->
  plot_grid rows cols gy gx true rgb = Drawn o ->
  exists x y top bottom left right,
    In ((x, y), (i, j)) (texts o)
    /\ nth_error (horizontal o) i = Some top /\ nth_error (horizontal o) (S i) = Some bottom
    /\ nth_error (vertical o) j = Some left /\ nth_error (vertical o) (S j) = Some right
    /\ top < y < bottom /\ left < x < right.
Proof.
  intros Er Ec Hy Hx Hi Hj E. unfold plot_grid in E. destruct (channels _ _ _ _ _ _); [|discriminate]. injection E as <-.
  cbn [texts horizontal vertical]. do 6 eexists.
  split; [eapply nth_error_In; apply (tile_texts_nth rows cols gy gx i j Hi Hj)|].
  split; [apply grid_lines_nth; lia|]. split; [apply grid_lines_nth; lia|]. split; [apply grid_lines_nth; lia|]. split; [apply grid_lines_nth; lia|].
  rewrite Er, Ec.
  assert (Step : forall s g k, (1 <= g <= s)%nat -> line s g k + 1 <= line s g (S k)).
  { intros s g k Hg. rewrite <- line_succ. enough (1 <= line s g 1) by lra. unfold line. rewrite Rmult_1_l.
    assert (0 < INR g) by (apply lt_0_INR; lia). assert (INR g <= INR s) by (apply le_INR; lia).
    apply Rmult_le_reg_r with (INR g); [lra|]. unfold Rdiv. rewrite Rmult_assoc, Rinv_l by lra. lra. }
  pose proof (Step (size rows) gy i ltac:(lia)). pose proof (Step (size cols) gx j ltac:(lia)). lra.
Qed.

(** With axes of a scale above 2 the label of every tile but those of the first column is left of its tile: the
    labels are placed in pixels too. *)
Theorem C94_labels_of_scaled_axes_refuted rows cols gy gx rgb o i j :
  2 < scale cols -> (gx <= size cols)%nat -> (i < gy)%nat -> (1 <= j < gx)%nat ->
  plot_grid rows cols gy gx true rgb = Drawn o ->
  exists left, nth_error (vertical o) j = Some left
    /\ forall x y, nth_error (texts o) (i * gx + j) = Some ((x, y), (i, j)) -> x < left.
Proof.
  intros Hs Hx Hi Hj E. unfold plot_grid in E. destruct (channels _ _ _ _ _ _); [|discriminate]. injection E as <-.
  cbn [texts vertical]. eexists. split; [apply grid_lines_nth; lia|]. intros x y H. rewrite tile_texts_nth in H by lia. injection H as <- _.
  assert (L : 1 <= line (size cols) gx j).
  { unfold line. assert (0 < INR gx) by (apply lt_0_INR; lia). assert (INR gx <= INR (size cols)) by (apply le_INR; lia).
    assert (1 <= INR j) by (change 1 with (INR 1); apply le_INR; lia).
    assert (1 <= INR (size cols) / INR gx) by (apply Rmult_le_reg_r with (INR gx); [lra|]; unfold Rdiv; rewrite Rmult_assoc, Rinv_l by lra; lra).
    replace 1 with (1 * 1) by ring. apply Rmult_le_compat; lra. }
  set (lj := line (size cols) gx j) in *. assert ((lj - / 2) * 2 < (lj - / 2) * scale cols) by (apply Rmult_lt_compat_l; lra). lra.
Qed.

(** ** Negative indices *)

(** The index -1 colours a tile of the last row or column, but as the index of a region of interest it stands
    for the far edge of the detector: no pixel is right of where that region begins. *)
Theorem C94_negative_index_refuted rows cols gy gx visible o x :
  (1 <= gy)%nat -> (1 <= gx)%nat -> 0 < scale cols -> offset cols = 0 -> (x < size cols)%nat ->
  plot_grid rows cols gy gx visible [[(-1, -1)%Z]] = Drawn o ->
  (exists r, coloured o = [[r]] /\ drawn_for_tile rows cols gy gx (gy - 1) (gx - 1) r)
  /\ exists left, region_start cols gx (-1) = Some left /\ pixel_centre cols x < left.
Proof.
  intros Hy Hx Hs Ho Hk E. unfold plot_grid in E. cbn [channels] in E. rewrite channel_rectangles_cons in E. cbn [fst snd] in E.
  assert (W : forall g, (1 <= g)%nat -> wrapped g (-1) = Some (g - 1)%nat).
  { intros g Hg. unfold wrapped. cbn [Z.leb Z.compare]. destruct (0 <=? -1 + Z.of_nat g)%Z eqn:E2; [f_equal; lia|lia]. }
  rewrite !W in E by assumption. unfold channel_rectangles in E. destruct (tile_shape rows cols gy gx). cbn [fold_right] in E.
  injection E as <-. cbn [coloured]. split; [eexists; split; [reflexivity|]; apply drawn_single; lia|].
  unfold region_start. rewrite py_get_wrapped, linspace_length, W by lia. replace (S gx - 1)%nat with gx by lia.
  rewrite linspace_nth by lia. cbn [option_map]. eexists. split; [reflexivity|]. rewrite line_g by assumption.
  unfold pixel_centre. rewrite Ho. assert (INR x < INR (size cols)) by (now apply lt_INR).
  assert (INR x * scale cols < INR (size cols) * scale cols) by (now apply Rmult_lt_compat_r). lra.
Qed.

(** ** Cases *)
Example C94_case : exists o,
  plot_grid (Axis 60 1 0) (Axis 60 1 0) 5 5 true [[tile_of (1, 2)%nat]; [tile_of (0, 0)%nat; (-1, -1)%Z]; [tile_of (4, 4)%nat]] = Drawn o
  /\ length (horizontal o) = 6%nat /\ length (texts o) = 25%nat
  /\ map (@length _) (coloured o) = [1; 2; 1]%nat.
Proof.
  eexists. split; [unfold plot_grid; cbn [channels]; rewrite !channel_rectangles_cons; reflexivity|]. cbn [horizontal texts coloured].
  rewrite grid_lines_length, tile_texts_length. repeat split.
Qed.
Example C94_refused : plot_grid (Axis 60 1 0) (Axis 60 1 0) 5 5 true [[tile_of (1, 2)%nat]; [tile_of (0, 5)%nat]] = NotInGrid 1.
Proof. unfold plot_grid. cbn [channels]. rewrite !channel_rectangles_cons. reflexivity. Qed.
(** 4 x 5 tiles of 15 x 12 pixels on a detector of 60 x 60 pixels. *)
Example C94_oblong_case : exists o, plot_grid (Axis (4 * 15) 1 0) (Axis (5 * 12) 1 0) 4 5 false [[tile_of (1, 2)%nat]] = Drawn o
  /\ coloured o = [[Rect (24 + 7) (15 + 11 / 2) 12 15]].
Proof.
  eexists. split; [unfold plot_grid; cbn [channels]; rewrite !channel_rectangles_cons; reflexivity|]. cbn [coloured].
  unfold tile_rectangle, tile_shape. cbn [size]. change (4 * 15 / 4)%nat with 15%nat. change (5 * 12 / 5)%nat with 12%nat.
  rewrite !line_div by lia. change (Z.to_nat (snd (tile_of (1%nat, 2%nat))) * 12)%nat with 24%nat. change (Z.to_nat (fst (tile_of (1%nat, 2%nat))) * 15)%nat with 15%nat.
  replace (INR 24) with 24 by (rewrite INR_IZR_INZ; reflexivity). replace (INR 15) with 15 by (rewrite INR_IZR_INZ; reflexivity).
  replace (INR 12) with 12 by (rewrite INR_IZR_INZ; reflexivity). do 2 f_equal. f_equal; lra.
Qed.

Print Assumptions C94_tiles_between_their_lines.
Print Assumptions C94_indivisible_detector_refuted.
