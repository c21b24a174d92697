(** Calibrations, step sizes and saved maps: property C93. *)
From Coq Require Import String.
From Coq Require Import List Arith ZArith QArith Qabs Bool Lia Lqa.
From Verif Require Import Model.PyArray Model.GridIndices Model.Calibration Spec.ScanPositions Proofs.ListLemmas Proofs.PyArrayProofs Proofs.GridIndicesProofs
  Proofs.CalibrationProofs.
From Verif Require Model.RefinementInput.
Import ListNotations.
Local Open Scope nat_scope.

(** A scan of 3 x 4 patterns of 5 x 6 pixels *)
Definition undefined_axis (n : string) (k : nat) : axis := Axis n k 1 0 None.
Definition example_scan : signal :=
  new_signal [Axis "y" 3 (3 # 2) 0 um; Axis "x" 4 (3 # 2) 6 um] (undefined_axis "dy" 5) (undefined_axis "dx" 6).

(** ** Calibration of the scan *)
(** Two-dimensional scans: rows are step_y and columns step_x apart, in microns; nothing else changes. *)
Theorem C93_scan_calibrated s step_x step_y y x : nav s = [y; x] ->
  exists s' y' x', set_scan_calibration step_x step_y s = Some s' /\ nav s' = [y'; x']
    /\ size y' = size y /\ size x' = size x /\ units y' = Some "um"%string /\ units x' = Some "um"%string /\ map_axes s'
    /\ (forall i j, (position y' j - position y' i == step_y * (of_nat j - of_nat i)
                     /\ position x' j - position x' i == step_x * (of_nat j - of_nat i))%Q)
    /\ position y' 0 = (offset y + step_y * 0)%Q /\ position x' 0 = (offset x + step_x * 0)%Q
    /\ sig_y s' = sig_y s /\ sig_x s' = sig_x s /\ xmap s' = xmap s /\ px_size s' = px_size s.
Proof.
  intros N. unfold set_scan_calibration. rewrite N. eexists _, _, _. split; [reflexivity|]. cbn [nav]. split; [reflexivity|].
  cbn [size units sig_y sig_x xmap px_size]. repeat split; try reflexivity.
  - eexists _, _. cbn [nav]. split; [reflexivity|]. split; reflexivity.
  - unfold position. cbn [scale offset]. ring.
  - unfold position. cbn [scale offset]. ring.
Qed.
(** Refuted: scans along a line and single patterns cannot be calibrated. *)
Theorem C93_line_scan_calibration_refuted s step_x step_y : length (nav s) <> 2 -> set_scan_calibration step_x step_y s = None.
Proof. intros H. unfold set_scan_calibration. destruct (nav s) as [|y [|x [|z l]]]; try reflexivity. now cbn in H. Qed.
Example C93_scan_calibrated_example :
  option_map (fun s => map scale (nav s)) (set_scan_calibration 2 3 example_scan) = Some [3%Q; 2%Q].
Proof. reflexivity. Qed.

(** ** Calibration of the detector *)
(** Pixels are delta apart in microns, and the position 0 is in the middle of the detector: half the pixels above and half below, with
    position 0 at a pixel if there is an even number of them.  The pixel size of the detector is not set. *)
Theorem C93_detector_calibrated delta s a a' : let s' := set_detector_calibration delta s in
  (a = sig_y s /\ a' = sig_y s') \/ (a = sig_x s /\ a' = sig_x s') ->
  size a' = size a /\ units a' = Some "um"%string /\ name a' = name a
  /\ (forall k, position a' k == delta * (of_nat k - of_nat (size a) / 2))%Q
  /\ (forall k : nat, size a = (2 * k)%nat -> position a' k == 0)%Q
  /\ nav s' = nav s /\ xmap s' = xmap s.
Proof.
  intros s' H.
  assert (E : a' = calibrated delta a) by (destruct H as [[-> ->]|[-> ->]]; reflexivity). rewrite E.
  cbn [calibrated size units name]. repeat split; try reflexivity.
  - intros k. unfold position, of_nat. cbn [calibrated offset scale]. field.
  - intros k Hk. unfold position, of_nat. cbn [calibrated offset scale]. rewrite Hk, Nat2Z.inj_mul, inject_Z_mult. cbn. field.
Qed.
(** Refuted: the pixel size of the detector follows. *)
Theorem C93_pixel_size_follows_refuted delta s : ~ (delta == px_size s)%Q ->
  ~ (px_size (set_detector_calibration delta s) == scale (sig_x (set_detector_calibration delta s)))%Q.
Proof. cbn. intros H E. apply H. now symmetry. Qed.
(** A new signal has a detector with its pixel size, and it stays so as long as the detector is not calibrated. *)
Theorem C93_pixel_size_of_signal axes dy dx es s : run es (new_signal axes dy dx) = Some s ->
  (forall d, ~ In (CalibrateDetector d) es) -> px_size s = scale dx /\ scale (sig_x s) = px_size s.
Proof.
  intros R H. assert (G : px_size (new_signal axes dy dx) = scale dx /\ scale (sig_x (new_signal axes dy dx)) = scale dx) by now split.
  revert R H G. generalize (new_signal axes dy dx). induction es as [|e es IH]; intros s0 R H G.
  - injection R as <-. destruct G. split; congruence.
  - cbn [run] in R. destruct (step e s0) as [s1|] eqn:E; [|discriminate]. apply (IH s1); [exact R|intros d Hd; apply (H d); now right|].
    destruct G as [G1 G2]. destruct e; cbn [step] in E.
    + unfold set_scan_calibration in E. destruct (nav s0) as [|? [|? [|? ?]]]; try discriminate. injection E as <-. now split.
    + exfalso. apply (H delta). now left.
    + unfold set_xmap in E. destruct (fst _); [|discriminate]. injection E as <-. now split.
    + unfold inav in E. destruct (_ && _)%bool; [|discriminate]. injection E as <-. now split.
    + unfold extract_grid in E. destruct (_ || _)%bool; [discriminate|]. destruct (sequence _); [|discriminate]. injection E as <-. now split.
    + injection E as <-. destruct (load_px s0) as (P1 & P2 & _). split; congruence.
Qed.
Example C93_detector_calibrated_example : let s := set_detector_calibration 70 example_scan in
  (position (sig_x s) 0 == -210 /\ position (sig_x s) 3 == 0 /\ position (sig_x s) 5 == 140 /\ position (sig_y s) 0 == -175)%Q.
Proof. repeat split. Qed.

(** ** Crystal maps from indexing *)
(** The map from indexing is accepted without a warning, has the distances of the signal, and the unit of its columns. *)
Theorem C93_indexed_map_fits c s : map_axes s -> several_points s ->
  accepted_silently s (index c s) /\ same_distances s (index c s)
  /\ scan_unit (index c s) = match nav s with [_; x] => match units x with Some u => u | None => "px"%string end | _ => "px"%string end.
Proof.
  intros A B. pose proof (index_fits c s A B) as F. split; [now apply fits_accepted|]. split; [now apply fits_distances|].
  destruct A as (y & x & N & _). unfold index, navigation_unit. rewrite N. reflexivity.
Qed.
(** It stays so, with its contents, as long as the signal is sliced, its detector calibrated, it is saved and loaded again, or indexed
    again, for whatever signal before. *)
Definition indexed_with (c : nat) (es : list event) : nat :=
  fold_left (fun c e => match e with Index c' => c' | _ => c end) es c.
Fixpoint scan_kept (es : list event) (s : signal) : Prop :=
  match es with
  | [] => True
  | e :: r => match e with CalibrateScan _ _ | ExtractGrid _ => False | Index _ | SaveAndLoad => several_points s | _ => True end
      /\ forall s', step e s = Some s' -> scan_kept r s'
  end.
Lemma fits_axes s m : fits s m -> map_axes s.
Proof. intros (y & x & y0 & x0 & N & Ny & Nx & _). now exists y, x. Qed.
Theorem C93_map_fits_later c es s s' : map_axes s -> several_points s -> scan_kept (Index c :: es) s ->
  run (Index c :: es) s = Some s' ->
  exists m, xmap s' = Some m /\ accepted_silently s' m /\ same_distances s' m /\ contents m = indexed_with c es.
Proof.
  intros A B K R. destruct (index_step c s A B) as (s1 & E & _ & _ & _ & _ & M & F). destruct K as [_ K]. specialize (K s1 E).
  cbn [run] in R. rewrite E in R.
  assert (G : exists m, xmap s1 = Some m /\ fits s1 m /\ contents m = c) by (exists (index c s); repeat split; assumption).
  clear A B E M F s. revert c s1 K R G. induction es as [|e es IH]; intros c s1 K R (m & M & F & C).
  - injection R as <-. exists m. cbn. repeat split; [exact M|now apply fits_accepted|now apply fits_distances|exact C].
  - destruct K as [K0 K]. cbn [run] in R. destruct (step e s1) as [s2|] eqn:E; [|discriminate].
    change (indexed_with c (e :: es)) with (indexed_with (match e with Index c' => c' | _ => c end) es).
    apply (IH _ s2); [now apply K|exact R|]. destruct e; cbn [step] in E; try contradiction.
    + injection E as <-. exists m. repeat split; [exact M| |exact C]. apply (fits_nav s1); [reflexivity|exact F].
    + destruct (index_step c0 s1 (fits_axes _ _ F) K0) as (s3 & E3 & _ & _ & _ & _ & M3 & F3). cbn [step] in E3.
      rewrite E in E3. injection E3 as ->. exists (index c0 s1). repeat split; assumption.
    + destruct (inav_fits _ _ _ _ F M E) as (m' & M' & F' & C'). exists m'. repeat split; [exact M'|exact F'|congruence].
    + injection E as <-. destruct (load_fits _ _ F M K0) as [M' F']. exists m. now repeat split.
Qed.
Example C93_map_fits_later_example : let es := [Inav [(1, 3); (0, 3)]; SaveAndLoad; CalibrateDetector 70] in
  scan_kept (Index 7 :: es) example_scan
  /\ option_map (fun s => option_map map_shape (xmap s)) (run (Index 7 :: es) example_scan) = Some (Some [2; 3])
  /\ map_axes example_scan /\ several_points example_scan.
Proof.
  cbn zeta. split; [|split; [reflexivity|split]].
  - split; [repeat constructor|]. intros s1 E1. vm_compute in E1. injection E1 as <-. split; [exact I|]. intros s2 E2. vm_compute in E2.
    injection E2 as <-. split; [repeat constructor|]. intros s3 E3. vm_compute in E3. injection E3 as <-. now split.
  - eexists _, _. split; [reflexivity|]. now split.
  - repeat constructor.
Qed.
(** Refuted: the map follows a new calibration of the scan. *)
Theorem C93_map_follows_calibration_refuted c s s' m step_x step_y y x : nav s = [y; x] -> map_axes s -> several_points s ->
  run [Index c; CalibrateScan step_x step_y] s = Some s' -> xmap s' = Some m -> ~ (step_x == scale x)%Q -> ~ same_distances s' m.
Proof.
  intros N A B R M H D. destruct (index_step c s A B) as (s1 & E & N1 & _ & _ & _ & M1 & F).
  cbn [run] in R. rewrite E in R. cbn [step] in R. unfold set_scan_calibration in R. rewrite N1, N in R. injection R as <-.
  cbn [xmap] in M. rewrite M1 in M. injection M as <-. destruct F as (y' & x' & y0 & x0 & N' & Ny & Nx & P & S' & Hy & Hx).
  rewrite N1, N in N'. injection N' as <- <-. unfold several_points in B. rewrite N in B.
  assert (Sx : 2 <= size x) by (inversion B as [|? ? _ B']; inversion B'; assumption).
  destruct (D 1 _ 0 1 eq_refl) as (q & q' & (p & d & j & P1 & P2 & P3 & P4) & (p' & d' & j' & P1' & P2' & P3' & P4') & Q); [cbn [size]; lia..|].
  rewrite P in P1, P1'. rewrite S' in P2, P2'. cbn in P1, P1', P2, P2'. injection P1 as <-. injection P1' as <-. injection P2 as <-. injection P2' as <-.
  rewrite nth_error_seq in P3, P3' by lia. injection P3 as <-. injection P3' as <-. rewrite P4, P4' in Q.
  unfold position in Q. cbn [offset scale] in Q. rewrite !of_nat_plus in Q. apply H.
  change (of_nat 0) with 0%Q in Q. change (of_nat 1) with 1%Q in Q. ring_simplify in Q. exact Q.
Qed.
Example C93_map_follows_calibration_refuted_example :
  option_map (fun s => option_map (compatible s) (xmap s)) (run [Index 7; CalibrateScan 2 2] example_scan) = Some (Some (true, 1)).
Proof. reflexivity. Qed.
(** Refuted: the map of a column of patterns is accepted without a warning.  Its positions are along x. *)
Theorem C93_column_scan_refuted c s a : nav s = [a] -> name a = "y"%string -> 2 <= size a -> (1 # 100 <= scale a)%Q ->
  compatible s (index c s) = (true, 1).
Proof.
  intros N Na H L. unfold compatible, index, RefinementInput.xmap_is_compatible. rewrite N. cbn [map RefinementInput.axis_name RefinementInput.size RefinementInput.scale].
  rewrite Na. unfold RefinementInput.step_size. cbn [String.eqb Ascii.eqb Bool.eqb RefinementInput.all_some option_map].
  unfold map_shape, map_dy, new_map. cbn [points steps map combine fst snd]. rewrite box_seq by lia. rewrite shape_eqb_refl.
  unfold RefinementInput.allclose. cbn [combine forallb fst snd].
  replace (RefinementInput.isclose _ 0 (scale a)) with false; [reflexivity|]. symmetry. apply not_true_iff_false.
  unfold RefinementInput.isclose. intros E. apply Qle_bool_iff in E.
  assert (E1 : (Qabs (0 - scale a) == scale a)%Q).
  { setoid_replace (0 - scale a)%Q with (- scale a)%Q by ring. rewrite Qabs_opp. apply Qabs_pos. lra. }
  rewrite E1 in E. rewrite Qabs_pos in E by lra. lra.
Qed.
(** Refuted: units of rows and columns are kept apart. *)
Theorem C93_unit_of_rows_refuted c s y x : nav s = [y; x] -> units x = None -> scan_unit (index c s) = "px"%string.
Proof. intros N U. unfold index, navigation_unit. rewrite N. cbn [rev app new_map scan_unit]. now rewrite U. Qed.

(** ** Slices and grids *)
(** A slice keeps the position of every pattern. *)
Theorem C93_slices_keep_positions sl s s' k a a' : inav sl s = Some s' -> nth_error (nav s) k = Some a -> nth_error (nav s') k = Some a' ->
  exists lo hi, nth_error sl k = Some (lo, hi) /\ size a' = hi - lo /\ lo < hi <= size a /\ units a' = units a
    /\ forall i, (position a' i == position a (lo + i))%Q.
Proof.
  intros E Ha Ha'. unfold inav in E. destruct (Nat.eqb_spec (length sl) (length (nav s))) as [L|]; [|discriminate]. cbn [andb] in E.
  destruct (forallb _ _) eqn:B; [|discriminate]. injection E as <-. cbn [nav] in Ha'. unfold zip_with in Ha'. rewrite nth_error_map in Ha'.
  destruct (nth_error (combine sl (nav s)) k) as [[[lo hi] b]|] eqn:C; [|discriminate]. cbn in Ha'. injection Ha' as <-.
  assert (C' : nth_error sl k = Some (lo, hi) /\ b = a).
  { clear B L. revert sl C Ha. generalize (nav s) as l. induction k as [|k IH]; intros [|n l] [|p sl] C Ha; try discriminate; cbn in *.
    - injection C as -> ->. now injection Ha as ->.
    - now apply (IH l sl). }
  destruct C' as [C1 ->]. exists lo, hi. split; [exact C1|]. rewrite forallb_forall in B. pose proof (B _ (nth_error_In _ _ C)) as Bk.
  cbn [fst snd] in Bk. apply andb_true_iff in Bk as [B1 B2]. apply Nat.ltb_lt in B1. apply Nat.leb_le in B2.
  cbn [slice_axis size units fst snd]. repeat split; try lia. intros i. unfold position, of_nat. cbn [slice_axis offset scale fst snd].
  rewrite Nat2Z.inj_add, inject_Z_plus. ring.
Qed.
(** A grid of patterns of a signal with its map keeps distances between patterns, and those of the map. *)
Theorem C93_grids_keep_distances c g s s' : map_axes s -> several_points s -> run [Index c; ExtractGrid g] s = Some s' ->
  (exists m, xmap s' = Some m /\ same_distances s' m /\ contents m = c)
  /\ forall k a a', nth_error (nav s) k = Some a -> nth_error (nav s') k = Some a' ->
     exists first gap, forall i j, i < size a' -> j < size a' -> first + i * gap < size a
       /\ (position a' j - position a' i == position a (first + j * gap) - position a (first + i * gap))%Q.
Proof.
  intros A B R. destruct (index_step c s A B) as (s1 & E & N1 & _ & _ & _ & M1 & F). cbn [run] in R. rewrite E in R.
  cbn [step] in R. destruct (extract_grid g s1) as [s2|] eqn:G; [|discriminate]. injection R as <-.
  destruct F as (y & x & y0 & x0 & N' & Ny & Nx & P & S' & Hy & Hx).
  destruct (grid_two _ _ _ _ _ N' G) as (g0 & g1 & -> & C0 & C1 & _ & _ & N2 & M2 & _). rewrite M1 in M2. cbn [option_map] in M2.
  rewrite P in M2. unfold zip_with in M2. cbn [combine map fst snd] in M2. split.
  - eexists. split; [exact M2|]. split; [|reflexivity]. intros k a i i' Ha Hi Hi'. rewrite N2 in Ha.
    assert (X : forall g z b z0, b = grid_axis g (idx_of g (size z)) z -> 1 <= size z -> i < size b -> i' < size b ->
      exists q q', (exists j, nth_error (chosen (idx_of g (size z)) (seq z0 (size z))) i = Some j /\ q == scale z * of_nat j)%Q
       /\ (exists j, nth_error (chosen (idx_of g (size z)) (seq z0 (size z))) i' = Some j /\ q' == scale z * of_nat j)%Q
       /\ (position b i' - position b i == q' - q)%Q).
    { intros g z b z0 -> Hz Hb Hb'. cbn [grid_axis size] in Hb, Hb'. rewrite idx_length in Hb, Hb'.
      eexists _, _. split; [eexists; split; [now apply chosen_nth|reflexivity]|]. split; [eexists; split; [now apply chosen_nth|reflexivity]|].
      unfold position. cbn [grid_axis offset scale]. rewrite !of_nat_plus, !of_nat_mult. change inject_Z with inject_Z.
      fold (of_nat (spacing g (size z))). ring. }
    destruct k as [|[|k]]; cbn in Ha; [| |destruct k; discriminate]; injection Ha as <-.
    + destruct (X g0 y _ y0 eq_refl Hy Hi Hi') as (q & q' & (j & J1 & J2) & (j' & J1' & J2') & Q). exists q, q'.
      split; [exists (chosen (idx_of g0 (size y)) (seq y0 (size y))), (scale y), j; now rewrite S'|].
      split; [exists (chosen (idx_of g0 (size y)) (seq y0 (size y))), (scale y), j'; now rewrite S'|exact Q].
    + destruct (X g1 x _ x0 eq_refl Hx Hi Hi') as (q & q' & (j & J1 & J2) & (j' & J1' & J2') & Q). exists q, q'.
      split; [exists (chosen (idx_of g1 (size x)) (seq x0 (size x))), (scale x), j; now rewrite S'|].
      split; [exists (chosen (idx_of g1 (size x)) (seq x0 (size x))), (scale x), j'; now rewrite S'|exact Q].
  - intros k a a' Ha Ha'. rewrite <- N1, N' in Ha. rewrite N2 in Ha'.
    assert (X : forall g z b, b = grid_axis g (idx_of g (size z)) z -> 1 <= size z -> exists first gap, forall i j, i < size b -> j < size b ->
       first + i * gap < size z /\ (position b j - position b i == position z (first + j * gap) - position z (first + i * gap))%Q).
    { intros g z b -> Hz. exists (Z.to_nat (grid_index g (size z) 0)), (spacing g (size z)). intros i j Hi Hj.
      cbn [grid_axis size] in Hi, Hj. rewrite idx_length in Hi, Hj. split.
      - rewrite <- idx_value by assumption. now apply idx_inside.
      - unfold position. cbn [grid_axis offset scale]. rewrite !of_nat_plus, !of_nat_mult. fold (of_nat (spacing g (size z))). ring. }
    destruct k as [|[|k]]; cbn in Ha, Ha'; [| |destruct k; discriminate]; injection Ha as <-; injection Ha' as <-.
    + now apply (X g0).
    + now apply (X g1).
Qed.
(** Refuted: a grid keeps the positions of its patterns.  All are moved by that of the first pattern of the grid. *)
Theorem C93_grid_positions_refuted g0 g1 s s' y x y' x' first rest : nav s = [y; x] -> extract_grid [g0; g1] s = Some s' -> nav s' = [y'; x'] ->
  grid_indices_1d g0 (size y) = Some (Z.of_nat first :: rest) -> 1 <= first -> ~ (scale y == 0)%Q ->
  ~ (position y' 0 == position y first)%Q.
Proof.
  intros N G N' _ H0 Hs E. destruct (grid_two _ _ _ _ _ N G) as (h0 & h1 & Eg & C0 & C1 & Hy & Hx & N2 & _). injection Eg as <- <-.
  rewrite N2 in N'. injection N' as <- _. unfold position in E. cbn [grid_axis offset scale] in E.
  apply Hs. destruct (Qmult_integral (scale y) (of_nat first)) as [?|X]; [|assumption|].
  - change (of_nat 0) with 0%Q in E. lra.
  - unfold of_nat in X. exfalso. change 0%Q with (inject_Z 0) in X. rewrite inject_Z_injective in X. lia.
Qed.
(** ... and refuted: its map is kept when it is saved.  Without a warning, the file gets an empty one. *)
Theorem C93_grid_map_saved_refuted c g0 g1 s s' y x : nav s = [y; x] -> map_axes s -> several_points s ->
  run [Index c; ExtractGrid [g0; g1]] s = Some s' -> (g0 + 1) < size y -> (forall y' x', nav s' = [y'; x'] -> 2 <= size y') ->
  exists m m', xmap s' = Some m /\ contents m = c /\ xmap (read (write s')) = Some m' /\ contents m' = empty_contents.
Proof.
  intros N A B R Hg H2. destruct (index_step c s A B) as (s1 & E & N1 & _ & _ & _ & M1 & F). cbn [run] in R. rewrite E in R.
  cbn [step] in R. destruct (extract_grid _ s1) as [s2|] eqn:G; [|discriminate]. injection R as <-.
  destruct F as (y' & x' & y0 & x0 & N' & Ny & Nx & P & S' & Hy & Hx). rewrite N1, N in N'. injection N' as <- <-. rewrite N in N1.
  destruct (grid_two _ _ _ _ _ N1 G) as (h0 & h1 & Eg & C0 & C1 & _ & _ & N2 & M2 & _). injection Eg as <- <-.
  specialize (H2 _ _ N2). cbn [grid_axis size] in H2. rewrite idx_length in H2. rewrite M1 in M2. cbn [option_map] in M2.
  eexists _, _. split; [exact M2|]. split; [reflexivity|]. split; [apply load_map|]. eapply saved_incompatible; [exact M2|].
  unfold compatible, RefinementInput.xmap_is_compatible. rewrite N2. cbn [map RefinementInput.axis_name RefinementInput.size RefinementInput.scale grid_axis name size].
  destruct (match _ with Some _ => _ | None => _ end) as [st w]. cbn [fst]. unfold map_shape. cbn [points]. rewrite P.
  unfold zip_with. cbn [combine map fst snd]. rewrite !chosen_box by assumption. rewrite !idx_length.
  unfold RefinementInput.shape_eqb. destruct (list_eq_dec _ _ _) as [X|]; [exfalso|reflexivity]. injection X as X _.
  assert (Sp : 2 <= spacing g0 (size y)).
  { unfold spacing. pose proof (PyArrayProofs.ceil_div_spec (size y) (g0 + 1) ltac:(lia)). nia. }
  nia.
Qed.
Example C93_grid_example : let s := new_signal [Axis "y" 10 2 0 um; Axis "x" 10 2 0 um] (undefined_axis "dy" 5) (undefined_axis "dx" 6) in
  option_map (fun s => (map (fun a => (size a, scale a, offset a)) (nav s), option_map points (xmap s)))
    (run [Index 7; ExtractGrid [2; 2]] s) = Some ([(2, 8%Q, 0%Q); (2, 8%Q, 0%Q)], Some [[3; 7]; [3; 7]])
  /\ option_map (fun s => option_map (fun m => (contents m, map_shape m)) (xmap s))
       (run [Index 7; ExtractGrid [2; 2]; SaveAndLoad] s) = Some (Some (0, [2; 2])).
Proof. split; reflexivity. Qed.

(** ** Saving and loading *)
(** Maps with several rows and columns are kept with their steps, and so are crystal maps of the same shape and the detector pixel size. *)
Theorem C93_saved_and_loaded s y x : nav s = [y; x] -> 2 <= size y -> 2 <= size x ->
  exists s' y' x', step SaveAndLoad s = Some s' /\ nav s' = [y'; x'] /\ size y' = size y /\ size x' = size x /\ map_axes s'
    /\ (forall i j, position y' j - position y' i == position y j - position y i
                    /\ position x' j - position x' i == position x j - position x i)%Q
    /\ size (sig_y s') = size (sig_y s) /\ size (sig_x s') = size (sig_x s) /\ px_size s' = px_size s
    /\ (forall m, xmap s = Some m -> map_shape m = [size y; size x] -> xmap s' = Some m)
    /\ (xmap s = None -> exists m, xmap s' = Some m /\ contents m = empty_contents /\ accepted_silently s' m /\ same_distances s' m).
Proof.
  intros N Hy Hx. pose proof (load_two s y x N Hy Hx) as L. eexists _, _, _. split; [reflexivity|]. split; [exact L|].
  cbn [size]. split; [reflexivity|]. split; [reflexivity|].
  assert (MA : map_axes (read (write s))) by (eexists _, _; split; [exact L|now split]).
  split; [exact MA|]. split; [intros i j; unfold position; cbn [offset scale]; split; ring|].
  assert (Z : size (sig_y (read (write s))) = size (sig_y s) /\ size (sig_x (read (write s))) = size (sig_x s)).
  { unfold write. destruct (shape_scale s) as [[? ?] [? ?]]. now split. }
  destruct Z as [Z1 Z2]. split; [exact Z1|]. split; [exact Z2|]. split; [apply load_px|]. split.
  - intros m M Sh. rewrite load_map. f_equal. apply saved_compatible; [exact M|]. unfold compatible, RefinementInput.xmap_is_compatible.
    destruct (match RefinementInput.all_some _ with Some _ => _ | None => _ end) as [st w]. cbn [fst]. rewrite Sh, N. cbn [map RefinementInput.size].
    apply shape_eqb_refl.
  - intros M. rewrite load_map. eexists. split; [reflexivity|].
    assert (Em : saved_map s = new_map [size y; size x] [scale y; scale x] "px" empty_contents).
    { unfold saved_map, shape_scale. rewrite N, M. reflexivity. }
    rewrite Em. split; [reflexivity|].
    assert (F : fits (read (write s)) (new_map [size y; size x] [scale y; scale x] "px" empty_contents)).
    { eexists _, _, 0, 0. split; [exact L|]. cbn [name size scale new_map points steps map combine fst snd].
      destruct (Nat.leb_spec (size y) 1); [lia|]. destruct (Nat.leb_spec (size x) 1); [lia|]. repeat split; lia. }
    split; [now apply fits_accepted|now apply fits_distances].
Qed.
(** Line scans keep their direction, steps and crystal maps ... *)
Theorem C93_line_scan_saved_and_loaded s a : nav s = [a] -> name a = "x"%string \/ name a = "y"%string -> 2 <= size a ->
  exists s' a', step SaveAndLoad s = Some s' /\ nav s' = [a'] /\ size a' = size a /\ name a' = name a
    /\ (forall i j, position a' j - position a' i == position a j - position a i)%Q
    /\ (forall m, xmap s = Some m -> map_shape m = [size a] -> xmap s' = Some m).
Proof.
  intros N Na H. eexists _, (Axis (name a) (size a) (scale a) 0 um). split; [reflexivity|].
  assert (L : nav (read (write s)) = [Axis (name a) (size a) (scale a) 0 um]).
  { unfold write, shape_scale. rewrite N. destruct Na as [Na|Na]; rewrite Na; cbn [String.eqb Ascii.eqb Bool.eqb]; unfold read;
      cbn [nav n_rows n_columns step_y step_x]; destruct (Nat.eqb_spec (size a) 1); try lia; cbn [Nat.eqb].
    - destruct (Nat.ltb_spec (size a) 1); [lia|reflexivity].
    - destruct (Nat.ltb_spec 1 (size a)); [reflexivity|lia]. }
  split; [exact L|]. split; [reflexivity|]. split; [reflexivity|]. split; [intros i j; unfold position; cbn [offset scale]; ring|].
  intros m M Sh. rewrite load_map. f_equal. apply saved_compatible; [exact M|]. unfold compatible, RefinementInput.xmap_is_compatible.
  destruct (match RefinementInput.all_some _ with Some _ => _ | None => _ end) as [st w]. cbn [fst]. rewrite Sh, N. cbn [map RefinementInput.size].
  apply shape_eqb_refl.
Qed.
(** ... but refuted: without a crystal map they get one that fits.  It has two axes, and cannot be assigned to the signal it is of. *)
Theorem C93_line_scan_empty_map_refuted s a : nav s = [a] -> name a = "x"%string \/ name a = "y"%string -> 2 <= size a -> xmap s = None ->
  exists m, xmap (read (write s)) = Some m /\ set_xmap m (read (write s)) = None.
Proof.
  intros N Na H M. rewrite load_map. eexists. split; [reflexivity|].
  destruct (C93_line_scan_saved_and_loaded s a N Na H) as (s' & a' & E & N' & _). injection E as <-.
  unfold set_xmap, compatible, RefinementInput.xmap_is_compatible. rewrite N'.
  destruct (match RefinementInput.all_some _ with Some _ => _ | None => _ end) as [st w]. cbn [fst map].
  unfold saved_map. rewrite M. destruct (shape_scale s) as [[? ?] [? ?]]. unfold map_shape, new_map. cbn [points map].
  unfold RefinementInput.shape_eqb. destruct (list_eq_dec _ _ _) as [X|]; [discriminate X|reflexivity].
Qed.
(** Refuted: a single row cut out of a map keeps its crystal map fitting when saved and loaded.  The row loses an axis, its map does not. *)
Theorem C93_single_row_map_refuted c s y x : nav s = [y; x] -> map_axes s -> several_points s ->
  exists s' m, run [Index c; Inav [(0, 1); (0, size x)]; SaveAndLoad] s = Some s' /\ xmap s' = Some m /\ contents m = c /\ set_xmap m s' = None.
Proof.
  intros N A B. destruct (index_step c s A B) as (s1 & E & N1 & _ & _ & _ & M1 & F). pose proof B as B0. unfold several_points in B0. rewrite N in B0.
  inversion B0 as [|? ? Sy B']; subst. inversion B' as [|? ? Sx _]; subst.
  assert (I : exists s2, inav [(0, 1); (0, size x)] s1 = Some s2).
  { unfold inav. rewrite N1, N. cbn [length Nat.eqb combine forallb fst snd andb].
    destruct (Nat.ltb_spec 0 1); [|lia]. destruct (Nat.leb_spec 1 (size y)); [|lia]. destruct (Nat.ltb_spec 0 (size x)); [|lia].
    destruct (Nat.leb_spec (size x) (size x)); [|lia]. eexists. reflexivity. }
  destruct I as [s2 I]. destruct (inav_fits _ _ _ _ F M1 I) as (m & M2 & F2 & C2).
  rewrite N in N1. destruct (inav_two _ _ _ _ _ N1 I) as (l & h & l' & h' & E2 & _ & _ & _ & _ & N2 & _).
  injection E2 as <- <- <- <-. pose proof (fits_accepted _ _ F2) as Ac. exists (read (write s2)), m. cbn [run]. rewrite E. cbn [step]. rewrite I.
  split; [reflexivity|]. rewrite load_map, (saved_compatible _ _ M2) by (unfold accepted_silently in Ac; now rewrite Ac).
  split; [reflexivity|]. split; [exact C2|].
  assert (L : length (nav (read (write s2))) = 1).
  { unfold write, shape_scale. rewrite N2. unfold read. cbn [nav n_rows n_columns slice_axis size fst snd Nat.sub Nat.eqb].
    rewrite Nat.sub_0_r. destruct (Nat.eqb_spec (size x) 1); [lia|]. destruct (Nat.ltb_spec (size x) 1); [lia|]. reflexivity. }
  unfold set_xmap, compatible, RefinementInput.xmap_is_compatible.
  destruct (match RefinementInput.all_some _ with Some _ => _ | None => _ end) as [st w]. cbn [fst].
  unfold RefinementInput.shape_eqb. destruct (list_eq_dec _ _ _) as [X|]; [exfalso|reflexivity].
  apply (f_equal (@length nat)) in X. rewrite !map_length, L in X. unfold map_shape in X. rewrite map_length in X.
  destruct F2 as (? & ? & ? & ? & _ & _ & _ & P & _). rewrite P in X. discriminate.
Qed.
(** Refuted: saving keeps positions, units and the calibration of the detector. *)
Theorem C93_saved_positions_refuted s a : In a (nav (read (write s))) -> (position a 0 == 0)%Q /\ units a = Some "um"%string.
Proof.
  unfold write. destruct (shape_scale s) as [[ny nx] [dy dx]]. unfold read. cbn [nav n_rows n_columns step_y step_x]. intros H.
  assert (X : a = Axis "y" ny dy 0 um \/ a = Axis "x" nx dx 0 um).
  { destruct (ny =? 1), (nx =? 1), (nx <? ny); cbn in H; intuition. }
  destruct X as [-> | ->]; split; try reflexivity; unfold position, of_nat; cbn; ring.
Qed.
Theorem C93_saved_detector_calibration_refuted delta s s' : run [CalibrateDetector delta; SaveAndLoad] s = Some s' ->
  scale (sig_x s') = px_size s /\ scale (sig_y s') = px_size s /\ (position (sig_x s') 0 == 0)%Q.
Proof.
  intros R. injection R as <-. destruct (load_px (set_detector_calibration delta s)) as (P1 & P2 & P3).
  split; [exact P2|]. split; [exact P3|]. unfold write. destruct (shape_scale _) as [[? ?] [? ?]]. unfold position, of_nat. cbn. ring.
Qed.
Example C93_saved_example :
  option_map (fun s => (map offset (nav s), scale (sig_x s), px_size s))
    (run [CalibrateScan 2 3; CalibrateDetector 70; SaveAndLoad] example_scan) = Some ([0%Q; 0%Q], 1%Q, 1%Q)
  /\ map offset (nav example_scan) = [0%Q; 6%Q].
Proof. split; reflexivity. Qed.
Example C93_line_scan_example : let column := new_signal [Axis "y" 5 2 0 um] (undefined_axis "dy" 5) (undefined_axis "dx" 6) in
  compatible column (index 7 column) = (true, 1) /\ map name (nav (read (write column))) = ["y"%string]
  /\ option_map map_shape (xmap (read (write column))) = Some [5; 1].
Proof. repeat split. Qed.

Print Assumptions C93_map_fits_later.
Print Assumptions C93_grids_keep_distances.
Print Assumptions C93_saved_and_loaded.
