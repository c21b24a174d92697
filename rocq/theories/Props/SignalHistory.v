(** Histories of operations on a signal: property C63. *)
From Coq Require Import List Arith ZArith Reals Bool Lia.
From Verif Require Import Spec.Consistency Model.Pattern Model.Intensity Model.MapOverlap Model.Downsample Model.GridIndices
  Model.SignalSlices Model.SignalHistory Proofs.SignalSlicesProofs Proofs.GridIndicesProofs Proofs.SignalHistoryProofs.
From Verif Require Model.Detector Proofs.DetectorProofs Props.SignalSlices Props.ExtractGrid Props.Rebin.
Import ListNotations.

(** A consistent signal accepts its own attributes. *)
Theorem C63_consistent_signal_accepts_its_attributes s : consistent s ->
  set_detector (detector s) s = Some s /\ forall m, xmap s = Some m -> set_xmap m s = Some s.
Proof.
  intros H. destruct (detector_has_shape _ H) as [D1 D2]. split.
  - unfold set_detector, detector_is_compatible. rewrite D1, D2, !Z.eqb_refl. cbn [andb].
    assert (P : (same_shape (Detector.nav_shape (Detector.d_pc (detector s))) [1]
                 || same_shape (Detector.nav_shape (Detector.d_pc (detector s))) (navigation_shape s))%bool = true).
    { apply orb_true_iff. rewrite !same_shape_spec. unfold navigation_shape. destruct (detector_has_pcs _ H) as [[P _]|[P _]]; auto. }
    rewrite P. destruct s. reflexivity.
  - intros m Em. destruct (xmap_has_shape _ H m Em) as [R C]. unfold set_xmap. rewrite R, C, !Nat.eqb_refl. cbn [andb].
    rewrite <- Em. destruct s. reflexivity.
Qed.

(** What keeps a signal consistent.  Slices of the detector start at its beginning or have both ends
    given and not negative, and there is one PC for each pattern; a new background has the shape of
    the patterns; a grid is extracted from a signal without crystal map; the array of PCs of a new
    detector has as many as its shape says. *)
Definition proper (s : ebsd) (op : operation) : Prop :=
  match op with
  | Isig ys xs => Props.SignalSlices.plain ys /\ Props.SignalSlices.plain xs
                  /\ pc_per_pattern (nrows (patterns s)) (ncols (patterns s)) (detector s)
  | CropDetectorRows sl => Props.SignalSlices.plain sl
                  /\ pc_per_pattern (nrows (patterns s)) (ncols (patterns s)) (detector s)
  | SetBackground b => nrows b = fst (shape s) /\ ncols b = snd (shape s)
  | ExtractGrid _ _ => xmap s = None
  | SetDetector d => length (Detector.pcs (Detector.d_pc d)) = fold_right Nat.mul 1 (Detector.nav_shape (Detector.d_pc d))
  | _ => True
  end.

Lemma isig_consistent s ys xs s' : consistent s -> Props.SignalSlices.plain ys -> Props.SignalSlices.plain xs ->
  isig ys xs s = Some s' ->
  Detector.d_ny (detector s') = Z.of_nat (fst (shape s')) /\ Detector.d_nx (detector s') = Z.of_nat (snd (shape s'))
  /\ Detector.nav_shape (Detector.d_pc (detector s')) = Detector.dstack_shape (Detector.nav_shape (Detector.d_pc (detector s)))
  /\ length (Detector.pcs (Detector.d_pc (detector s'))) = length (Detector.pcs (Detector.d_pc (detector s)))
  /\ 1 <= fst (shape s') /\ 1 <= snd (shape s')
  /\ nrows (patterns s') = nrows (patterns s) /\ ncols (patterns s') = ncols (patterns s) /\ xmap s' = xmap s
  /\ (forall r c, nrows (at_ (patterns s') r c) = fst (shape s') /\ ncols (at_ (patterns s') r c) = snd (shape s'))
  /\ (forall b, background s' = Some b -> nrows b = fst (shape s') /\ ncols b = snd (shape s')).
Proof.
  intros Hc Py Px E. destruct (isig_inv _ _ _ _ E) as (y0 & y1 & x0 & x1 & Iy & Ix & Ly & Lx & ->). clear E.
  destruct (detector_has_shape _ Hc) as [Ey Ex]. pose proof (patterns_have_shape _ Hc) as Hp. pose proof (background_has_shape _ Hc) as Hb.
  destruct (shape s) as [ny nx]. cbn [fst snd] in *.
  destruct (indices_bounds _ _ _ _ Iy) as [B1 B2]. destruct (indices_bounds _ _ _ _ Ix) as [B3 B4].
  assert (Gy : good ny ys) by (clear - Py; unfold good, Props.SignalSlices.plain in *; destruct (start ys), (stop ys); intuition lia).
  assert (Gx : good nx xs) by (clear - Px; unfold good, Props.SignalSlices.plain in *; destruct (start xs), (stop xs); intuition lia).
  cbn [shape detector patterns background xmap fst snd nrows ncols at_].
  unfold update_detector. rewrite (good_extent ny nx _ _ y0 y1 x0 x1) by assumption.
  destruct (crop_some (detector s) (Z.of_nat y0) (Z.of_nat y1) (Z.of_nat x0) (Z.of_nat x1)) as [d' Ed]; try lia.
  rewrite Ed.
  destruct (DetectorProofs.crop_inside (detector s) (Z.of_nat y0) (Z.of_nat y1) (Z.of_nat x0) (Z.of_nat x1) d')
    as (_ & _ & Q1 & Q2 & Q3 & Q4 & Q5 & Q6 & Q7 & Q8 & Q9 & Q10); try lia; [exact Ed|].
  split; [lia|]. split; [lia|]. split; [exact Q9|]. split; [rewrite Q10, map_length; reflexivity|].
  split; [lia|]. split; [lia|]. do 3 (split; [reflexivity|]). split.
  - intros r c. destruct (Hp r c) as [P1 P2]. rewrite (take_at _ _ _ y0 y1 x0 x1) by congruence. auto.
  - intros b Eb. destruct (background s) as [b0|]; [|discriminate]. cbn [option_map] in Eb. injection Eb as <-.
    destruct (Hb b0 eq_refl) as [P1 P2]. rewrite (take_at _ _ _ y0 y1 x0 x1) by congruence. auto.
Qed.

Lemma isig_step s ys xs s' : consistent s -> proper s (Isig ys xs) -> isig ys xs s = Some s' ->
  consistent s' /\ pc_per_pattern (nrows (patterns s')) (ncols (patterns s')) (detector s').
Proof.
  intros Hc (Py & Px & Hn & Hl) E.
  destruct (isig_consistent s ys xs s' Hc Py Px E) as (I1 & I2 & I3 & I4 & I5 & I6 & I7 & I8 & I9 & I10 & I11).
  assert (P : pc_per_pattern (nrows (patterns s')) (ncols (patterns s')) (detector s')).
  { unfold pc_per_pattern. rewrite I3, I4, Hn, Hl, I7, I8. split; reflexivity. }
  split; [|exact P]. destruct (not_empty _ Hc) as (N1 & N2 & _). constructor; auto.
  - rewrite I7, I8. auto.
  - intros m Em. rewrite I9 in Em. rewrite I7, I8. exact (xmap_has_shape _ Hc m Em).
Qed.

Lemma step_consistent s op s' : consistent s -> proper s op -> apply op s = Some s' -> consistent s'.
Proof.
  intros Hc Hp E. destruct op; cbn [apply] in E.
  - injection E as <-. destruct Hc. constructor; cbn [patterns shape detector background xmap nrows ncols at_] in *; auto.
  - exact (proj1 (isig_step s ys xs s' Hc Hp E)).
  - (* inav *)
    unfold inav, empty_slice in E.
    destruct (indices (nrows (patterns s)) ys) as [y0 y1] eqn:Iy. destruct (indices (ncols (patterns s)) xs) as [x0 x1] eqn:Ix.
    destruct (Nat.leb_spec y1 y0) as [|Ly]; [discriminate|]. destruct (Nat.leb_spec x1 x0) as [|Lx]; [discriminate|].
    cbn [orb] in E. injection E as <-. destruct Hc as [(N1 & N2 & N3 & N4) Hs Hd Hn Hb Hx].
    constructor; cbn [patterns shape detector background xmap Detector.with_pc Detector.d_ny Detector.d_nx Detector.d_pc];
      rewrite ?(take_at _ _ _ _ _ _ _ Iy Ix); cbn [sub nrows ncols at_]; auto; try lia.
    + destruct Hn as [[Hn Hl]|[Hn Hl]].
      * left. unfold one_pc, Detector.with_pc. cbn [Detector.d_pc]. unfold slice_pc. rewrite Hn. auto.
      * right. unfold pc_per_pattern, Detector.with_pc. cbn [Detector.d_pc]. unfold slice_pc. rewrite Hn, Iy, Ix. cbv iota.
        destruct (Nat.leb_spec y1 y0); [lia|]. destruct (Nat.leb_spec x1 x0); [lia|]. cbn [orb Detector.nav_shape Detector.pcs].
        split; [reflexivity|].
        apply (flat_grid_length (fun y x => nth (y * ncols (patterns s) + x) (Detector.pcs (Detector.d_pc (detector s))) (Detector.PC 0 0 0))).
    + intros m Em. destruct (xmap s) as [m0|]; [|discriminate]. injection Em as <-. destruct (Hx m0 eq_refl) as [R C].
      rewrite (take_at _ _ _ y0 y1 x0 x1) by congruence. auto.
  - (* crop *)
    unfold crop_rows in E. destruct (shape s) as [ny nx] eqn:Es. destruct (indices ny sl) as [y0 y1] eqn:Iy.
    destruct (empty_slice ny sl); [discriminate|]. destruct (y1 - y0 =? ny); [injection E as <-; exact Hc|].
    destruct Hp as [P1 P2]. apply (isig_step s sl everything s' Hc); [|exact E]. repeat split; try assumption; try apply P2.
  - (* extract_grid *)
    assert (Hx : xmap s' = None).
    { cbn [proper] in Hp. unfold extract_grid in E. destruct (_ || _)%bool; [discriminate|].
      destruct (grid_indices_2d _ _); [|discriminate]. injection E as <-. cbn [xmap]. rewrite Hp. reflexivity. }
    destruct (Props.ExtractGrid.C61_patterns_and_pcs s g0 g1 s' Hc E)
      as (rows & cols & s0 & s1 & A1 & A2 & A3 & A4 & A5 & A6 & A7 & A8 & A9 & A10 & A11 & A12 & A13 & A14 & A15 & A16 & A17 & A18).
    destruct (not_empty _ Hc) as (N1 & N2 & N3 & N4).
    assert (D : Detector.d_ny (detector s') = Detector.d_ny (detector s) /\ Detector.d_nx (detector s') = Detector.d_nx (detector s)).
    { rewrite <- A16. destruct (detector s'). split; reflexivity. }
    constructor; rewrite ?A18.
    + rewrite A7, A8. auto.
    + intros r c. unfold extract_grid in E. destruct (_ || _)%bool; [discriminate|].
      destruct (grid_indices_2d _ _); [|discriminate]. injection E as <-. cbn [patterns at_grid at_]. apply (patterns_have_shape _ Hc).
    + destruct D as [-> ->]. exact (detector_has_shape _ Hc).
    + destruct (detector_has_pcs _ Hc) as [Ho|Hm].
      * left. unfold one_pc. rewrite (A15 Ho). exact Ho.
      * right. rewrite A7, A8. exact (A14 Hm).
    + rewrite A17. exact (background_has_shape _ Hc).
    + intros m Em. rewrite Hx in Em. discriminate.
  - (* rebin *)
    destruct (Props.Rebin.rebin_inv _ _ _ _ _ _ E) as [F1 F2].
    destruct (Props.Rebin.C62_sums _ _ _ _ _ _ Hc E) as (S1 & S2 & S3 & _).
    destruct (Props.Rebin.C62_attributes _ _ _ _ _ _ Hc E) as (D1 & D2 & _ & _ & _ & _ & _ & K1 & K2).
    assert (Hs : forall r c, nrows (at_ (patterns s') r c) = fst (shape s') /\ ncols (at_ (patterns s') r c) = snd (shape s')).
    { pose proof (patterns_have_shape _ Hc) as Hs0. intros r c. unfold rebin in E. destruct (shape s) as [ny nx] eqn:Es.
      destruct (existsb _ _); [discriminate|]. destruct (_ && _ && _ && _)%bool.
      - injection E as <-. rewrite Es. apply Hs0.
      - injection E as <-. cbn [patterns rebin_map at_ nrows ncols shape fst snd]. destruct (Hs0 r c) as [-> ->]. auto. }
    destruct (Nat.eq_dec ky 1) as [Ey|Ey]; [destruct (Nat.eq_dec kx 1) as [Ex|Ex]|].
    + destruct (K1 (conj Ey Ex)) as (P1 & P2 & P3). subst ky kx. rewrite Nat.div_1_r in S1, S2.
      constructor; auto.
      * rewrite S1, S2, S3. cbn [fst snd]. rewrite !Nat.div_1_r in F2. lia.
      * unfold one_pc, pc_per_pattern. rewrite P1, S1, S2. exact (detector_has_pcs _ Hc).
      * intros b Eb. rewrite Eb in P3. destruct (background s); [tauto|contradiction].
      * intros m Em. rewrite P2 in Em. rewrite S1, S2. exact (xmap_has_shape _ Hc m Em).
    + destruct (K2 ltac:(tauto)) as (P1 & _ & P2 & P3). constructor; auto; try (intros b Eb; congruence). rewrite S1, S2, S3. cbn [fst snd]. lia.
    + destruct (K2 ltac:(tauto)) as (P1 & _ & P2 & P3). constructor; auto; try (intros b Eb; congruence). rewrite S1, S2, S3. cbn [fst snd]. lia.
  - (* downsample *)
    unfold downsample in E. destruct Hc as [(N1 & N2 & N3 & N4) Hs Hd Hn Hb Hx]. destruct (shape s) as [ny nx]. cbn [fst snd] in *.
    destruct (Nat.leb_spec f 1); [discriminate|]. cbn [orb] in E.
    destruct ((ny mod f =? 0) && (nx mod f =? 0))%bool eqn:Em; [|discriminate]. cbn [negb] in E. injection E as <-.
    apply andb_true_iff in Em. destruct Em as [M1 M2]. apply Nat.eqb_eq in M1, M2.
    assert (1 <= ny / f /\ 1 <= nx / f) by (pose proof (Nat.div_mod ny f); pose proof (Nat.div_mod nx f); nia).
    constructor; cbn [patterns shape detector background xmap fst snd nrows ncols at_ downsample2d downsample_detector Detector.d_ny Detector.d_nx].
    + lia.
    + intros r c. destruct (Hs r c) as [E1 E2]. cbn [bin2d nrows ncols]. rewrite E1, E2. auto.
    + auto.
    + exact Hn.
    + intros b Eb. destruct (background s) as [b0|]; [|discriminate]. injection Eb as <-. destruct (Hb b0 eq_refl) as [E1 E2].
      cbn [downsample2d bin2d nrows ncols]. rewrite E1, E2. auto.
    + exact Hx.
  - (* detector *)
    unfold set_detector in E. destruct (detector_is_compatible _ _ _) eqn:Ed; [|discriminate]. injection E as <-.
    unfold detector_is_compatible in Ed. apply andb_true_iff in Ed. destruct Ed as [E1 E2]. apply andb_true_iff in E1. destruct E1 as [E0 E1].
    apply Z.eqb_eq in E0, E1. apply orb_true_iff in E2. rewrite !same_shape_spec in E2. destruct Hc. cbn [proper] in Hp.
    constructor; cbn [patterns shape detector background xmap]; auto.
    unfold one_pc, pc_per_pattern. unfold navigation_shape in E2. destruct E2 as [E2|E2]; rewrite E2 in *; cbn [fold_right] in Hp; [left|right]; (split; [reflexivity|lia]).
  - unfold set_xmap in E. destruct (_ && _)%bool eqn:Em; [|discriminate]. injection E as <-. apply andb_true_iff in Em.
    destruct Em as [M1 M2]. apply Nat.eqb_eq in M1, M2. destruct Hc. constructor; cbn [patterns shape detector background xmap]; auto.
    intros m' E'. injection E' as <-. auto.
  - unfold set_background in E. injection E as <-. destruct Hc. constructor; cbn [patterns shape detector background xmap]; auto.
    intros b' E'. injection E' as <-. exact Hp.
Qed.

(** Every history of such operations, failed ones included, leaves the signal consistent after each
    operation. *)
Fixpoint proper_history (s : ebsd) (ops : list operation) : Prop :=
  match ops with [] => True | op :: r => proper s op /\ proper_history (next s op) r end.
Theorem C63_history_keeps_signal_consistent_partial ops : forall s, consistent s -> proper_history s ops ->
  consistent (history s ops).
Proof.
  induction ops as [|op ops IH]; intros s Hc Hp; [exact Hc|]. cbn [proper_history] in Hp. destruct Hp as [Hp Hr].
  unfold history. cbn [fold_left]. apply IH; [|exact Hr]. unfold next. destruct (apply op s) as [s'|] eqn:E; [|exact Hc].
  exact (step_consistent s op s' Hc Hp E).
Qed.
Print Assumptions C63_history_keeps_signal_consistent_partial.

(** ** What breaks a signal *)

(** Any slice of the detector of a signal of more than one pattern with one PC for all: the signal
    refuses its own detector afterwards. *)
Theorem C63_isig_with_one_pc_refuted s ys xs s' : consistent s -> Props.SignalSlices.plain ys -> Props.SignalSlices.plain xs ->
  one_pc (detector s) -> 1 < nrows (patterns s) * ncols (patterns s) -> isig ys xs s = Some s' ->
  ~ consistent s' /\ set_detector (detector s') s' = None.
Proof.
  intros Hc Py Px [Hn Hl] Hm E.
  destruct (isig_consistent s ys xs s' Hc Py Px E) as (I1 & I2 & I3 & I4 & I5 & I6 & I7 & I8 & I9 & I10 & I11).
  rewrite Hn in I3. cbn in I3.
  assert (F : set_detector (detector s') s' = None).
  { unfold set_detector, detector_is_compatible. rewrite I3. unfold navigation_shape. rewrite I7, I8.
    destruct (same_shape [1; 1] [1]) eqn:S1; [apply same_shape_spec in S1; discriminate|].
    destruct (same_shape [1; 1] [nrows (patterns s); ncols (patterns s)]) eqn:S2.
    - apply same_shape_spec in S2. injection S2 as R C. nia.
    - cbn [orb]. now rewrite andb_false_r. }
  split; [|exact F]. intros Hc'. destruct (C63_consistent_signal_accepts_its_attributes s' Hc') as [A _]. congruence.
Qed.
Print Assumptions C63_isig_with_one_pc_refuted.

(** A background of any shape is accepted. *)
Theorem C63_background_of_other_shape_refuted s b : nrows b <> fst (shape s) ->
  exists s', set_background b s = Some s' /\ ~ consistent s'.
Proof.
  intros H. eexists. split; [reflexivity|]. intros Hc. destruct (background_has_shape _ Hc b eq_refl) as [E _]. contradiction.
Qed.

(** A history of a signal of 5 x 5 patterns of 2 x 3 pixels with one PC per pattern and a crystal map
    (C61): the rebinning by 3 and the crystal map of a wrong shape fail. *)
Definition day : list operation :=
  [ Intensities (fun m r c y x => at_ (at_ m r c) y x + 1)%R; Isig everything (Slice (Some 0%Z) (Some 2%Z));
    Inav (Slice (Some 1%Z) None) everything; Rebin 1 1 3 1; Downsampled 2 Float32; SetXmap (AMap 2 2 (fun _ _ => 7));
    SetXmap (AMap 4 5 (fun _ _ => 7)); Rebin 2 1 1 1; ExtractGrid 1 2 ].
Example C63_case : consistent Props.ExtractGrid.five /\ proper_history Props.ExtractGrid.five day
  /\ (nrows (patterns (history Props.ExtractGrid.five day)) = 1 /\ ncols (patterns (history Props.ExtractGrid.five day)) = 2)
  /\ shape (history Props.ExtractGrid.five day) = (1, 1).
Proof.
  split; [exact (proj1 Props.ExtractGrid.C61_case)|]. split; [|repeat split].
  cbn. repeat split; cbn; lia.
Qed.
Example C63_one_pc_case : consistent Props.Rebin.pixels46 /\ one_pc (detector Props.Rebin.pixels46)
  /\ 1 < nrows (patterns Props.Rebin.pixels46) * ncols (patterns Props.Rebin.pixels46)
  /\ exists s', isig everything (Slice (Some 1%Z) (Some 3%Z)) Props.Rebin.pixels46 = Some s'.
Proof. split; [exact (proj1 Props.Rebin.C62_case)|]. split; [split; reflexivity|]. split; [cbn; lia|]. eexists. reflexivity. Qed.
