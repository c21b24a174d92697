(** extract_grid(): property C61. *)
From Coq Require Import List Arith ZArith Reals Bool Lia.
From Verif Require Import Spec.Grid Spec.Consistency Model.Pattern Model.Intensity Model.MapOverlap Model.Downsample Model.PyArray Model.GridIndices
  Model.SignalSlices Model.SignalHistory Proofs.ListLemmas Proofs.GridIndicesProofs Proofs.SignalSlicesProofs Proofs.SignalHistoryProofs.
From Verif Require Model.Detector Model.DictIndex Props.GridIndices.
Import ListNotations.

(** An extracted grid has a list of map rows and one of map columns, each inside the map, evenly
    spaced and centred.  The pattern at (i, j) is the one at row number i and column number j of
    these; so is the PC at (i, j), if there is one for each pattern; one PC for all stays.  All other
    properties of the detector, the background and the shape of the patterns stay. *)
Theorem C61_patterns_and_pcs s g0 g1 s' : consistent s -> extract_grid g0 g1 s = Some s' ->
  exists rows cols s0 s1,
    Grid.inside (Z.of_nat (nrows (patterns s))) (map Z.of_nat rows) /\ evenly_spaced (Z.of_nat s0) (map Z.of_nat rows)
    /\ centred (Z.of_nat (nrows (patterns s))) (map Z.of_nat rows)
    /\ Grid.inside (Z.of_nat (ncols (patterns s))) (map Z.of_nat cols) /\ evenly_spaced (Z.of_nat s1) (map Z.of_nat cols)
    /\ centred (Z.of_nat (ncols (patterns s))) (map Z.of_nat cols)
    /\ nrows (patterns s') = length rows /\ ncols (patterns s') = length cols /\ length rows <= g0 /\ length cols <= g1
    /\ 1 <= length rows /\ 1 <= length cols
    /\ (forall i j y x, nth_error rows i = Some y -> nth_error cols j = Some x ->
          at_ (patterns s') i j = at_ (patterns s) y x
          /\ (pc_per_pattern (nrows (patterns s)) (ncols (patterns s)) (detector s) ->
              nth_error (Detector.pcs (Detector.d_pc (detector s'))) (i * length cols + j)
              = nth_error (Detector.pcs (Detector.d_pc (detector s))) (y * ncols (patterns s) + x)))
    /\ (pc_per_pattern (nrows (patterns s)) (ncols (patterns s)) (detector s) ->
        pc_per_pattern (length rows) (length cols) (detector s'))
    /\ (one_pc (detector s) ->
        Detector.d_pc (detector s') = Detector.d_pc (detector s))
    /\ Detector.with_pc (detector s') (Detector.d_pc (detector s)) = detector s
    /\ background s' = background s /\ shape s' = shape s.
Proof.
  intros Hc E. unfold extract_grid in E. cbn [fst snd] in E.
  destruct (_ || _)%bool; [discriminate|]. destruct (grid_indices_2d _ _) as [idx|] eqn:Ei; [|discriminate]. injection E as <-.
  destruct (grid_eq _ _ _ _ _ Ei) as (H1 & H2 & H3 & H4 & _).
  set (r := nrows (patterns s)) in *. set (c := ncols (patterns s)) in *.
  exists (map (pos g0 r) (seq 0 (count g0 r))), (map (pos g1 c) (seq 0 (count g1 c))), (spacing g0 r), (spacing g1 c).
  assert (L : forall g n, 1 <= n -> map Z.of_nat (map (pos g n) (seq 0 (count g n))) = map (grid_index g n) (seq 0 (count g n))).
  { intros g n Hn. rewrite map_map. apply map_ext_in. intros i Hi. apply in_seq in Hi. unfold pos.
    pose proof (grid_index_inside g n i Hn). lia. }
  destruct (Props.GridIndices.grid_list_facts g0 r H1) as (F1 & F2 & F3 & F4).
  destruct (Props.GridIndices.grid_list_facts g1 c H2) as (G1 & G2 & G3 & G4).
  rewrite !L by assumption. rewrite map_length, seq_length in F4, G4. rewrite !map_length, !seq_length.
  cbn [patterns detector background shape Detector.with_pc Detector.d_pc at_grid nrows ncols at_].
  rewrite (grid_size_eq Ei). cbn [fst snd].
  do 6 (split; [assumption|]). do 2 (split; [reflexivity|]). do 4 (split; [assumption|]).
  assert (P : pc_per_pattern r c (detector s) ->
     grid_pc idx (r, c) (Detector.d_pc (detector s))
     = Detector.PCArray [count g0 r; count g1 c]
         (flat_map (fun i => map (fun j => let (y, x) := cell idx i j in nth (y * c + x) (Detector.pcs (Detector.d_pc (detector s))) (Detector.PC 0 0 0)) (seq 0 (count g1 c))) (seq 0 (count g0 r)))).
  { intros [P1 P2]. unfold grid_pc. rewrite P1. cbn [fst snd]. rewrite (proj2 (same_shape_spec [r; c] [r; c]) eq_refl).
    rewrite (grid_size_eq Ei). reflexivity. }
  split; [|split; [|split; [|split; [|split; reflexivity]]]].
  - intros i j y x Hi Hj. rewrite nth_error_map in Hi, Hj.
    assert (Li : i < count g0 r).
    { assert (nth_error (seq 0 (count g0 r)) i <> None) as K by (destruct (nth_error _ i); discriminate). apply nth_error_Some in K. now rewrite seq_length in K. }
    assert (Lj : j < count g1 c).
    { assert (nth_error (seq 0 (count g1 c)) j <> None) as K by (destruct (nth_error _ j); discriminate). apply nth_error_Some in K. now rewrite seq_length in K. }
    rewrite nth_error_seq in Hi, Hj by assumption. cbn in Hi, Hj. injection Hi as <-. injection Hj as <-.
    rewrite (cell_eq Ei) by assumption. cbn [fst snd]. split; [reflexivity|]. intros Hp. rewrite (P Hp). cbn [Detector.pcs].
    rewrite (nth_error_flat_grid (fun i j => let (y, x) := cell idx i j in nth (y * c + x) (Detector.pcs (Detector.d_pc (detector s))) (Detector.PC 0 0 0))) by assumption.
    cbn [Nat.add]. rewrite (cell_eq Ei) by assumption. symmetry. apply nth_error_nth'. destruct Hp as [_ ->].
    pose proof (pos_inside g0 r i H1 Li). pose proof (pos_inside g1 c j H2 Lj). nia.
  - intros Hp. unfold pc_per_pattern. rewrite (P Hp). cbn [Detector.nav_shape Detector.pcs]. split; [reflexivity|].
    apply (flat_grid_length (fun i j => let (y, x) := cell idx i j in nth (y * c + x) (Detector.pcs (Detector.d_pc (detector s))) (Detector.PC 0 0 0))).
  - intros [Hp _]. unfold grid_pc. rewrite Hp. cbn [fst snd].
    destruct (same_shape [1] [r; c]) eqn:Q; [apply same_shape_spec in Q; discriminate|]. now rewrite (proj2 (same_shape_spec [1] [1]) eq_refl).
  - destruct (detector s). reflexivity.
Qed.
Print Assumptions C61_patterns_and_pcs.

(** The points of the crystal map are those of the patterns, in the same order. *)
Theorem C61_crystal_map_points s g0 g1 s' m idx : consistent s -> xmap s = Some m ->
  extract_grid g0 g1 s = Some s' -> grid_indices_2d (g0, g1) (nrows (patterns s), ncols (patterns s)) = Some idx ->
  xmap_points idx m = ravel (AMap (nrows (patterns s')) (ncols (patterns s'))
                               (fun i j => at_ m (fst (cell idx i j)) (snd (cell idx i j))))
  /\ forall i j, i < nrows (patterns s') -> j < ncols (patterns s') ->
     at_ (patterns s') i j = at_ (patterns s) (fst (cell idx i j)) (snd (cell idx i j)).
Proof.
  intros Hc Hm E Ei. unfold extract_grid in E. destruct (_ || _)%bool; [discriminate|]. rewrite Ei in E. injection E as <-.
  cbn [patterns at_grid nrows ncols at_]. split; [|reflexivity].
  destruct (xmap_has_shape _ Hc m Hm) as [R C]. rewrite <- R, <- C in Ei.
  rewrite (xmap_points_eq g0 g1 idx m Ei), (grid_size_eq Ei). unfold ravel. cbn [fst snd nrows ncols at_].
  rewrite !flat_map_concat_map. f_equal. apply map_ext_in. intros i Hi. apply map_ext_in. intros j Hj.
  apply in_seq in Hi, Hj. rewrite (cell_eq Ei) by lia. reflexivity.
Qed.
Print Assumptions C61_crystal_map_points.

(** A grid of the shape that was asked for is there on maps that are large enough. *)
Theorem C61_grid_exists s g0 g1 : consistent s -> 1 <= g0 -> 1 <= g1 ->
  g0 * g0 < nrows (patterns s) -> g1 * g1 < ncols (patterns s) ->
  exists s', extract_grid g0 g1 s = Some s' /\ nrows (patterns s') = g0 /\ ncols (patterns s') = g1.
Proof.
  intros Hc H1 H2 H3 H4. unfold extract_grid. cbn [fst snd].
  destruct (Nat.ltb_spec (nrows (patterns s)) g0); [nia|]. destruct (Nat.ltb_spec (ncols (patterns s)) g1); [nia|]. cbn [orb].
  destruct (grid_indices_2d (g0, g1) (nrows (patterns s), ncols (patterns s))) as [idx|] eqn:Ei.
  - eexists. split; [reflexivity|]. cbn [patterns at_grid nrows ncols]. rewrite (grid_size_eq Ei). cbn [fst snd].
    now rewrite !count_eq_large by assumption.
  - exfalso. rewrite grid_indices_2d_eq in Ei. rewrite !count_eq_large in Ei by assumption.
    destruct (Nat.eqb_spec (nrows (patterns s)) 0); [lia|]. destruct (Nat.eqb_spec (ncols (patterns s)) 0); [lia|].
    destruct (Nat.eqb_spec g0 0); [lia|]. destruct (Nat.eqb_spec g1 0); [lia|]. discriminate.
Qed.

(** The crystal map does not have the shape of the new map: whenever two grid rows are more than one
    map row apart, the new signal refuses its own crystal map. *)
Theorem C61_crystal_map_shape_refuted s g0 g1 s' m' : consistent s -> extract_grid g0 g1 s = Some s' -> xmap s' = Some m' ->
  2 <= nrows (patterns s') -> 2 <= spacing g0 (nrows (patterns s)) ->
  nrows m' <> nrows (patterns s') /\ set_xmap m' s' = None.
Proof.
  intros Hc E Em Hr Hs. unfold extract_grid in E. destruct (_ || _)%bool; [discriminate|].
  destruct (grid_indices_2d _ _) as [idx|] eqn:Ei; [|discriminate]. injection E as <-. cbn [xmap patterns at_grid nrows] in *.
  destruct (xmap s) as [m|]; [|discriminate]. injection Em as <-. rewrite (grid_size_eq Ei) in *. cbn [fst snd] in *.
  destruct (box_size _ _ _ _ _ m Ei) as [B1 _].
  assert (N : nrows (box idx m) <> count g0 (nrows (patterns s))) by (rewrite B1; nia).
  split; [exact N|]. unfold set_xmap. cbn [patterns at_grid nrows ncols]. rewrite (grid_size_eq Ei). cbn [fst].
  destruct (Nat.eqb_spec (nrows (box idx m)) (count g0 (nrows (patterns s)))); [contradiction|reflexivity].
Qed.
Print Assumptions C61_crystal_map_shape_refuted.

(** A 5 x 5 map with one PC per pattern and a crystal map: a 2 x 2 grid of rows and columns 2 and 4
    (spacing 2), with a crystal map of 3 x 3. *)
Definition five : ebsd :=
  EBSD (AMap 5 5 (fun r c => AMap 2 3 (fun _ _ => INR (r * 5 + c)))) (2, 3)
    (Detector.Det 2 3 1 1 0 0 0 70 (Detector.PCArray [5; 5] (map (fun i => Detector.PC (INR i) 0.5 0.5) (seq 0 25))))
    (Some (AMap 2 3 (fun _ _ => 1%R))) (Some (AMap 5 5 (fun r c => r * 5 + c))).
Example C61_case : consistent five
  /\ (exists s', extract_grid 2 2 five = Some s' /\ nrows (patterns s') = 2 /\ spacing 2 (nrows (patterns five)) = 2
      /\ (exists m', xmap s' = Some m' /\ nrows m' = 3))
  /\ exists idx, grid_indices_2d (2, 2) (5, 5) = Some idx /\ xmap_points idx (AMap 5 5 (fun r c => r * 5 + c)) <> [].
Proof.
  split; [|split].
  - constructor; cbn; try lia; auto.
    + right. split; reflexivity.
    + intros b Eb. injection Eb as <-. auto.
    + intros m Em. injection Em as <-. auto.
  - eexists. split; [reflexivity|]. split; [reflexivity|]. split; [reflexivity|]. eexists. split; reflexivity.
  - eexists. split; [reflexivity|]. vm_compute. discriminate.
Qed.
