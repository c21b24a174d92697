(** Neighbour dot products: properties C18, C19. *)
From Coq Require Import List Arith ZArith Bool Reals Lra Lia.
From Verif Require Import Model.Pattern Model.MapOverlap Model.NeighbourDot Proofs.ListLemmas Proofs.MapOverlapProofs
  Proofs.PatternProofs Proofs.NeighbourDotProofs.
Import ListNotations.

(** The signal in memory, or lazy with one chunk. *)
Definition one_chunk {A} (m : amap A) : list nat * list nat := ([nrows m], [ncols m]).

Lemma depth_ok merge w_size axis chunks : merges merge -> Nat.odd w_size = true -> total chunks = axis ->
  let d := overlap_depth w_size axis chunks in
  w_size / 2 <= d /\ w_size - 1 - w_size / 2 <= d
  \/ forall i, i < axis -> locate 0 i (merge d chunks) = Some (0, axis).
Proof.
  intros [_ M0] O T. unfold overlap_depth. destruct (Nat.eqb_spec (chunksize chunks) axis) as [E|E].
  - right. rewrite M0 by (apply Forall_forall; intros; lia). subst axis. apply total_max. exact E.
  - left. apply Nat.odd_spec in O as [k ->].
    replace ((2 * k + 1) / 2)%nat with k by (apply Nat.div_unique with 1%nat; lia). lia.
Qed.
Lemma depth_one w_size n : overlap_depth w_size n [n] = 0.
Proof. unfold overlap_depth, chunksize. simpl. rewrite Nat.max_0_r, Nat.eqb_refl. reflexivity. Qed.
Lemma one_chunk_whole {B} merge (F : amap pattern -> nat -> nat -> B) m : merges merge ->
  (exists ry ry' rx rx', local ry ry' rx rx' F) ->
  exists G, map_overlap merge F [nrows m] [ncols m] 0 0 m = Some G
    /\ forall y x, y < nrows m -> x < ncols m -> G y x = Some (F m y x).
Proof.
  intros HM (ry & ry' & rx & rx' & HL). eexists. split; [reflexivity|].
  apply (map_overlap_whole merge F [nrows m] [ncols m] 0 0 m ry ry' rx rx'); try assumption; try reflexivity;
    try (simpl; lia).
  - right. intros i Hi. rewrite (proj2 HM) by (repeat constructor; lia). simpl. rewrite (proj2 (Nat.ltb_lt _ _)) by exact Hi. reflexivity.
  - right. intros i Hi. rewrite (proj2 HM) by (repeat constructor; lia). simpl. rewrite (proj2 (Nat.ltb_lt _ _)) by exact Hi. reflexivity.
Qed.

(** C18.  For a window with odd sizes: whatever the chunks of the navigation axes are, and however
    dask merges small chunks, if the map is computed at all, it is at every point what is computed
    with the data in one chunk. *)
Theorem C18_map_independent_of_chunks :
  forall merge zm nz w ychunks xchunks m G, merges merge ->
    Nat.odd (wny w) = true -> Nat.odd (wnx w) = true ->
    total ychunks = nrows m -> total xchunks = ncols m ->
    get_average_neighbour_dot_product_map merge zm nz w ychunks xchunks m = Some G ->
    exists G1, get_average_neighbour_dot_product_map merge zm nz w (fst (one_chunk m)) (snd (one_chunk m)) m = Some G1
      /\ forall y x, y < nrows m -> x < ncols m -> G y x = G1 y x /\ G y x <> None.
Proof.
  intros merge zm nz w ychunks xchunks m G HM Oy Ox Ty Tx H. unfold get_average_neighbour_dot_product_map in *.
  destruct (center_index w) as [ci|] eqn:Hci; [|discriminate].
  assert (Hw : 0 < wnx w) by (destruct (wnx w); [discriminate|lia]).
  pose proof (average_local zm nz w ci Hw Hci) as HL.
  destruct (one_chunk_whole merge (average_dot_product zm nz w ci) m HM ltac:(repeat eexists; exact HL)) as (G1 & E1 & H1).
  exists G1. cbn [one_chunk fst snd]. rewrite !depth_one. split; [exact E1|]. intros y x Hy Hx.
  rewrite (H1 y x Hy Hx).
  rewrite (map_overlap_whole _ _ _ _ _ _ m _ _ _ _ G HM Ty Tx HL
    (depth_ok merge (wny w) (nrows m) ychunks HM Oy Ty) (depth_ok merge (wnx w) (ncols m) xchunks HM Ox Tx) H y x Hy Hx).
  split; [reflexivity|discriminate].
Qed.
Print Assumptions C18_map_independent_of_chunks.

Theorem C18_matrices_independent_of_chunks :
  forall merge zm nz w ychunks xchunks m G, merges merge ->
    Nat.odd (wny w) = true -> Nat.odd (wnx w) = true ->
    total ychunks = nrows m -> total xchunks = ncols m ->
    get_neighbour_dot_product_matrices merge zm nz w ychunks xchunks m = Some G ->
    exists G1, get_neighbour_dot_product_matrices merge zm nz w (fst (one_chunk m)) (snd (one_chunk m)) m = Some G1
      /\ forall y x, y < nrows m -> x < ncols m -> G y x = G1 y x /\ G y x <> None.
Proof.
  intros merge zm nz w ychunks xchunks m G HM Oy Ox Ty Tx H. unfold get_neighbour_dot_product_matrices in *.
  destruct (center_index w) as [ci|] eqn:Hci; [|discriminate].
  assert (Hw : 0 < wnx w) by (destruct (wnx w); [discriminate|lia]).
  pose proof (matrix_local zm nz w ci Hw Hci) as HL.
  destruct (one_chunk_whole merge (dot_product_matrix zm nz w ci) m HM ltac:(repeat eexists; exact HL)) as (G1 & E1 & H1).
  exists G1. cbn [one_chunk fst snd]. rewrite !depth_one. split; [exact E1|]. intros y x Hy Hx.
  rewrite (H1 y x Hy Hx).
  rewrite (map_overlap_whole _ _ _ _ _ _ m _ _ _ _ G HM Ty Tx HL
    (depth_ok merge (wny w) (nrows m) ychunks HM Oy Ty) (depth_ok merge (wnx w) (ncols m) xchunks HM Ox Tx) H y x Hy Hx).
  split; [reflexivity|discriminate].
Qed.
Print Assumptions C18_matrices_independent_of_chunks.

(** The chunked computation succeeds exactly when the one in one chunk does and the depth of the
    overlap is not larger than the axis. *)
Theorem C18_when_it_succeeds :
  forall merge zm nz w ychunks xchunks m, merges merge ->
    (exists G, get_average_neighbour_dot_product_map merge zm nz w ychunks xchunks m = Some G)
    <-> (exists G1, get_average_neighbour_dot_product_map merge zm nz w (fst (one_chunk m)) (snd (one_chunk m)) m = Some G1)
        /\ (chunksize ychunks = nrows m \/ wny w - wny w / 2 - 1 <= nrows m)
        /\ (chunksize xchunks = ncols m \/ wnx w - wnx w / 2 - 1 <= ncols m).
Proof.
  intros merge zm nz w ychunks xchunks m HM. unfold get_average_neighbour_dot_product_map, map_overlap.
  cbn [one_chunk fst snd]. rewrite !depth_one.
  destruct (center_index w) as [ci|].
  2:{ split; [intros [G H]; discriminate|intros [[G H] _]; discriminate]. }
  rewrite !(proj2 (Nat.ltb_ge (nrows m) 0)), !(proj2 (Nat.ltb_ge (ncols m) 0)) by lia. cbn [orb].
  unfold overlap_depth.
  destruct (Nat.eqb_spec (chunksize ychunks) (nrows m)) as [Ey|Ey];
    destruct (Nat.eqb_spec (chunksize xchunks) (ncols m)) as [Ex|Ex];
    rewrite ?(proj2 (Nat.ltb_ge (nrows m) 0)), ?(proj2 (Nat.ltb_ge (ncols m) 0)) by lia; cbn [orb].
  - split; [intros _|intros _; eexists; reflexivity]. split; [eexists; reflexivity|tauto].
  - destruct (Nat.ltb_spec (ncols m) (wnx w - wnx w / 2 - 1)).
    + split; [intros [G H']; discriminate|intros (_ & _ & [|]); [contradiction|lia]].
    + split; [intros _|intros _; eexists; reflexivity]. split; [eexists; reflexivity|tauto].
  - destruct (Nat.ltb_spec (nrows m) (wny w - wny w / 2 - 1)); cbn [orb].
    + split; [intros [G H']; discriminate|intros (_ & [|] & _); [contradiction|lia]].
    + split; [intros _|intros _; eexists; reflexivity]. split; [eexists; reflexivity|tauto].
  - destruct (Nat.ltb_spec (nrows m) (wny w - wny w / 2 - 1)); cbn [orb].
    + split; [intros [G H']; discriminate|intros (_ & [|] & _); [contradiction|lia]].
    + destruct (Nat.ltb_spec (ncols m) (wnx w - wnx w / 2 - 1)).
      * split; [intros [G H']; discriminate|intros (_ & _ & [|]); [contradiction|lia]].
      * split; [intros _|intros _; eexists; reflexivity]. split; [eexists; reflexivity|tauto].
Qed.

(** So a lazy signal in chunks can fail where the signal in memory does not: a map of two columns in
    chunks of one with a window of seven columns. *)
Example no_merge : merges (fun _ c => c).
Proof. split; reflexivity. Qed.
Theorem C18_wide_window_refuted :
  forall zm nz (m : amap pattern), nrows m = 1 -> ncols m = 2 ->
    let w := BWindow 1 7 (repeat true 7) in
    (exists G1, get_average_neighbour_dot_product_map (fun _ c => c) zm nz w [1] [2] m = Some G1)
    /\ get_average_neighbour_dot_product_map (fun _ c => c) zm nz w [1] [1; 1] m = None.
Proof.
  intros zm nz m H1 H2 w. unfold get_average_neighbour_dot_product_map, map_overlap.
  replace (center_index w) with (Some 3) by reflexivity. rewrite H1, H2. simpl. split; [eexists; reflexivity|reflexivity].
Qed.

(** For windows with an even size the overlap is one too small, and the result depends on the
    chunks: two patterns, a window of two columns.  The right pattern has the left one as its only
    neighbour, but not if the two are in different chunks. *)
Theorem C18_even_window_refuted :
  forall zm nz (p q : pattern) v, dot_product zm nz p q = Some v ->
    let m := AMap 1 2 (fun _ x => if x =? 0 then p else q) in
    let w := BWindow 1 2 [true; true] in
    exists G G1,
      get_average_neighbour_dot_product_map (fun _ c => c) zm nz w [1] [2] m = Some G
      /\ get_average_neighbour_dot_product_map (fun _ c => c) zm nz w [1] [1; 1] m = Some G1
      /\ G 0 1 = Some (Some v) /\ G1 0 1 = Some None.
Proof.
  intros zm nz p q v Hv m w.
  do 2 eexists. split; [reflexivity|]. split; [reflexivity|]. split.
  - transitivity (Some (average_dot_product zm nz w 1 (sub m 0 1 0 2) 0 1)); [reflexivity|].
    rewrite average_closed by (reflexivity || (simpl; lia)).
    replace (filter (fun k => negb (k =? window_origin w)) (truthy w)) with [0] by reflexivity. cbn [map].
    replace (entry zm nz w (sub m 0 1 0 2) 0 1 0) with (dot_product zm nz p q) by reflexivity.
    rewrite Hv. unfold nanmean, not_nan, vmean, vsum. simpl. f_equal. f_equal. field.
  - reflexivity.
Qed.

(** A case that meets the hypotheses of the theorems above: three by four patterns in uneven chunks
    and the default window (the four nearest neighbours). *)
Example C18_case : let w := BWindow 3 3 [false; true; false; true; true; true; false; true; false] in
  forall zm nz (f : nat -> nat -> pattern),
  exists G, get_average_neighbour_dot_product_map (fun _ c => c) zm nz w [1; 2] [2; 1; 1] (AMap 3 4 f) = Some G.
Proof. intros w zm nz f. eexists. reflexivity. Qed.

(** ** C19 *)

(** What the matrix of a point contains: at row i, column j of the window (where its coefficient is
    not zero) the dot product with the pattern that many rows and columns from the point, counted
    from the middle of the window, NaN if there is none, and NaN where the coefficient is zero. *)
Theorem C19_matrix_entries :
  forall zm nz w ci m y x i j, center_index w = Some ci -> y < nrows m -> x < ncols m ->
    i < wny w -> j < wnx w ->
    nth_error (dot_product_matrix zm nz w ci m y x) (i * wnx w + j) =
    Some (if nth (i * wnx w + j) (wflat w) false
          then match look m (Z.of_nat y + (Z.of_nat i - Z.of_nat (wny w / 2)))
                            (Z.of_nat x + (Z.of_nat j - Z.of_nat (wnx w / 2))) with
               | Some q => dot_product zm nz q (at_ m y x)
               | None => None
               end
          else None).
Proof.
  intros zm nz w ci m y x i j Hci Hy Hx Hi Hj.
  rewrite matrix_closed by (assumption || lia).
  rewrite nth_error_map, nth_error_seq by nia. cbn [option_map]. replace (0 + (i * wnx w + j)) with (i * wnx w + j) by lia.
  f_equal. destruct (nth (i * wnx w + j) (wflat w) false); [|reflexivity].
  unfold entry, under.
  assert (E1 : (i * wnx w + j) / wnx w = i).
  { rewrite Nat.div_add_l by lia. rewrite (Nat.div_small j) by lia. lia. }
  assert (E2 : (i * wnx w + j) mod wnx w = j).
  { rewrite Nat.add_comm, Nat.mod_add by lia. apply Nat.mod_small. lia. }
  rewrite E1, E2, <- !Z.add_sub_assoc. reflexivity.
Qed.
Print Assumptions C19_matrix_entries.

(** The map from the matrices (of one call) is the map computed directly (in another), at every
    point, for every window with odd sizes, both with any chunks. *)
Theorem C19_map_from_matrices :
  forall merge zm nz w yc xc yc' xc' m G M, merges merge ->
    Nat.odd (wny w) = true -> Nat.odd (wnx w) = true ->
    total yc = nrows m -> total xc = ncols m -> total yc' = nrows m -> total xc' = ncols m ->
    get_average_neighbour_dot_product_map merge zm nz w yc xc m = Some G ->
    get_neighbour_dot_product_matrices merge zm nz w yc' xc' m = Some M ->
    forall y x, y < nrows m -> x < ncols m ->
      exists matrix, M y x = Some matrix /\ G y x = Some (average_from_matrix w matrix).
Proof.
  intros merge zm nz w yc xc yc' xc' m G M HM Oy Ox Ty Tx Ty' Tx' HG HMat y x Hy Hx.
  unfold get_average_neighbour_dot_product_map, get_neighbour_dot_product_matrices in *.
  destruct (center_index w) as [ci|] eqn:Hci; [|discriminate].
  assert (Hw : 0 < wnx w) by (destruct (wnx w); [discriminate|lia]).
  rewrite (map_overlap_whole _ _ _ _ _ _ m _ _ _ _ G HM Ty Tx (average_local zm nz w ci Hw Hci)
    (depth_ok merge (wny w) (nrows m) yc HM Oy Ty) (depth_ok merge (wnx w) (ncols m) xc HM Ox Tx) HG y x Hy Hx).
  rewrite (map_overlap_whole _ _ _ _ _ _ m _ _ _ _ M HM Ty' Tx' (matrix_local zm nz w ci Hw Hci)
    (depth_ok merge (wny w) (nrows m) yc' HM Oy Ty') (depth_ok merge (wnx w) (ncols m) xc' HM Ox Tx') HMat y x Hy Hx).
  eexists. split; [reflexivity|]. f_equal. symmetry. apply average_from_matrix_eq; assumption.
Qed.
Print Assumptions C19_map_from_matrices.
(** The same for any window, also of even size, in one chunk. *)
Theorem C19_map_from_matrices_one_chunk :
  forall zm nz w ci m y x, center_index w = Some ci -> 0 < wnx w -> y < nrows m -> x < ncols m ->
    average_dot_product zm nz w ci m y x = average_from_matrix w (dot_product_matrix zm nz w ci m y x).
Proof. intros. symmetry. apply average_from_matrix_eq; assumption. Qed.

(** The mean itself: over the neighbours in the window other than the point itself. *)
Theorem C19_map_is_mean_over_neighbours :
  forall zm nz w ci m y x v, center_index w = Some ci -> 0 < wnx w -> y < nrows m -> x < ncols m ->
    average_dot_product zm nz w ci m y x = Some v ->
    exists values : list R,
      v = (fold_right Rplus 0 values / INR (length values))%R /\ values <> []
      /\ values = not_nan (flat_map (fun i => flat_map (fun j =>
           if (nth (i * wnx w + j) (wflat w) false && negb ((i =? wny w / 2) && (j =? wnx w / 2)))%bool
           then match look m (Z.of_nat y + (Z.of_nat i - Z.of_nat (wny w / 2)))
                            (Z.of_nat x + (Z.of_nat j - Z.of_nat (wnx w / 2))) with
                | Some q => [dot_product zm nz q (at_ m y x)]
                | None => []
                end
           else []) (seq 0 (wnx w))) (seq 0 (wny w))).
Proof.
  intros zm nz w ci m y x v Hci Hw Hy Hx H. rewrite average_closed in H by assumption.
  unfold nanmean in H.
  set (T := map (entry zm nz w m y x) (filter (fun k => negb (k =? window_origin w)) (truthy w))) in *.
  exists (not_nan T). destruct (not_nan T) as [|a r] eqn:E; [discriminate|]. injection H as <-.
  split; [reflexivity|]. split; [discriminate|]. rewrite <- E. unfold T, truthy.
  rewrite filter_filter, <- not_nan_filter, seq_rows.
  unfold not_nan. rewrite map_flat_map, !flat_map_flat_map. apply flat_map_ext_in. intros i Hi.
  rewrite flat_map_flat_map, map_map, flat_map_map. apply flat_map_ext_in. intros j Hj.
  apply in_seq in Hi. apply in_seq in Hj.
  assert (Eo : (i * wnx w + j =? window_origin w) = ((i =? wny w / 2) && (j =? wnx w / 2))).
  { unfold window_origin. assert (wnx w / 2 < wnx w) by (apply Nat.div_lt; lia).
    apply eq_iff_eq_true. rewrite andb_true_iff, !Nat.eqb_eq.
    generalize dependent (wnx w / 2). generalize (wny w / 2). intros a' b' Hb.
    split; [|intros [-> ->]; reflexivity]. intros E'.
    assert (i = a') by nia. subst i. split; [reflexivity|lia]. }
  rewrite Eo, andb_comm. destruct (nth (i * wnx w + j) (wflat w) false && negb ((i =? wny w / 2) && (j =? wnx w / 2)))%bool; [|reflexivity].
  unfold entry, under.
  assert (E1 : (i * wnx w + j) / wnx w = i).
  { rewrite Nat.div_add_l by lia. rewrite (Nat.div_small j) by lia. lia. }
  assert (E2 : (i * wnx w + j) mod wnx w = j).
  { rewrite Nat.add_comm, Nat.mod_add by lia. apply Nat.mod_small. lia. }
  rewrite E1, E2, <- !Z.add_sub_assoc. destruct (look _ _ _); [|reflexivity].
  simpl. rewrite app_nil_r. reflexivity.
Qed.
Print Assumptions C19_map_is_mean_over_neighbours.

(** With normalization all values are in [-1, 1], for the map and for the matrices. *)
Theorem C19_values_bounded :
  forall zm w ci m y x, center_index w = Some ci -> 0 < wnx w -> y < nrows m -> x < ncols m ->
    (forall a b c d, a < nrows m -> b < ncols m -> c < nrows m -> d < ncols m ->
       length (at_ m a b) = length (at_ m c d)) ->
    (forall v, average_dot_product zm true w ci m y x = Some v -> -1 <= v <= 1)%R
    /\ (forall v, In (Some v) (dot_product_matrix zm true w ci m y x) -> -1 <= v <= 1)%R.
Proof.
  intros zm w ci m y x Hci Hw Hy Hx HL.
  assert (Hb : forall k v, entry zm true w m y x k = Some v -> (-1 <= v <= 1)%R).
  { intros k v H. unfold entry, look in H. destruct (under w y x k) as [yy xx].
    destruct (inside m yy xx) eqn:I; [|discriminate]. apply inside_iff in I.
    eapply dot_product_bounded; [|exact H]. apply HL; lia. }
  split.
  - intros v H. rewrite average_closed in H by assumption. apply (nanmean_bounds _ _ _ _ H).
    intros u Hu. apply in_map_iff in Hu as (k & E & _). exact (Hb k u E).
  - intros v H. rewrite matrix_closed in H by assumption. apply in_map_iff in H as (k & E & _).
    destruct (nth k (wflat w) false); [|discriminate]. exact (Hb k v E).
Qed.
Print Assumptions C19_values_bounded.

(** Patterns whose pixels are not all equal. *)
Definition contrast (p : list R) : Prop := exists a b, In a p /\ In b p /\ a <> b.
Lemma prepare_contrast p : prepare true true p <> None <-> contrast p.
Proof.
  unfold prepare. split.
  - destruct (Req_EM_T (dot (zero_mean p) (zero_mean p)) 0%R) as [E|E]; [congruence|]. intros _.
    destruct (Req_EM_T (vmin p) (vmax p)) as [F|F].
    + exfalso. apply E, zero_mean_constant. intros a b Ha Hb.
      pose proof (vmin_le p a Ha). pose proof (vmax_ge p a Ha). pose proof (vmin_le p b Hb). pose proof (vmax_ge p b Hb). lra.
    + assert (p <> []) by (intros ->; apply F; reflexivity).
      exists (vmin p), (vmax p). repeat split; [now apply vmin_in|now apply vmax_in|exact F].
  - intros (a & b & Ha & Hb & N). pose proof (zero_mean_pos p (not_constant_pair p a b Ha Hb N)).
    destruct (Req_EM_T _ 0%R); [lra|discriminate].
Qed.

(** With the default options, a point has a value in the map exactly if its pattern has contrast
    and at least one pattern in the window around it, other than itself, has as well.  So patterns
    without contrast are left out of the averages of their neighbours and change nothing else. *)
Theorem C19_has_value_iff :
  forall w ci m y x, center_index w = Some ci -> 0 < wnx w -> y < nrows m -> x < ncols m ->
    average_dot_product true true w ci m y x <> None
    <-> contrast (at_ m y x)
        /\ exists i j q, i < wny w /\ j < wnx w /\ nth (i * wnx w + j) (wflat w) false = true
             /\ ~ (i = wny w / 2 /\ j = wnx w / 2)
             /\ look m (Z.of_nat y + (Z.of_nat i - Z.of_nat (wny w / 2)))
                       (Z.of_nat x + (Z.of_nat j - Z.of_nat (wnx w / 2))) = Some q
             /\ contrast q.
Proof.
  intros w ci m y x Hci Hw Hy Hx. rewrite average_closed by assumption. unfold nanmean.
  set (T := map (entry true true w m y x) (filter (fun k => negb (k =? window_origin w)) (truthy w))).
  assert (S : match not_nan T with [] => None | v => Some (vmean v) end <> None <-> exists v, In (Some v) T).
  { split.
    - destruct (not_nan T) as [|v r] eqn:E; [congruence|]. intros _. exists v. apply not_nan_in. rewrite E. now left.
    - intros (v & Hv). apply not_nan_in in Hv. destruct (not_nan T); [destruct Hv|discriminate]. }
  rewrite S. clear S.
  assert (D : forall q, (exists v, dot_product true true q (at_ m y x) = Some v) <-> contrast q /\ contrast (at_ m y x)).
  { intros q. rewrite <- !prepare_contrast. unfold dot_product.
    destruct (prepare true true q), (prepare true true (at_ m y x)); split.
    all: try (intros (v & H); discriminate). all: try (intros [H1 H2]; congruence).
    - intros _. split; discriminate.
    - intros _. eexists. reflexivity. }
  assert (O : forall i j, j < wnx w -> i * wnx w + j = window_origin w -> i = wny w / 2 /\ j = wnx w / 2).
  { intros i j Hj. unfold window_origin. assert (wnx w / 2 < wnx w) by (apply Nat.div_lt; lia).
    generalize dependent (wnx w / 2). generalize (wny w / 2). intros a' b' Hb E'.
    assert (i = a') by nia. subst i. split; [reflexivity|lia]. }
  assert (U : forall i j, j < wnx w -> entry true true w m y x (i * wnx w + j) =
    match look m (Z.of_nat y + (Z.of_nat i - Z.of_nat (wny w / 2))) (Z.of_nat x + (Z.of_nat j - Z.of_nat (wnx w / 2))) with
    | Some q => dot_product true true q (at_ m y x) | None => None end).
  { intros i j Hj. unfold entry, under.
    assert (E1 : (i * wnx w + j) / wnx w = i).
    { rewrite Nat.div_add_l by lia. rewrite (Nat.div_small j) by lia. lia. }
    assert (E2 : (i * wnx w + j) mod wnx w = j).
    { rewrite Nat.add_comm, Nat.mod_add by lia. apply Nat.mod_small. lia. }
    rewrite E1, E2, <- !Z.add_sub_assoc. reflexivity. }
  split.
  - intros (v & Hv). unfold T in Hv. apply in_map_iff in Hv as (k & E & Hk). apply filter_In in Hk as [Hk Ho].
    apply truthy_in in Hk as [Hk Ht].
    pose proof (Nat.div_mod k (wnx w) ltac:(lia)) as DM. pose proof (Nat.mod_upper_bound k (wnx w) ltac:(lia)) as MB.
    assert (K : k = k / wnx w * wnx w + k mod wnx w) by lia.
    rewrite K in E. rewrite U in E by exact MB.
    destruct (look m _ _) as [q|] eqn:L; [|discriminate].
    destruct (proj1 (D q) (ex_intro _ v E)) as [Cq Cp]. split; [exact Cp|].
    exists (k / wnx w), (k mod wnx w), q. split; [apply Nat.div_lt_upper_bound; lia|]. split; [exact MB|].
    split; [rewrite <- K; exact Ht|]. split; [|split; [exact L|exact Cq]].
    intros [E1 E2]. apply negb_true_iff, Nat.eqb_neq in Ho. apply Ho. rewrite K, E1, E2. reflexivity.
  - intros (Cp & i & j & q & Hi & Hj & Ht & Ho & L & Cq). destruct (proj2 (D q) (conj Cq Cp)) as (v & Ev).
    exists v. unfold T. apply in_map_iff. exists (i * wnx w + j). split; [rewrite U by exact Hj; rewrite L; exact Ev|].
    apply filter_In. split; [apply truthy_in; split; [nia|exact Ht]|].
    apply negb_true_iff, Nat.eqb_neq. intros E. apply Ho. now apply O.
Qed.
Print Assumptions C19_has_value_iff.

Example C19_case :
  let w := BWindow 3 3 [false; true; false; true; true; true; false; true; false] in
  let m := AMap 2 2 (fun y x => [INR y; INR x; 1%R]) in
  center_index w = Some 2 /\ 0 < wnx w /\ 1 < nrows m /\ 1 < ncols m
  /\ average_dot_product false false w 2 m 1 1 = Some 2%R.
Proof.
  intros w m. repeat split; [simpl; lia|simpl; lia|simpl; lia|].
  rewrite average_closed by (reflexivity || (simpl; lia)).
  unfold w, m. cbn. unfold nanmean. cbn. unfold vmean, vsum. cbn. f_equal. change (Pos.to_nat 1) with 1. simpl. field.
Qed.
(** One pattern with contrast beside one without: no value in either. *)
Example C19_no_value_case :
  let w := BWindow 1 3 [true; true; true] in
  let m := AMap 1 2 (fun _ x => if x =? 0 then [1; 2]%R else [1; 1]%R) in
  average_dot_product true true w 1 m 0 0 = None /\ contrast (at_ m 0 0).
Proof.
  intros w m. assert (C : contrast (at_ m 0 0)) by (exists 1%R, 2%R; cbn; repeat split; [now left|right; now left|lra]).
  split; [|exact C].
  destruct (average_dot_product true true w 1 m 0 0) as [v|] eqn:E; [exfalso|reflexivity].
  assert (N : average_dot_product true true w 1 m 0 0 <> None) by congruence.
  apply C19_has_value_iff in N; [|reflexivity|cbn; lia|cbn; lia|cbn; lia].
  destruct N as (_ & i & j & q & Hi & Hj & _ & Ho & L & (a & b & Ha & Hb & N)).
  cbn in Hi, Hj. assert (i = 0) by lia. subst i. destruct j as [|[|[|j]]]; [| | |lia]; cbn in L.
  - discriminate.
  - apply Ho. split; reflexivity.
  - injection L as <-. cbn in Ha, Hb. destruct Ha as [<-|[<-|[]]], Hb as [<-|[<-|[]]]; lra.
Qed.
