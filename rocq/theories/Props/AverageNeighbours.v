(** Averaging neighbour patterns: property C20. *)
From Coq Require Import List Arith ZArith Bool Reals Lra Lia.
From Verif Require Import Model.Pattern Model.Intensity Model.MapOverlap Model.AverageNeighbours Spec.WeightedMean
  Spec.Intensity Proofs.ListLemmas Proofs.MapOverlapProofs Proofs.PatternProofs Proofs.IntensityProofs
  Proofs.NeighbourDotProofs Proofs.AverageNeighboursProofs.
From Verif Require Model.Detector Model.Window.
Import ListNotations.
Local Open Scope R_scope.

(** ** The setting *)

(** A window whose rows are equally long and not empty. *)
Definition window_ok (w : Window.window) : Prop :=
  match w with
  | Window.W1 c => c <> []
  | Window.W2 rows => rows <> [] /\ hd [] rows <> [] /\ Forall (fun r => length r = length (hd [] rows)) rows
  end.
(** Its size and its coefficient at row i, column j, when used on a map with one or two axes; on a
    map with two axes a one-dimensional window is a column. *)
Definition window_rows (two_d : bool) (w : Window.window) : nat :=
  match two_d, w with true, Window.W1 c => length c | false, Window.W1 _ => 1 | _, Window.W2 rows => length rows end.
Definition window_cols (two_d : bool) (w : Window.window) : nat :=
  match two_d, w with true, Window.W1 _ => 1 | false, Window.W1 c => length c | _, Window.W2 rows => length (hd [] rows) end.
Definition window_weight (two_d : bool) (w : Window.window) (i j : nat) : R :=
  match two_d, w with
  | true, Window.W1 c => nth i c 0
  | false, Window.W1 c => nth j c 0
  | _, Window.W2 rows => nth j (nth i rows []) 0
  end.
(** Chunks that cover an axis of n points. *)
Definition chunks_of (n : nat) (chunks : list nat) : Prop := total chunks = n /\ Forall (fun c => (1 <= c)%nat) chunks.
(** A map in chunks; with one navigation axis it has one row (in one chunk). *)
Definition chunked (two_d : bool) (m : amap pattern) (ychunks xchunks : list nat) : Prop :=
  chunks_of (nrows m) ychunks /\ chunks_of (ncols m) xchunks /\ (two_d = false -> nrows m = 1%nat).

Definition sum_of_weights (two_d : bool) (w : Window.window) (m : amap pattern) : nat -> nat -> R :=
  weight_sum (nrows m) (ncols m) (window_rows two_d w) (window_cols two_d w) (window_weight two_d w).
Definition mean_pattern (two_d : bool) (w : Window.window) (m : amap pattern) : nat -> nat -> pattern :=
  weighted_mean (nrows m) (ncols m) (window_rows two_d w) (window_cols two_d w) (window_weight two_d w) (at_ m).

(** ** Proofs of the general form *)
Lemma concat_nth (rows : list (list R)) n i j : Forall (fun r => length r = n) rows -> (j < n)%nat ->
  nth (i * n + j) (concat rows) 0 = nth j (nth i rows []) 0.
Proof.
  intros H Hj. revert i. induction H as [|r rows Hr _ IH]; intros i.
  - simpl. destruct (i * n + j)%nat, i, j; reflexivity.
  - destruct i as [|i]; simpl.
    + apply app_nth1. lia.
    + rewrite app_nth2 by lia. replace (n + i * n + j - length r)%nat with (i * n + j)%nat by lia. apply IH.
Qed.
Lemma averaging_window_eq two_d window w : window_ok window -> averaging_window two_d window = Some w ->
  rny w = window_rows two_d window /\ rnx w = window_cols two_d window
  /\ (1 <= rny w)%nat /\ (1 <= rnx w)%nat
  /\ forall i j, (i < rny w)%nat -> (j < rnx w)%nat -> weight w i j = window_weight two_d window i j.
Proof.
  intros Hok H. destruct two_d, window as [c|rows]; simpl in *; try discriminate; injection H as <-; cbn [rny rnx weights].
  - repeat split; try lia. + destruct c; [contradiction|simpl; lia].
    + intros i j _ Hj. unfold weight. cbn [rnx weights]. f_equal. lia.
  - destruct Hok as (H1 & H2 & H3). repeat split; try lia.
    + destruct rows; [contradiction|simpl; lia].
    + destruct (hd [] rows); [contradiction|simpl; lia].
    + intros i j _ Hj. unfold weight. cbn [rnx weights]. apply concat_nth; assumption.
  - repeat split; try lia. + destruct c; [contradiction|simpl; lia].
    + intros i j Hi Hj. unfold weight. cbn [rnx weights]. f_equal. lia.
Qed.

Lemma depth_of_ok merge size axis chunks d : merges merge -> chunks_of axis chunks ->
  depth_of (Some size) axis chunks = Some d ->
  (size / 2 <= d /\ size - 1 - size / 2 <= d \/ forall i, i < axis -> locate 0 i (merge d chunks) = Some (0, axis))%nat.
Proof.
  intros HM [T P] H. unfold depth_of in H.
  destruct (Nat.ltb_spec (hd 0%nat chunks) axis) as [Hc|Hc].
  - cbn [option_map] in H. assert (d = size / 2 + 1)%nat by congruence. subst d.
    left. pose proof (Nat.div_mod size 2 ltac:(lia)). pose proof (Nat.mod_upper_bound size 2 ltac:(lia)). lia.
  - injection H as <-. right. intros i Hi.
    rewrite (proj2 HM) by exact P.
    destruct chunks as [|c r]; [simpl in T; lia|]. simpl in Hc, T.
    simpl. rewrite (proj2 (Nat.ltb_lt _ _)) by lia. f_equal. f_equal. lia.
Qed.
Lemma depth_of_none merge axis chunks d : merges merge -> chunks_of axis chunks ->
  depth_of None axis chunks = Some d ->
  (forall i, i < axis -> locate 0 i (merge d chunks) = Some (0, axis))%nat.
Proof.
  intros HM [T P] H. unfold depth_of in H.
  destruct (Nat.ltb_spec (hd 0%nat chunks) axis) as [Hc|Hc]; [discriminate|].
  injection H as <-. intros i Hi. rewrite (proj2 HM) by exact P.
  destruct chunks as [|c r]; [simpl in T; lia|]. simpl in Hc, T.
  simpl. rewrite (proj2 (Nat.ltb_lt _ _)) by lia. f_equal. f_equal. lia.
Qed.

Lemma average_general merge t two_d window ychunks xchunks m f :
  merges merge -> window_ok window -> chunked two_d m ychunks xchunks ->
  average_neighbour_patterns merge t two_d window ychunks xchunks m = Averaged f ->
  forall y x, (y < nrows m)%nat -> (x < ncols m)%nat ->
    f y x = Some (if (Detector.trunc (sum_of_weights two_d window m y x) =? 0)%Z then None
                  else Some (rescale_intensity None None t None (mean_pattern two_d window m y x))).
Proof.
  intros HM Hok (Cy & Cx & H1) H y x Hy Hx. unfold average_neighbour_patterns in H.
  assert (H' : match averaging_window two_d window with
    | None => Error
    | Some w =>
      let ysize := Some (rny w) in
      let xsize := match two_d, window with
                   | true, Window.W1 _ => None
                   | _, _ => Some (rnx w)
                   end in
      match (if two_d then depth_of ysize (nrows m) ychunks else Some 0%nat), depth_of xsize (ncols m) xchunks with
      | Some dy, Some dx =>
        match map_overlap merge (average_at t w) ychunks xchunks dy dx (zip m (window_sums w m)) with
        | Some f => Averaged f
        | None => Error
        end
      | _, _ => Error
      end
    end = Averaged f).
  { destruct (Window.shape window) as [|[|[|a]] [|[|[|b]] [|c r]]]; try discriminate H; exact H. }
  clear H. destruct (averaging_window two_d window) as [w|] eqn:E; [|discriminate].
  destruct (averaging_window_eq two_d window w Hok E) as (Ey & Ex & Py & Px & Ew). cbv zeta in H'.
  destruct (if two_d then depth_of (Some (rny w)) (nrows m) ychunks else Some 0%nat) as [dy|] eqn:Dy; [|discriminate].
  destruct (depth_of match two_d, window with true, Window.W1 _ => None | _, _ => Some (rnx w) end (ncols m) xchunks)
    as [dx|] eqn:Dx; [|discriminate].
  destruct (map_overlap merge (average_at t w) ychunks xchunks dy dx (zip m (window_sums w m))) as [g|] eqn:G; [|discriminate].
  injection H' as <-.
  rewrite (map_overlap_whole merge (average_at t w) ychunks xchunks dy dx (zip m (window_sums w m))
    (rny w / 2) (rny w - 1 - rny w / 2) (rnx w / 2) (rnx w - 1 - rnx w / 2) g); try assumption.
  - rewrite average_whole. unfold sum_of_weights, mean_pattern, weighted_mean, weight_sum.
    rewrite Ey, Ex in *.
    assert (EW : forall a b, window_sum (nrows m) (ncols m) (window_rows two_d window) (window_cols two_d window) a b (fun i j _ _ => weight w i j)
      = window_sum (nrows m) (ncols m) (window_rows two_d window) (window_cols two_d window) a b (fun i j _ _ => window_weight two_d window i j)).
    { intros a b. apply window_sum_ext. intros i j yy xx Hi Hj _ _. apply Ew; assumption. }
    rewrite EW. destruct (_ =? 0)%Z; [reflexivity|]. f_equal. f_equal. f_equal. apply map_ext. intros n.
    apply (f_equal2 Rdiv); [|reflexivity]. apply window_sum_ext. intros i j yy xx Hi Hj _ _. rewrite Ew by assumption. reflexivity.
  - apply Cy.
  - apply Cx.
  - apply average_at_local; assumption.
  - cbn [zip nrows]. destruct two_d.
    + apply depth_of_ok; assumption.
    + injection Dy as <-. left. destruct window; [|discriminate]. simpl in Ey. rewrite Ey. simpl. lia.
  - cbn [zip ncols]. destruct two_d, window; try discriminate; try (apply depth_of_ok; assumption).
    right. apply (depth_of_none merge _ _ dx HM Cx Dx).
Qed.

(** ** C20 *)

(** Every pattern becomes the weighted mean of the patterns of the map under the window, rescaled to
    the range of the data type, for every division of the map into chunks, provided the sum of the
    weights under the window (inside the map) is at least 1 in size. *)
Theorem C20_weighted_mean_for_all_chunks :
  forall merge t two_d window ychunks xchunks m f,
    merges merge -> window_ok window -> chunked two_d m ychunks xchunks ->
    average_neighbour_patterns merge t two_d window ychunks xchunks m = Averaged f ->
    forall y x, (y < nrows m)%nat -> (x < ncols m)%nat ->
      1 <= Rabs (sum_of_weights two_d window m y x) ->
      f y x = Some (Some (rescale_intensity None None t None (mean_pattern two_d window m y x))).
Proof.
  intros merge t two_d window ychunks xchunks m f HM Hok HC H y x Hy Hx HW.
  rewrite (average_general _ _ _ _ _ _ _ _ HM Hok HC H y x Hy Hx).
  destruct (Z.eqb_spec (Detector.trunc (sum_of_weights two_d window m y x)) 0) as [E|]; [|reflexivity].
  exfalso. unfold Rabs in HW. destruct (Rcase_abs _) as [Hn|Hn] in HW.
  - destruct (trunc_neg _ Hn) as [[H1 H2] H3]. rewrite E in H1, H2. simpl in H1, H2.
    pose proof (trunc_le (sum_of_weights two_d window m y x) (-1) ltac:(lra)) as H4.
    replace (-1) with (IZR (-1)) in H4 by reflexivity. rewrite trunc_IZR in H4. lia.
  - exact (trunc_ge1 _ HW E).
Qed.
Print Assumptions C20_weighted_mean_for_all_chunks.

(** The condition holds everywhere if no coefficient is negative and that in the origin is at least 1. *)
Theorem C20_weight_sum_at_least_one :
  forall two_d window (m : amap pattern) y x, window_ok window -> (two_d = false -> exists c, window = Window.W1 c) ->
    (forall i j, 0 <= window_weight two_d window i j) ->
    1 <= window_weight two_d window (window_rows two_d window / 2) (window_cols two_d window / 2) ->
    (y < nrows m)%nat -> (x < ncols m)%nat -> 1 <= Rabs (sum_of_weights two_d window m y x).
Proof.
  intros two_d window m y x Hok H1 Hnn Ho Hy Hx.
  set (ny := window_rows two_d window) in *. set (nx := window_cols two_d window) in *.
  assert (Pn : (1 <= ny)%nat /\ (1 <= nx)%nat).
  { unfold ny, nx. destruct two_d, window as [c|rows]; simpl in *.
    - destruct c; [contradiction|]; simpl; lia.
    - destruct Hok as (A & B & _). destruct rows; [contradiction|]. simpl in *. destruct l; [contradiction|]; simpl; lia.
    - destruct c; [contradiction|]; simpl; lia.
    - destruct (H1 eq_refl) as [c E]. discriminate. }
  assert (Hd : forall n, (1 <= n)%nat -> (n / 2 < n)%nat) by (intros; apply Nat.div_lt; lia).
  assert (1 <= sum_of_weights two_d window m y x); [|rewrite Rabs_right; lra].
  unfold sum_of_weights, weight_sum, window_sum. fold ny nx.
  apply Rle_trans with (1 := Ho). apply vsum_ge_member.
  - intros b Hb. apply in_flat_map in Hb as (i & Hi & Hb). apply in_flat_map in Hb as (j & Hj & Hb).
    cbv zeta in Hb. destruct (_ && _ && _ && _)%Z%bool in Hb; simpl in Hb; [|contradiction].
    destruct Hb as [<-|[]]. apply Hnn.
  - apply in_flat_map. exists (ny / 2)%nat. split; [apply in_seq; specialize (Hd ny); lia|].
    apply in_flat_map. exists (nx / 2)%nat. split; [apply in_seq; specialize (Hd nx); lia|].
    cbv zeta. destruct (_ && _ && _ && _)%Z%bool eqn:B; [left; reflexivity|].
    exfalso. apply not_true_iff_false in B. apply B. rewrite !andb_true_iff, !Z.leb_le, !Z.ltb_lt. lia.
Qed.

(** Two calls with the same data in different chunks give the same, whatever the weights. *)
Theorem C20_independent_of_chunks :
  forall merge t two_d window yc xc yc' xc' m f g,
    merges merge -> window_ok window -> chunked two_d m yc xc -> chunked two_d m yc' xc' ->
    average_neighbour_patterns merge t two_d window yc xc m = Averaged f ->
    average_neighbour_patterns merge t two_d window yc' xc' m = Averaged g ->
    forall y x, (y < nrows m)%nat -> (x < ncols m)%nat -> f y x = g y x.
Proof.
  intros merge t two_d window yc xc yc' xc' m f g HM Hok HC HC' Hf Hg y x Hy Hx.
  rewrite (average_general _ _ _ _ _ _ _ _ HM Hok HC Hf y x Hy Hx).
  rewrite (average_general _ _ _ _ _ _ _ _ HM Hok HC' Hg y x Hy Hx). reflexivity.
Qed.
Print Assumptions C20_independent_of_chunks.

(** Multiplying the window with a constant: no effect on the mean, hence none on the result where
    both sums of weights are at least 1 in size. *)
Definition scale_window (c : R) (w : Window.window) : Window.window :=
  match w with
  | Window.W1 l => Window.W1 (map (Rmult c) l)
  | Window.W2 rows => Window.W2 (map (map (Rmult c)) rows)
  end.
Lemma scale_window_rows c two_d w : window_rows two_d (scale_window c w) = window_rows two_d w.
Proof. destruct two_d, w; simpl; rewrite ?map_length; reflexivity. Qed.
Lemma scale_window_cols c two_d w : window_cols two_d (scale_window c w) = window_cols two_d w.
Proof.
  destruct two_d, w as [l|[|r rows]]; simpl; rewrite ?map_length; reflexivity.
Qed.
Lemma scale_window_weight c two_d w i j : window_weight two_d (scale_window c w) i j = c * window_weight two_d w i j.
Proof.
  assert (H : forall l n, nth n (map (Rmult c) l) 0 = c * nth n l 0).
  { intros l n. rewrite <- (map_nth (Rmult c) l 0 n). f_equal. ring. }
  assert (H2 : forall rows, nth j (nth i (map (map (Rmult c)) rows) []) 0 = c * nth j (nth i rows []) 0).
  { intros rows. rewrite <- H. f_equal. rewrite <- (map_nth (map (Rmult c)) rows [] i). reflexivity. }
  destruct two_d, w as [l|rows]; simpl; auto.
Qed.
Lemma scale_window_ok c w : window_ok w -> window_ok (scale_window c w).
Proof.
  destruct w as [l|[|r rows]]; simpl.
  - intros H E. apply map_eq_nil in E. contradiction.
  - tauto.
  - intros (H1 & H2 & H3). split; [discriminate|]. split; [intros E; apply map_eq_nil in E; contradiction|].
    inversion H3; subst. constructor; [reflexivity|]. apply Forall_forall. intros q Hq.
    apply in_map_iff in Hq as (q' & <- & Hq). rewrite !map_length. apply (proj1 (Forall_forall _ _) H5 q' Hq).
Qed.
Lemma window_sum_scale rows cols ny nx y x c g :
  window_sum rows cols ny nx y x (fun i j yy xx => c * g i j yy xx) = c * window_sum rows cols ny nx y x g.
Proof.
  unfold window_sum. change (fold_right Rplus 0) with vsum.
  rewrite !vsum_flat_map, <- vsum_map_scale. apply vsum_ext. intros i _.
  rewrite !vsum_flat_map, <- vsum_map_scale. apply vsum_ext. intros j _. cbv zeta.
  destruct (_ && _ && _ && _)%Z%bool; unfold vsum; simpl; ring.
Qed.
Theorem C20_scaling_the_window :
  forall merge t two_d window c ychunks xchunks m f g,
    merges merge -> window_ok window -> chunked two_d m ychunks xchunks ->
    average_neighbour_patterns merge t two_d window ychunks xchunks m = Averaged f ->
    average_neighbour_patterns merge t two_d (scale_window c window) ychunks xchunks m = Averaged g ->
    forall y x, (y < nrows m)%nat -> (x < ncols m)%nat ->
      1 <= Rabs (sum_of_weights two_d window m y x) -> 1 <= Rabs (c * sum_of_weights two_d window m y x) ->
      f y x = g y x.
Proof.
  intros merge t two_d window c ychunks xchunks m f g HM Hok HC Hf Hg y x Hy Hx H1 H2.
  assert (ES : sum_of_weights two_d (scale_window c window) m y x = c * sum_of_weights two_d window m y x).
  { unfold sum_of_weights, weight_sum. rewrite scale_window_rows, scale_window_cols, <- window_sum_scale.
    apply window_sum_ext. intros. apply scale_window_weight. }
  rewrite (C20_weighted_mean_for_all_chunks _ _ _ _ _ _ _ _ HM Hok HC Hf y x Hy Hx H1).
  rewrite (C20_weighted_mean_for_all_chunks _ _ _ _ _ _ _ _ HM (scale_window_ok c window Hok) HC Hg y x Hy Hx) by (rewrite ES; exact H2).
  f_equal. f_equal. f_equal. unfold mean_pattern, weighted_mean. apply map_ext. intros n.
  fold (sum_of_weights two_d window m y x). 
  change (weight_sum (nrows m) (ncols m) (window_rows two_d window) (window_cols two_d window) (window_weight two_d window) y x)
    with (sum_of_weights two_d window m y x).
  change (weight_sum (nrows m) (ncols m) (window_rows two_d (scale_window c window)) (window_cols two_d (scale_window c window))
     (window_weight two_d (scale_window c window)) y x) with (sum_of_weights two_d (scale_window c window) m y x).
  rewrite ES, scale_window_rows, scale_window_cols.
  set (S := sum_of_weights two_d window m y x) in *.
  assert (HS : S <> 0) by (intros E; rewrite E, Rabs_R0 in H1; lra).
  assert (Hc : c <> 0) by (intros E; rewrite E, Rmult_0_l, Rabs_R0 in H2; lra).
  rewrite (window_sum_ext _ _ _ _ _ _ (fun i j yy xx => window_weight two_d (scale_window c window) i j * nth n (at_ m yy xx) 0)
    (fun i j yy xx => c * (window_weight two_d window i j * nth n (at_ m yy xx) 0))).
  - rewrite window_sum_scale. field. split; assumption.
  - intros. rewrite scale_window_weight. ring.
Qed.
Print Assumptions C20_scaling_the_window.

(** But where the sum of the weights is less than 1 in size it is truncated to 0, and the pattern is
    divided by 0.  So a window scaled down (a normalized one, say) destroys the patterns. *)
Theorem C20_small_weights_refuted :
  forall merge t two_d window ychunks xchunks m f,
    merges merge -> window_ok window -> chunked two_d m ychunks xchunks ->
    average_neighbour_patterns merge t two_d window ychunks xchunks m = Averaged f ->
    forall y x, (y < nrows m)%nat -> (x < ncols m)%nat ->
      -1 < sum_of_weights two_d window m y x < 1 -> f y x = Some None.
Proof.
  intros merge t two_d window ychunks xchunks m f HM Hok HC H y x Hy Hx HW.
  rewrite (average_general _ _ _ _ _ _ _ _ HM Hok HC H y x Hy Hx).
  rewrite (trunc_zero _ HW). reflexivity.
Qed.

(** When it is an error: with a window of the right number of axes, only if an axis in several chunks
    is shorter than half the window plus one. *)
Theorem C20_succeeds :
  forall merge t rows ychunks xchunks m,
    let w := Window.W2 rows in
    window_ok w -> chunked true m ychunks xchunks -> (1 <= nrows m)%nat -> (1 <= ncols m)%nat ->
    Window.shape w <> [1%nat; 1%nat] ->
    (ychunks = [nrows m] \/ window_rows true w / 2 + 1 <= nrows m)%nat ->
    (xchunks = [ncols m] \/ window_cols true w / 2 + 1 <= ncols m)%nat ->
    exists f, average_neighbour_patterns merge t true w ychunks xchunks m = Averaged f.
Proof.
  intros merge t rows ychunks xchunks m w Hok HC Hr Hc Hs Dy Dx.
  unfold average_neighbour_patterns. 
  assert (D : forall size axis chunks, (1 <= axis)%nat -> (chunks = [axis] \/ size / 2 + 1 <= axis)%nat ->
    exists d, depth_of (Some size) axis chunks = Some d /\ (d <= axis)%nat).
  { intros size axis chunks Ha [->|Hd]; unfold depth_of.
    - cbn [hd]. rewrite Nat.ltb_irrefl. exists 1%nat. split; [reflexivity|lia].
    - destruct (hd 0%nat chunks <? axis)%nat; [|exists 1%nat; split; [reflexivity|lia]].
      cbn [option_map]. eexists. split; [reflexivity|exact Hd]. }
  destruct (D (length rows) (nrows m) ychunks Hr Dy) as (dy & E1 & L1).
  destruct (D (length (hd [] rows)) (ncols m) xchunks Hc Dx) as (dx & E2 & L2).
  cbn [averaging_window w rny rnx]. rewrite E1, E2. unfold map_overlap. cbn [zip nrows ncols].
  rewrite (proj2 (Nat.ltb_ge _ dy)), (proj2 (Nat.ltb_ge _ dx)) by assumption. cbn [orb].
  cbn [Window.shape w] in *. 
  destruct (length rows) as [|[|a]]; [eexists; reflexivity| |eexists; reflexivity].
  destruct (length (hd [] rows)) as [|[|b]]; [eexists; reflexivity|contradiction|eexists; reflexivity].
Qed.

(** Nothing is done exactly for windows of one pixel. *)
Theorem C20_one_pixel_window_does_nothing :
  forall merge t two_d window ychunks xchunks m, window_ok window ->
    average_neighbour_patterns merge t two_d window ychunks xchunks m = Nothing
    <-> exists c, window = Window.W1 [c] \/ window = Window.W2 [[c]].
Proof.
  intros merge t two_d window ychunks xchunks m Hok. split.
  - intros H. destruct window as [c|rows].
    + destruct c as [|c0 [|c1 c]]; [| |]; [|exists c0; auto|]; exfalso; unfold average_neighbour_patterns in H; simpl in H.
      * repeat match type of H with context [match ?x with _ => _ end] => destruct x end; discriminate.
      * repeat match type of H with context [match ?x with _ => _ end] => destruct x end; discriminate.
    + destruct rows as [|[|c0 [|c1 r]] [|r' rows]]; [| | | | | |]; try (exists c0; auto; fail); exfalso; unfold average_neighbour_patterns in H; simpl in H;
        repeat match type of H with context [match ?x with _ => _ end] => destruct x end; discriminate.
  - intros (c & [-> | ->]); reflexivity.
Qed.
(** Errors that depend on the chunks only: a one-dimensional window works on a two-dimensional map
    whose columns are in one chunk, and raises an error if they are in several. *)
Theorem C20_one_dimensional_window_refuted :
  forall merge t c a b r ychunks (m : amap pattern), (2 <= length c)%nat ->
    (1 <= nrows m)%nat -> chunks_of (ncols m) (a :: b :: r) -> chunks_of (nrows m) ychunks ->
    average_neighbour_patterns merge t true (Window.W1 c) ychunks (a :: b :: r) m = Error
    /\ (exists f, average_neighbour_patterns merge t true (Window.W1 c) [nrows m] [ncols m] m = Averaged f).
Proof.
  intros merge t c a b r ychunks m Hc Hr [Tx Px] [Ty Py]. simpl in Tx.
  destruct c as [|c0 [|c1 c]]; simpl in Hc; try lia.
  inversion Px as [|? ? Ha Px']; subst. inversion Px' as [|? ? Hb _]; subst.
  split.
  - unfold average_neighbour_patterns. cbn [Window.shape length averaging_window]. cbv zeta.
    assert (E : depth_of None (ncols m) (a :: b :: r) = None).
    { unfold depth_of. cbn [hd]. rewrite (proj2 (Nat.ltb_lt _ _)) by lia. reflexivity. }
    rewrite E. destruct (depth_of _ _ ychunks); reflexivity.
  - unfold average_neighbour_patterns. cbn [Window.shape length averaging_window]. cbv zeta.
    unfold depth_of. cbn [hd]. rewrite !Nat.ltb_irrefl. unfold map_overlap. cbn [zip nrows ncols].
    rewrite (proj2 (Nat.ltb_ge (nrows m) 1)), (proj2 (Nat.ltb_ge (ncols m) 1)) by lia. eexists. reflexivity.
Qed.

(** ** Schedules *)

(** A schedule computes and stores every chunk once, and computes it before it stores it. *)
Definition once {A} (a : A) (l : list A) : Prop := exists l1 l2, l = l1 ++ a :: l2 /\ ~ In a l1 /\ ~ In a l2.
Definition proper (blocks : list nat) (events : list event) : Prop :=
  forall b, In b blocks -> exists l1 l2 l3, events = l1 ++ Compute b :: l2 ++ Store b :: l3
    /\ ~ In (Compute b) (l1 ++ l2 ++ l3) /\ ~ In (Store b) (l1 ++ l2 ++ l3).

Section Schedules.
Variables (copies : bool) (block : nat -> nat -> nat) (value : (nat -> nat -> pattern) -> nat -> nat -> pattern).
Let steps := fold_left (step copies block value).

Lemma steps_pending l s y x : ~ In (Compute (block y x)) l -> pending (steps l s) y x = pending s y x.
Proof.
  revert s. induction l as [|e l IH]; intros s H; [reflexivity|]. unfold steps in *. simpl.
  rewrite IH by (intros Hi; apply H; right; exact Hi).
  destruct e as [b|b]; simpl; [|reflexivity].
  destruct (Nat.eqb_spec (block y x) b) as [E|]; [|reflexivity].
  exfalso. apply H. left. rewrite E. reflexivity.
Qed.
Lemma steps_target l s y x : ~ In (Store (block y x)) l -> target (steps l s) y x = target s y x.
Proof.
  revert s. induction l as [|e l IH]; intros s H; [reflexivity|]. unfold steps in *. simpl.
  rewrite IH by (intros Hi; apply H; right; exact Hi).
  destruct e as [b|b]; simpl; [reflexivity|].
  destruct (Nat.eqb_spec (block y x) b) as [E|]; [|reflexivity].
  exfalso. apply H. left. rewrite E. reflexivity.
Qed.
Lemma steps_source l s : (copies = true \/ forall b, ~ In (Store b) l) -> source (steps l s) = source s.
Proof.
  revert s. induction l as [|e l IH]; intros s H; [reflexivity|]. unfold steps in *. simpl.
  rewrite IH.
  - destruct e as [b|b]; simpl; [reflexivity|]. destruct H as [->|H]; [reflexivity|].
    exfalso. apply (H b). left. reflexivity.
  - destruct H as [H|H]; [left; exact H|right]. intros b Hb. apply (H b). right. exact Hb.
Qed.

(** What a point ends up with, if the source has not changed when its chunk is computed. *)
Lemma run_point data blocks events y x :
  proper blocks events -> In (block y x) blocks ->
  (copies = true \/ forall l1 l2, events = l1 ++ Compute (block y x) :: l2 -> forall b, ~ In (Store b) l1) ->
  run copies block value data events y x = value data y x.
Proof.
  intros HP Hb HS. destruct (HP _ Hb) as (l1 & l2 & l3 & E & HC & HT).
  unfold run. rewrite E, fold_left_app. simpl. rewrite fold_left_app. simpl.
  fold (steps l1 (State data data data)).
  match goal with |- context [fold_left _ l2 ?s] => set (s1 := s) end.
  fold (steps l2 s1).
  match goal with |- context [fold_left _ l3 ?s] => set (s2 := s) end.
  fold (steps l3 s2).
  rewrite steps_target.
  2:{ intros H. apply HT. apply in_or_app. right. apply in_or_app. right. exact H. }
  unfold s2. cbn [target]. rewrite Nat.eqb_refl.
  rewrite steps_pending.
  2:{ intros H. apply HC. apply in_or_app. right. apply in_or_app. left. exact H. }
  unfold s1. cbn [pending]. rewrite Nat.eqb_refl.
  rewrite steps_source; [reflexivity|]. destruct HS as [HS|HS]; [left; exact HS|right].
  apply (HS l1 (l2 ++ Store (block y x) :: l3)). exact E.
Qed.
End Schedules.

(** With inplace=False, or if dask has its own copy of the data, every schedule gives the same. *)
Theorem C20_independent_of_schedule :
  forall block value data blocks events y x,
    proper blocks events -> In (block y x) blocks ->
    run true block value data events y x = value data y x.
Proof.
  intros block value data blocks events y x HP Hb. apply (run_point true block value data blocks); try assumption.
  left. reflexivity.
Qed.
(** In place on views of the data, the result is right if nothing is stored before everything has been
    computed... *)
Theorem C20_in_place_all_computed_first :
  forall block value data blocks computes stores y x,
    proper blocks (computes ++ stores) -> In (block y x) blocks ->
    (forall b, ~ In (Store b) computes) -> (forall b, ~ In (Compute b) stores) ->
    run false block value data (computes ++ stores) y x = value data y x.
Proof.
  intros block value data blocks computes stores y x HP Hb H1 H2.
  apply (run_point false block value data blocks); try assumption. right.
  intros l1 l2 E b Hi.
  (* Compute (block y x) is in computes, and l1 a prefix of it *)
  assert (Hlen : (length l1 < length computes)%nat).
  { destruct (lt_dec (length l1) (length computes)) as [|Hge]; [assumption|]. exfalso.
    assert (Hn : nth_error (computes ++ stores) (length l1) = Some (Compute (block y x))).
    { rewrite E. rewrite nth_error_app2 by lia. rewrite Nat.sub_diag. reflexivity. }
    rewrite nth_error_app2 in Hn by lia. apply nth_error_In in Hn. exact (H2 _ Hn). }
  apply In_nth_error in Hi as (k & Hk).
  assert (k < length l1)%nat by (apply nth_error_Some; congruence).
  assert (Hn : nth_error (computes ++ stores) k = Some (Store b)).
  { rewrite E, nth_error_app1 by lia. exact Hk. }
  rewrite nth_error_app1 in Hn by lia. apply nth_error_In in Hn. exact (H1 _ Hn).
Qed.
(** ... but not for every schedule: two patterns in two chunks, a window of three ones; the second
    chunk computed before or after the first is stored. *)
Definition averaged (t : dtype) (w : rwindow) (rows cols : nat) (data : nat -> nat -> pattern) (y x : nat) : pattern :=
  let m := AMap rows cols data in
  match average_at t w (zip m (window_sums w m)) y x with Some p => p | None => [] end.
Theorem C20_in_place_schedule_refuted :
  exists data blocks events events',
    let block := (fun _ x : nat => x) in
    let value := averaged Float32 (RWindow 1 3 [1; 1; 1]) 1 2 in
    proper blocks events /\ proper blocks events' /\ (forall x, (x < 2)%nat -> In (block 0%nat x) blocks)
    /\ run false block value data events 0%nat 1%nat <> run false block value data events' 0%nat 1%nat.
Proof.
  set (data := fun _ x : nat => match x with O => [0; 1; 0] | _ => [0; 0; 1] end).
  exists data, [0; 1]%nat, [Compute 0; Compute 1; Store 0; Store 1], [Compute 0; Store 0; Compute 1; Store 1].
  cbv zeta. split; [|split; [|split]].
  - intros b [<-|[<-|[]]].
    + exists [], [Compute 1], [Store 1]. repeat split; simpl; intuition discriminate.
    + exists [Compute 0], [Store 0], []. repeat split; simpl; intuition discriminate.
  - intros b [<-|[<-|[]]].
    + exists [], [], [Compute 1; Store 1]. repeat split; simpl; intuition discriminate.
    + exists [Compute 0; Store 0], [], []. repeat split; simpl; intuition discriminate.
  - intros x Hx. simpl. lia.
  - set (w := RWindow 1 3 [1; 1; 1]).
    assert (V : forall d x a b c a' b' c' lo hi, (x < 2)%nat ->
        d 0%nat 0%nat = [a; b; c] -> d 0%nat 1%nat = [a'; b'; c'] ->
        is_min [a + a'; b + b'; c + c'] lo -> is_max [a + a'; b + b'; c + c'] hi -> lo < hi ->
        averaged Float32 w 1 2 d 0 x = map (fun v => (v - lo) / (hi - lo) * 2 - 1) [a + a'; b + b'; c + c']).
    { intros d x a b c a' b' c' lo hi Hx E0 E1 Hlo Hhi Hlt. unfold averaged. rewrite average_whole.
      set (m := AMap 1 2 d).
      assert (EW : weight_sum (nrows m) (ncols m) (rny w) (rnx w) (weight w) 0 x = 2).
      { unfold weight_sum. destruct x as [|[|x]]; [| |lia]; unfold window_sum, weight; cbn; ring. }
      rewrite EW. replace (Detector.trunc 2) with 2%Z by (symmetry; apply (trunc_IZR 2)). cbn [Z.eqb].
      assert (EM : weighted_mean (nrows m) (ncols m) (rny w) (rnx w) (weight w) (at_ m) 0 x
        = map (fun v => / 2 * v) [a + a'; b + b'; c + c']).
      { unfold weighted_mean. rewrite EW.
        assert (EL : length (at_ m 0 x) = 3%nat).
        { destruct x as [|[|x]]; [| |lia]; unfold m; cbn [at_]; [rewrite E0|rewrite E1]; reflexivity. }
        rewrite EL. simpl map. 
        destruct x as [|[|x]]; [| |lia]; unfold window_sum, weight, m; cbn; change (Pos.to_nat 1) with 1%nat; rewrite E0, E1; cbn;
          repeat (apply (f_equal2 cons); [field|]); reflexivity. }
      rewrite EM. rewrite rescale_scale by lra. rewrite rescale_default_eq.
      rewrite (vmin_unique _ lo), (vmax_unique _ hi) by apply Hlo || apply Hhi.
      apply map_ext. intros v. unfold cast. simpl is_float. cbv iota. unfold rescale_map, dtype_min, dtype_max. simpl.
      field. lra. }
    assert (V1 : forall x, (x < 2)%nat -> averaged Float32 w 1 2 data 0 x = [-1; 1; 1]).
    { intros x Hx. rewrite (V data x 0 1 0 0 0 1 0 1 Hx eq_refl eq_refl); [|split; [simpl; lra|simpl; intuition lra]|split; [simpl; lra|simpl; intuition lra]|lra].
      simpl. repeat (apply (f_equal2 cons); [field|]). reflexivity. }
    unfold run. simpl fold_left. unfold step. cbn [target source pending Nat.eqb].
    rewrite V1 by lia.
    rewrite (V _ 1%nat (-1) 1 1 0 0 1 (-1) 2); [|lia|cbn [Nat.eqb]; apply V1; lia|reflexivity|split; [simpl; lra|simpl; intuition lra]|split; [simpl; lra|simpl; intuition lra]|lra].
    simpl. intros E. injection E as _ E _. lra.
Qed.

(** A case for the theorems above: a 2 x 3 map in uneven chunks with the default circular window. *)
Example C20_case :
  let w := Window.W2 [[0; 1; 0]; [1; 1; 1]; [0; 1; 0]] in
  let m := AMap 2 3 (fun y x => [INR y; INR x; 1]) in
  window_ok w /\ chunked true m [1; 1]%nat [2; 1]%nat
  /\ (exists f, average_neighbour_patterns (fun _ c => c) Float32 true w [1; 1]%nat [2; 1]%nat m = Averaged f)
  /\ forall y x, (y < 2)%nat -> (x < 3)%nat -> 1 <= Rabs (sum_of_weights true w m y x).
Proof.
  intros w m. assert (Hok : window_ok w).
  { simpl. repeat split; try discriminate. repeat constructor. }
  assert (HC : chunked true m [1; 1]%nat [2; 1]%nat).
  { repeat split; try reflexivity; try discriminate; repeat constructor. }
  split; [exact Hok|]. split; [exact HC|]. split.
  - apply (C20_succeeds (fun _ c => c) Float32 [[0; 1; 0]; [1; 1; 1]; [0; 1; 0]]); try assumption; simpl; try lia; try discriminate.
    all: right; vm_compute; lia.
  - intros y x Hy Hx. apply C20_weight_sum_at_least_one; try assumption; try discriminate.
    + intros i j. destruct i as [|[|[|i]]]; destruct j as [|[|[|j]]]; simpl; try lra; try destruct i; try destruct j; simpl; lra.
    + simpl. lra.
Qed.
