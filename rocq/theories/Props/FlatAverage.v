(** Averaging of neighbour patterns whose mean has no contrast: property C114. *)
From Coq Require Import List Arith ZArith Bool Reals Lra Lia.
From Verif Require Import Model.Pattern Model.Intensity Model.MapOverlap Model.FlatPatterns Model.AverageNeighbours
  Model.FlatAverage Spec.WeightedMean Spec.Intensity Proofs.ListLemmas Proofs.MapOverlapProofs Proofs.PatternProofs
  Proofs.IntensityProofs Proofs.NeighbourDotProofs Proofs.AverageNeighboursProofs Props.AverageNeighbours.
From Verif Require Model.Detector Model.Window.
Import ListNotations.
Local Open Scope R_scope.

(** ** Specification (with the weighted mean of Spec/WeightedMean.v, as in C20) *)

(** All pixels of a pattern are equal. *)
Definition flat (p : list R) : Prop := forall x y, In x p -> In y p -> x = y.
(** Every pixel has lost its intensity. *)
Definition lost (q : list (option R)) : Prop := forall x, In x q -> x = None.

(** ** Lemmas *)

Lemma flat_limits p : p <> [] -> vmax p - vmin p = 0 <-> flat p.
Proof.
  intros Hp. split.
  - intros E x y Hx Hy. pose proof (vmin_le p x Hx). pose proof (vmax_ge p x Hx).
    pose proof (vmin_le p y Hy). pose proof (vmax_ge p y Hy). lra.
  - intros F. rewrite (F (vmax p) (vmin p)); [lra|now apply vmax_in|now apply vmin_in].
Qed.
Lemma flat_scale c p : c <> 0 -> flat (map (fun v => c * v) p) <-> flat p.
Proof.
  intros Hc. split; intros F x y Hx Hy.
  - apply (Rmult_eq_reg_l c); [|exact Hc]. apply F; now apply (in_map (fun v => c * v)).
  - apply in_map_iff in Hx as (a & <- & Ha). apply in_map_iff in Hy as (b & <- & Hb). f_equal. now apply F.
Qed.
Lemma rescaled_pixels t p :
  (~ flat p -> map (option_map (cast t)) (rescaled (vmin p) (vmax p) (dtype_min t) (dtype_max t) p)
               = map Some (rescale_intensity None None t None p)) /\
  (flat p -> lost (map (option_map (cast t)) (rescaled (vmin p) (vmax p) (dtype_min t) (dtype_max t) p))).
Proof.
  destruct p as [|a r]; [split; [intros F; exfalso; apply F; intros x y []|intros _ x []]|].
  set (p := a :: r). assert (Hp : p <> []) by discriminate. unfold rescaled, divided. split; intros F.
  - unfold rescale_intensity, rescale_with_min_max. rewrite !map_map. apply map_ext. intros x.
    destruct (Req_EM_T (vmax p - vmin p) 0) as [E|E]; [now apply flat_limits in E|reflexivity].
  - apply flat_limits in F; [|exact Hp]. intros x Hx. rewrite map_map in Hx. apply in_map_iff in Hx as (y & <- & _).
    destruct (Req_EM_T (vmax p - vmin p) 0) as [E|E]; [reflexivity|contradiction].
Qed.

Lemma averaged_at_local t w : (0 < rny w)%nat -> (0 < rnx w)%nat ->
  local (rny w / 2) (rny w - 1 - rny w / 2) (rnx w / 2) (rnx w - 1 - rnx w / 2) (averaged_at t w).
Proof.
  intros Hwy Hwx m m' y x y' x' Hy Hx Hy' Hx' H.
  assert (H1 : (rny w / 2 < rny w)%nat) by (apply Nat.div_lt; lia).
  assert (H2 : (rnx w / 2 < rnx w)%nat) by (apply Nat.div_lt; lia).
  assert (Ec : at_ m y x = at_ m' y' x').
  { pose proof (H 0 0)%Z as H0. rewrite !Z.add_0_r in H0. unfold look in H0.
    rewrite !here_inside in H0 by assumption. rewrite !Nat2Z.id in H0.
    assert (E : Some (at_ m y x) = Some (at_ m' y' x')) by (apply H0; lia). congruence. }
  unfold averaged_at. rewrite Ec. destruct (at_ m' y' x') as [p s].
  assert (E : map (fun n => correlate w m (fun q => nth n (fst q) 0) y x) (seq 0 (length p))
            = map (fun n => correlate w m' (fun q => nth n (fst q) 0) y' x') (seq 0 (length p))).
  { apply map_ext. intros n. apply correlate_local. exact H. }
  rewrite E. reflexivity.
Qed.
Lemma averaged_whole t w (m : amap pattern) y x :
  let W := weight_sum (nrows m) (ncols m) (rny w) (rnx w) (weight w) y x in
  let mean := weighted_mean (nrows m) (ncols m) (rny w) (rnx w) (weight w) (at_ m) y x in
  let q := averaged_at t w (zip m (window_sums w m)) y x in
  (Detector.trunc W <> 0%Z -> ~ flat mean -> q = map Some (rescale_intensity None None t None mean)) /\
  (Detector.trunc W = 0%Z \/ flat mean -> lost q) /\ length q = length (at_ m y x).
Proof.
  intros W mean q.
  assert (E0 : correlate w m (fun _ => 1) y x = W).
  { rewrite correlate_window_sum. unfold W, weight_sum. apply window_sum_ext. intros. ring. }
  unfold q, averaged_at. cbn [zip at_ window_sums]. rewrite E0.
  destruct (Z.eqb_spec (Detector.trunc W) 0) as [E|Hne].
  { split; [contradiction|]. split.
    - intros _ v Hv. apply in_map_iff in Hv as (u & <- & _). reflexivity.
    - now rewrite !map_length, seq_length. }
  destruct (trunc_same_sign W Hne) as [Hpos HW].
  assert (Hk : 0 < IZR (Detector.trunc W) / W).
  { assert (Hi := Rinv_0_lt_compat _ Hpos). unfold Rdiv in *. rewrite Rinv_mult, Rinv_inv in Hi. lra. }
  set (p := map (fun v => v / IZR (Detector.trunc W)) _).
  assert (Em : mean = map (fun v => IZR (Detector.trunc W) / W * v) p).
  { unfold p, mean, weighted_mean. fold W. rewrite !map_map. apply map_ext. intros n.
    cbn [at_]. rewrite (correlate_zip w m (window_sums w m)), correlate_window_sum.
    assert (IZR (Detector.trunc W) <> 0) by (apply not_0_IZR; exact Hne). field. split; assumption. }
  assert (Ef : flat mean <-> flat p). { rewrite Em. apply flat_scale. lra. }
  assert (Er : rescale_intensity None None t None mean = rescale_intensity None None t None p).
  { rewrite Em. apply rescale_scale. exact Hk. }
  destruct (rescaled_pixels t p) as [A B]. split; [|split].
  - intros _ F. rewrite Er. apply A. intros G. apply F, Ef, G.
  - intros [F|F]; [contradiction|]. apply B, Ef, F.
  - unfold rescaled, p. now rewrite !map_length, seq_length.
Qed.

Lemma trunc_zero_iff W : Detector.trunc W = 0%Z <-> Rabs W < 1.
Proof.
  split.
  - intros E. destruct (Rlt_dec (Rabs W) 1) as [L|L]; [exact L|exfalso].
    assert (HW : 1 <= Rabs W) by lra. clear L. unfold Rabs in HW. destruct (Rcase_abs W) as [Hn|Hn] in HW.
    + pose proof (trunc_le W (-1) ltac:(lra)) as H4. replace (-1) with (IZR (-1)) in H4 by reflexivity.
      rewrite trunc_IZR in H4. lia.
    + exact (trunc_ge1 _ HW E).
  - intros L. apply Rabs_def2 in L. apply trunc_zero. lra.
Qed.

(** ** C114 *)

(** A point keeps a pattern exactly if the weights under the window sum to at least 1 in size and the mean of the
    patterns under it has contrast, for every division of the map into chunks. Then it is the one of C20, otherwise
    every pixel is lost. *)
Theorem C114_averaged_iff :
  forall merge t two_d window ychunks xchunks m f,
    merges merge -> window_ok window -> chunked two_d m ychunks xchunks ->
    averaged_pixels merge t two_d window ychunks xchunks m = Some f ->
    forall y x, (y < nrows m)%nat -> (x < ncols m)%nat ->
      exists q, f y x = Some q /\ length q = length (at_ m y x) /\
        (1 <= Rabs (sum_of_weights two_d window m y x) -> ~ flat (mean_pattern two_d window m y x) ->
           q = map Some (rescale_intensity None None t None (mean_pattern two_d window m y x))) /\
        (Rabs (sum_of_weights two_d window m y x) < 1 \/ flat (mean_pattern two_d window m y x) -> lost q).
Proof.
  intros merge t two_d window ychunks xchunks m f HM Hok (Cy & Cx & H1) H y x Hy Hx. unfold averaged_pixels in H.
  assert (H' : match averaging_window two_d window with
    | None => None
    | Some w =>
      let ysize := Some (rny w) in
      let xsize := match two_d, window with
                   | true, Window.W1 _ => None
                   | _, _ => Some (rnx w)
                   end in
      match (if two_d then depth_of ysize (nrows m) ychunks else Some 0%nat), depth_of xsize (ncols m) xchunks with
      | Some dy, Some dx => map_overlap merge (averaged_at t w) ychunks xchunks dy dx (zip m (window_sums w m))
      | _, _ => None
      end
    end = Some f).
  { destruct (Window.shape window) as [|[|[|a]] [|[|[|b]] [|c r]]]; try discriminate H; exact H. }
  clear H. destruct (averaging_window two_d window) as [w|] eqn:E; [|discriminate].
  destruct (averaging_window_eq two_d window w Hok E) as (Ey & Ex & Py & Px & Ew). cbv zeta in H'.
  destruct (if two_d then depth_of (Some (rny w)) (nrows m) ychunks else Some 0%nat) as [dy|] eqn:Dy; [|discriminate].
  destruct (depth_of match two_d, window with true, Window.W1 _ => None | _, _ => Some (rnx w) end (ncols m) xchunks)
    as [dx|] eqn:Dx; [|discriminate].
  exists (averaged_at t w (zip m (window_sums w m)) y x). split.
  - apply (map_overlap_whole merge (averaged_at t w) ychunks xchunks dy dx (zip m (window_sums w m))
      (rny w / 2) (rny w - 1 - rny w / 2) (rnx w / 2) (rnx w - 1 - rnx w / 2) f); try assumption.
    + apply Cy.
    + apply Cx.
    + apply averaged_at_local; assumption.
    + cbn [zip nrows]. destruct two_d.
      * apply depth_of_ok; assumption.
      * injection Dy as <-. left. destruct window; [|discriminate]. simpl in Ey. rewrite Ey. simpl. lia.
    + cbn [zip ncols]. destruct two_d, window; try discriminate; try (apply depth_of_ok; assumption).
      right. apply (depth_of_none merge _ _ dx HM Cx Dx).
  - assert (EW : weight_sum (nrows m) (ncols m) (rny w) (rnx w) (weight w) y x = sum_of_weights two_d window m y x).
    { unfold sum_of_weights, weight_sum. rewrite <- Ey, <- Ex. apply window_sum_ext.
      intros i j yy xx Hi Hj _ _. now apply Ew. }
    assert (EM : weighted_mean (nrows m) (ncols m) (rny w) (rnx w) (weight w) (at_ m) y x = mean_pattern two_d window m y x).
    { unfold mean_pattern, weighted_mean. rewrite EW. unfold sum_of_weights. rewrite <- Ey, <- Ex. apply map_ext. intros n.
      apply (f_equal2 Rdiv); [|reflexivity]. apply window_sum_ext. intros i j yy xx Hi Hj _ _. now rewrite Ew. }
    destruct (averaged_whole t w m y x) as (A & B & C). rewrite EW, EM, trunc_zero_iff in *.
    split; [exact C|]. split; [|exact B]. intros L. apply A. lra.
Qed.
Print Assumptions C114_averaged_iff.

(** Patterns are averaged in the same cases as in C20, so the conditions there for success hold here as well. *)
Theorem C114_averaged_when : forall merge t two_d window ychunks xchunks m,
  (exists f, averaged_pixels merge t two_d window ychunks xchunks m = Some f) <->
  (exists f, average_neighbour_patterns merge t two_d window ychunks xchunks m = Averaged f).
Proof.
  intros merge t two_d window ychunks xchunks m. unfold averaged_pixels, average_neighbour_patterns, map_overlap.
  destruct (Window.shape window) as [|[|[|a]] [|[|[|b]] [|c r]]].
  all: try (split; intros (f & H); discriminate).
  all: destruct (averaging_window two_d window) as [w|]; [|split; intros (f & H); discriminate].
  all: destruct (if two_d then _ else _) as [dy|]; [|split; intros (f & H); discriminate].
  all: destruct (depth_of _ (ncols m) xchunks) as [dx|]; [|split; intros (f & H); discriminate].
  all: destruct (_ || _)%bool; [split; intros (f & H); discriminate|split; intros _; eexists; reflexivity].
Qed.
Print Assumptions C114_averaged_when.

(** Two neighbours that both have contrast, but add up to a uniform intensity, lose all of it. *)
Theorem C114_opposite_neighbours_refuted :
  forall merge t xchunks p total f,
    merges merge -> chunks_of 2 xchunks ->
    let m := AMap 1 2 (fun _ x => if (x =? 0)%nat then p else map (fun v => total - v) p) in
    averaged_pixels merge t false (Window.W1 [1; 1]) [1%nat] xchunks m = Some f ->
    exists q, f 0%nat 1%nat = Some q /\ length q = length p /\ lost q.
Proof.
  intros merge t xchunks p total f HM HC m H.
  assert (C : chunked false m [1%nat] xchunks).
  { split; [|split; [exact HC|reflexivity]]. split; [reflexivity|]. constructor; [lia|constructor]. }
  assert (W : window_ok (Window.W1 [1; 1])) by (cbn; discriminate).
  destruct (C114_averaged_iff merge t false (Window.W1 [1; 1]) [1%nat] xchunks m f HM W C H 0 1) as (q & Eq & L & _ & B);
    [cbn; lia|cbn; lia|].
  exists q. split; [exact Eq|]. split; [rewrite L; cbn; apply map_length|]. apply B. right.
  intros x y Hx Hy. unfold mean_pattern, weighted_mean in Hx, Hy. cbn [m at_ Nat.eqb] in Hx, Hy.
  rewrite map_length in Hx, Hy.
  assert (V : forall v n, (n < length p)%nat ->
    window_sum 1 2 1 2 0 1 (fun i j yy xx => window_weight false (Window.W1 [1; 1]) i j *
      nth n (if (xx =? 0)%nat then p else map (fun v => total - v) p) 0)
      / weight_sum 1 2 1 2 (window_weight false (Window.W1 [1; 1])) 0 1 = v -> v = total / 2).
  { intros v n Hn <-. unfold weight_sum, window_sum. cbn.
    rewrite (nth_indep (map (fun v => total - v) p) 0 (total - 0)) by now rewrite map_length.
    rewrite (map_nth (fun v => total - v)). field. }
  apply in_map_iff in Hx as (n & Ex & Hn). apply in_map_iff in Hy as (k & Ey & Hk).
  apply in_seq in Hn. apply in_seq in Hk. cbn [nrows ncols m window_rows window_cols length] in Ex, Ey.
  apply V in Ex; [|lia]. apply V in Ey; [|lia]. congruence.
Qed.
Print Assumptions C114_opposite_neighbours_refuted.

(** The hypotheses of both hold for a map in one chunk. *)
Example C114_opposite_case :
  let m := AMap 1 2 (fun _ x => if (x =? 0)%nat then [0; 1] else map (fun v => 1 - v) [0; 1]) in
  exists f, averaged_pixels (fun _ c => c) UInt8 false (Window.W1 [1; 1]) [1%nat] [2%nat] m = Some f.
Proof. eexists. reflexivity. Qed.
