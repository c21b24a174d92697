(** grid_indices: property C17. *)
From Coq Require Import Bool List Arith ZArith Lia.
From Verif Require Import Spec.Grid Model.PyArray Model.GridIndices
  Proofs.ListLemmas Proofs.PyArrayProofs Proofs.GridIndicesProofs.
Import ListNotations.

Lemma grid_list_facts g n : 1 <= n ->
  inside (Z.of_nat n) (map (grid_index g n) (seq 0 (count g n)))
  /\ evenly_spaced (Z.of_nat (spacing g n)) (map (grid_index g n) (seq 0 (count g n)))
  /\ centred (Z.of_nat n) (map (grid_index g n) (seq 0 (count g n)))
  /\ length (map (grid_index g n) (seq 0 (count g n))) <= g.
Proof.
  intros H. repeat split.
  - apply Forall_forall. intros v Hv. apply in_map_iff in Hv as (i & <- & Hi). apply in_seq in Hi.
    apply grid_index_inside; [exact H|lia].
  - intros i a b Ha Hb.
    assert (Hl : S i < count g n).
    { assert (E : nth_error (map (grid_index g n) (seq 0 (count g n))) (S i) <> None) by congruence.
      apply nth_error_Some in E. rewrite map_length, seq_length in E. exact E. }
    rewrite nth_error_map, nth_error_seq in Ha by lia. rewrite nth_error_map, nth_error_seq in Hb by lia.
    simpl in Ha, Hb. injection Ha as <-. injection Hb as <-. apply grid_index_step.
  - intros a b Ha Hb. rewrite map_length, seq_length in Hb.
    assert (Hl : 0 < count g n).
    { assert (E : nth_error (map (grid_index g n) (seq 0 (count g n))) 0 <> None) by congruence.
      apply nth_error_Some in E. rewrite map_length, seq_length in E. exact E. }
    rewrite nth_error_map, nth_error_seq in Ha by lia. rewrite nth_error_map, nth_error_seq in Hb by lia.
    simpl in Ha, Hb. injection Ha as <-. injection Hb as <-.
    pose proof (centre_bounds g n H) as [_ Hc]. unfold grid_index.
    replace ((count g n - 1 + 1) * spacing g n) with (count g n * spacing g n) by (f_equal; lia). lia.
  - rewrite map_length, seq_length. apply count_le. exact H.
Qed.

(** One dimension.  Whatever is returned is inside the map, evenly spaced with the returned
    spacing (which is positive), centred, and never has more indices than asked for. *)
Theorem C17_grid_indices_1d :
  forall g n idx s, grid_indices [g] [n] = Some (Grid1 idx s) ->
    1 <= s /\ 1 <= length idx <= g
    /\ inside (Z.of_nat n) idx /\ evenly_spaced (Z.of_nat s) idx /\ centred (Z.of_nat n) idx.
Proof.
  intros g n idx s H. simpl in H. rewrite grid_indices_1d_eq in H.
  destruct (Nat.eqb_spec n 0) as [|Hn]; [discriminate|].
  destruct (Nat.eqb_spec (count g n) 0) as [|Hc]; [discriminate|].
  simpl in H. injection H as <- <-.
  destruct (grid_list_facts g n ltac:(lia)) as (H1 & H2 & H3 & H4).
  repeat split; try assumption.
  - apply spacing_pos. lia.
  - rewrite map_length, seq_length. lia.
Qed.
Print Assumptions C17_grid_indices_1d.

(** Two dimensions.  The grid is the product of such a set of rows and of columns. *)
Theorem C17_grid_indices_2d :
  forall g0 g1 n0 n1 idx s0 s1, grid_indices [g0; g1] [n0; n1] = Some (Grid2 idx s0 s1) ->
    exists rows cols,
      idx = map (fun y => map (fun x => (y, x)) cols) rows
      /\ (1 <= s0 /\ 1 <= length rows <= g0
          /\ inside (Z.of_nat n0) rows /\ evenly_spaced (Z.of_nat s0) rows /\ centred (Z.of_nat n0) rows)
      /\ (1 <= s1 /\ 1 <= length cols <= g1
          /\ inside (Z.of_nat n1) cols /\ evenly_spaced (Z.of_nat s1) cols /\ centred (Z.of_nat n1) cols).
Proof.
  intros g0 g1 n0 n1 idx s0 s1 H. unfold grid_indices in H. rewrite grid_indices_2d_eq in H.
  destruct (Nat.eqb_spec n0 0) as [|Hn0]; [discriminate|].
  destruct (Nat.eqb_spec n1 0) as [|Hn1]; [discriminate|].
  destruct (Nat.eqb_spec (count g0 n0) 0) as [|Hc0]; [discriminate|].
  destruct (Nat.eqb_spec (count g1 n1) 0) as [|Hc1]; [discriminate|].
  simpl in H. injection H as <- <- <-.
  exists (map (grid_index g0 n0) (seq 0 (count g0 n0))), (map (grid_index g1 n1) (seq 0 (count g1 n1))).
  destruct (grid_list_facts g0 n0 ltac:(lia)) as (H1 & H2 & H3 & H4).
  destruct (grid_list_facts g1 n1 ltac:(lia)) as (K1 & K2 & K3 & K4).
  repeat split; try assumption; try (apply spacing_pos; lia);
    try (rewrite map_length, seq_length; lia).
  rewrite map_map. apply map_ext. intros i. rewrite map_map. reflexivity.
Qed.
Print Assumptions C17_grid_indices_2d.

(** When the number of indices is the one asked for: exactly when [g] steps of the spacing fit
    strictly inside the map, in particular whenever the map has more than g * g points. *)
Theorem C17_number_of_indices :
  forall g n, 1 <= g -> 1 <= n ->
    ((exists idx s, grid_indices [g] [n] = Some (Grid1 idx s) /\ length idx = g)
     <-> g * ceil_div n (g + 1) < n).
Proof.
  intros g n Hg Hn. simpl. rewrite grid_indices_1d_eq.
  destruct (Nat.eqb_spec n 0) as [|_]; [lia|]. rewrite <- (count_eq g n Hn). split.
  - intros (idx & s & H & Hl). destruct (Nat.eqb_spec (count g n) 0) as [|Hc]; [discriminate|].
    simpl in H. injection H as <- <-. rewrite map_length, seq_length in Hl. exact Hl.
  - intros E. destruct (Nat.eqb_spec (count g n) 0) as [|Hc]; [lia|].
    eexists _, _. split; [reflexivity|]. rewrite map_length, seq_length. exact E.
Qed.
Theorem C17_number_of_indices_large_map :
  forall g n, 1 <= g -> g * g < n ->
    exists idx s, grid_indices [g] [n] = Some (Grid1 idx s) /\ length idx = g.
Proof.
  intros g n Hg Hn. apply C17_number_of_indices; [exact Hg|lia|].
  apply count_eq; [lia|]. apply count_eq_large. exact Hn.
Qed.
Print Assumptions C17_number_of_indices.
(** Two dimensions: the requested shape on large maps. *)
Theorem C17_grid_shape_large_map :
  forall g0 g1 n0 n1, 1 <= g0 -> 1 <= g1 -> g0 * g0 < n0 -> g1 * g1 < n1 ->
    exists idx s0 s1, grid_indices [g0; g1] [n0; n1] = Some (Grid2 idx s0 s1)
      /\ length idx = g0 /\ Forall (fun row => length row = g1) idx.
Proof.
  intros g0 g1 n0 n1 H0 H1 H2 H3. unfold grid_indices. rewrite grid_indices_2d_eq.
  rewrite (count_eq_large g0 n0 H2), (count_eq_large g1 n1 H3).
  destruct (Nat.eqb_spec n0 0) as [|_]; [lia|]. destruct (Nat.eqb_spec n1 0) as [|_]; [lia|].
  destruct (Nat.eqb_spec g0 0) as [|_]; [lia|]. destruct (Nat.eqb_spec g1 0) as [|_]; [lia|].
  eexists _, _, _. split; [reflexivity|]. split.
  - rewrite map_length, seq_length. reflexivity.
  - apply Forall_forall. intros r Hr. apply in_map_iff in Hr as (i & <- & _).
    rewrite map_length, seq_length. reflexivity.
Qed.

(** The claim about the number of indices fails in general: a grid as large as the map (more than
    one point) always has one index too few... *)
Theorem C17_grid_as_large_as_map_refuted :
  forall n, 2 <= n ->
    exists idx s, grid_indices [n] [n] = Some (Grid1 idx s) /\ length idx = n - 1.
Proof.
  intros n H.
  assert (Es : spacing n n = 1) by (unfold spacing; apply ceil_div_unique; lia).
  assert (Ec : count n n = n - 1).
  { unfold count. rewrite Es. rewrite (ceil_div_unique n 1 n) by lia. reflexivity. }
  simpl. rewrite grid_indices_1d_eq. rewrite Ec.
  destruct (Nat.eqb_spec n 0) as [|_]; [lia|]. destruct (Nat.eqb_spec (n - 1) 0) as [|_]; [lia|].
  eexists _, _. split; [reflexivity|]. rewrite map_length, seq_length. reflexivity.
Qed.
(** ... and a single index into a single point raises IndexError. *)
Theorem C17_single_point_refuted : grid_indices [1] [1] = None.
Proof. reflexivity. Qed.
(** ... and the bound g * g < n of the theorem above is sharp: asking for g points of a map of
    g * g points gives g - 1. *)
Theorem C17_count_of_square_map_refuted :
  forall g, 2 <= g ->
    exists idx s, grid_indices [g] [g * g] = Some (Grid1 idx s) /\ length idx = g - 1.
Proof.
  intros g H.
  assert (Es : spacing g (g * g) = g) by (unfold spacing; apply ceil_div_unique; nia).
  assert (Ec : count g (g * g) = g - 1).
  { unfold count. rewrite Es. rewrite (ceil_div_unique (g * g) g g) by nia. reflexivity. }
  simpl. rewrite grid_indices_1d_eq. rewrite Ec.
  destruct (Nat.eqb_spec (g * g) 0) as [|_]; [nia|]. destruct (Nat.eqb_spec (g - 1) 0) as [|_]; [lia|].
  eexists _, _. split; [reflexivity|]. rewrite map_length, seq_length. reflexivity.
Qed.

(** Counted in map points, the part left of the grid is always one or two points larger than the
    part right of it, never equal. *)
Theorem C17_points_before_and_after :
  forall g n idx s, grid_indices [g] [n] = Some (Grid1 idx s) ->
    (points_before idx - points_after (Z.of_nat n) idx = 1
     \/ points_before idx - points_after (Z.of_nat n) idx = 2)%Z.
Proof.
  intros g n idx s H. simpl in H. rewrite grid_indices_1d_eq in H.
  destruct (Nat.eqb_spec n 0) as [|Hn]; [discriminate|].
  destruct (Nat.eqb_spec (count g n) 0) as [|Hc]; [discriminate|].
  simpl in H. injection H as <- <-.
  pose proof (centre_bounds g n ltac:(lia)) as [_ Hb].
  unfold points_before, points_after. rewrite last_map_seq by lia.
  destruct (count g n) as [|k] eqn:E; [lia|]. simpl hd. unfold grid_index.
  replace ((S k - 1 + 1) * spacing g n) with (S k * spacing g n) by (f_equal; lia).
  rewrite Nat.add_0_l, Nat.mul_1_l. lia.
Qed.
Print Assumptions C17_points_before_and_after.

(** Concrete cases (the second and third are the examples of the docstring). *)
Example C17_case_10_6 : grid_indices [6] [10] = Some (Grid1 [2; 4; 6; 8]%Z 2).
Proof. reflexivity. Qed.
Example C17_case_105 : grid_indices [10] [105] = Some (Grid1 [8; 18; 28; 38; 48; 58; 68; 78; 88; 98]%Z 10).
Proof. vm_compute. reflexivity. Qed.
Example C17_case_55_75 : exists idx, grid_indices [4; 5] [55; 75] = Some (Grid2 idx 11 13)
  /\ nth_error idx 1 = Some [(22, 12); (22, 25); (22, 38); (22, 51); (22, 64)]%Z.
Proof. eexists. split; [vm_compute; reflexivity|reflexivity]. Qed.
