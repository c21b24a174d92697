(** Lemmas about the objectives of refinement. *)
From Coq Require Import List Arith ZArith Reals Lra Lia.
From Verif Require Import Model.Detector Model.Rotations Model.Lambert Model.Simulation Model.RefinementObjective
  Proofs.DetectorProofs Proofs.DetectorTilt Proofs.LambertProofs Proofs.SimulationProofs Proofs.ListLemmas Spec.Euler Props.Lambert Props.Rotations Props.Simulation.
From Verif Require Model.Pattern Model.Intensity Model.Similarity Proofs.PatternProofs Proofs.SimilarityProofs Proofs.IntensityProofs Spec.Correlation.
Import ListNotations.
Local Open Scope R_scope.

(** ** Flat arrays *)
Lemma flat_map_nth {A} (f : nat -> list A) n : forall k a i j d, (forall r, length (f r) = n) -> (i < k)%nat -> (j < n)%nat ->
  nth (i * n + j) (flat_map f (seq a k)) d = nth j (f (a + i)%nat) d.
Proof.
  induction k as [|k IH]; intros a i j d Hl Hi Hj; [lia|]. cbn [seq flat_map]. destruct i as [|i].
  - rewrite app_nth1 by (rewrite Hl; lia). now rewrite Nat.add_0_r.
  - rewrite app_nth2 by (rewrite Hl; lia). rewrite Hl. replace (S i * n + j - n)%nat with (i * n + j)%nat by lia.
    rewrite IH by (auto; lia). f_equal. f_equal. lia.
Qed.
Lemma flat_nth n h r c : (0 <= r < n)%Z -> (0 <= c < n)%Z -> unflat n (flat n h) r c = h r c.
Proof.
  intros Hr Hc. unfold unflat, flat. replace (Z.to_nat (r * n + c)) with (Z.to_nat r * Z.to_nat n + Z.to_nat c)%nat by (rewrite Z2Nat.inj_add, Z2Nat.inj_mul by nia; reflexivity).
  rewrite flat_map_nth; [|intros; now rewrite map_length, seq_length|lia|lia]. cbn [Nat.add].
  rewrite (nth_indep _ 0 (h (Z.of_nat (Z.to_nat r)) (Z.of_nat 0))) by (rewrite map_length, seq_length; lia).
  change (h (Z.of_nat (Z.to_nat r)) (Z.of_nat 0)) with ((fun c => h (Z.of_nat (Z.to_nat r)) (Z.of_nat c)) 0%nat).
  rewrite map_nth, seq_nth by lia. rewrite Nat.add_0_l, !Z2Nat.id by lia. reflexivity.
Qed.
Lemma flat_in n h x : In x (flat n h) <-> exists r c, (0 <= r < n)%Z /\ (0 <= c < n)%Z /\ h r c = x.
Proof.
  unfold flat. rewrite in_flat_map. split.
  - intros (r & Hr & Hx). apply in_map_iff in Hx. destruct Hx as (c & E & Hc). apply in_seq in Hr, Hc.
    exists (Z.of_nat r), (Z.of_nat c). repeat split; try lia. exact E.
  - intros (r & c & Hr & Hc & E). exists (Z.to_nat r). split; [apply in_seq; lia|]. apply in_map_iff. exists (Z.to_nat c).
    split; [rewrite !Z2Nat.id by lia; exact E|apply in_seq; lia].
Qed.
Lemma unflat_map n f h r c : (0 <= r < n)%Z -> (0 <= c < n)%Z -> unflat n (map f (flat n h)) r c = f (h r c).
Proof.
  intros Hr Hc. rewrite <- (flat_nth n h r c Hr Hc) at 1. unfold unflat.
  assert (L : (Z.to_nat (r * n + c) < length (flat n h))%nat).
  { assert (E : length (flat n h) = (Z.to_nat n * Z.to_nat n)%nat).
    { unfold flat. generalize 0%nat at 2 as a. generalize (Z.to_nat n) at 2 3 as k. induction k as [|k IH]; intros a; [reflexivity|].
      cbn [seq flat_map]. rewrite app_length, map_length, seq_length, IH. lia. }
    rewrite E. assert (r * n + c < n * n)%Z by nia. rewrite <- Z2Nat.inj_mul by lia. apply Z2Nat.inj_lt; nia. }
  rewrite (nth_indep _ 0 (f 0)) by (now rewrite map_length). apply map_nth.
Qed.

(** ** An affine change of both hemispheres *)
Lemma pixel_affine a b u l u' l' n v : (1 <= n)%Z -> vx v <> 0 \/ vy v <> 0 \/ vz v <> 0 ->
  (forall r c, (0 <= r < n)%Z -> (0 <= c < n)%Z -> u' r c = a * u r c + b /\ l' r c = a * l r c + b) ->
  pixel_from_master_pattern u' l' n v = a * pixel_from_master_pattern u l n v + b.
Proof.
  intros Hn Hv H. unfold pixel_from_master_pattern.
  pose proof (C37_reads_inside_with_valid_weights n Hn v Hv) as C. cbv zeta in C. destruct C as (C1 & C2 & C3 & C4 & _).
  set (k := interpolation_parameters n n ((IZR n - 1) / 2) v) in *. clearbody k.
  destruct (Rle_dec 0 (vz v)); unfold interpolate.
  - rewrite (proj1 (H _ _ C1 C2)), (proj1 (H _ _ C3 C2)), (proj1 (H _ _ C1 C4)), (proj1 (H _ _ C3 C4)). ring.
  - rewrite (proj2 (H _ _ C1 C2)), (proj2 (H _ _ C3 C2)), (proj2 (H _ _ C1 C4)), (proj2 (H _ _ C3 C4)). ring.
Qed.

(** ** Rotated directions are not zero *)
Lemma rotated_nonzero q v : qa q * qa q + qb q * qb q + qc q * qc q + qd q * qd q = 1 -> norm v = 1 ->
  vx (rotate_vector q v) <> 0 \/ vy (rotate_vector q v) <> 0 \/ vz (rotate_vector q v) <> 0.
Proof.
  intros Hq Hv. destruct (C46_rotation_preserves q v v Hq) as [H _]. unfold dot3 in H. pose proof (norm_sq v) as N. rewrite Hv in N.
  destruct (Req_dec (vx (rotate_vector q v)) 0) as [E1|]; [|auto]. destruct (Req_dec (vy (rotate_vector q v)) 0) as [E2|]; [|auto].
  right. right. intros E3. rewrite E1, E2, E3 in H. lra.
Qed.
Lemma direction_norm d p idx : valid d -> 0 < pcz p -> norm (direction d p idx) = 1.
Proof. intros Hd Hp. now destruct (direction_points d p idx Hd Hp). Qed.

(** ** Used pixels *)
Lemma used_pixels_used mask (p : list R) : used_pixels mask p = Correlation.used mask p.
Proof.
  destruct mask as [m|]; [|reflexivity]. unfold used_pixels, Correlation.used. revert p.
  induction m as [|b m IH]; intros [|x p]; try reflexivity. cbn [map select combine filter fst negb]. destruct b; cbn [negb map snd]; [apply IH|]. f_equal. apply IH.
Qed.
Lemma use_mask_length d mask : (forall m, mask = Some m -> length m = (n_rows d * n_cols d)%nat) ->
  length (use_mask (n_rows d) (n_cols d) mask) = (n_rows d * n_cols d)%nat.
Proof. intros H. destruct mask as [m|]; cbn [use_mask]; [rewrite map_length; auto|apply repeat_length]. Qed.
Lemma used_map d mask (f : nat -> R) : (forall m, mask = Some m -> length m = (n_rows d * n_cols d)%nat) ->
  Correlation.used mask (map f (pixels d None)) = map f (pixels d (Some (use_mask (n_rows d) (n_cols d) mask))).
Proof.
  intros H. unfold pixels. rewrite <- (use_mask_length d mask H). set (n := length _). 
  assert (E : select (use_mask (n_rows d) (n_cols d) mask) (seq 0 n) = filter (fun i => nth i (use_mask (n_rows d) (n_cols d) mask) false) (seq 0 n)).
  { unfold n. rewrite select_filter. apply filter_ext. intros i. now rewrite Nat.sub_0_r. }
  rewrite <- E. rewrite <- used_pixels_used. unfold n. rewrite use_mask_length by exact H. destruct mask as [m|]; cbn [used_pixels use_mask].
  - generalize (map negb m) as k. generalize (seq 0 (n_rows d * n_cols d)) as l. induction l as [|x l IH]; intros [|[|] k]; try reflexivity.
    + cbn [map select]. f_equal. apply IH.
    + cbn [map select]. apply IH.
  - rewrite <- (seq_length (n_rows d * n_cols d) 0) at 2. now rewrite select_all.
Qed.

(** ** Bounds *)
Lemma bounds_eq d p : valid d -> get_gnomonic_bounds (Z.to_nat (d_ny d)) (Z.to_nat (d_nx d)) p = gnomonic_bounds d p.
Proof.
  intros (H1 & H2 & _). unfold get_gnomonic_bounds, gnomonic_bounds, x_min, x_max, y_min, y_max, aspect_ratio, nrows, ncols.
  rewrite !INR_IZR_INZ, !Z2Nat.id by lia. reflexivity.
Qed.
Lemma cosines_for_eq d p mask : valid d -> 0 < pcz p -> (forall m, mask = Some m -> length m = (n_rows d * n_cols d)%nat) ->
  cosines_for (Z.to_nat (d_ny d)) (Z.to_nat (d_nx d)) (transposed (sample_to_detector d)) (use_mask (Z.to_nat (d_ny d)) (Z.to_nat (d_nx d)) mask) p
  = Some (map (direction d p) (pixels d (Some (use_mask (n_rows d) (n_cols d) mask)))).
Proof.
  intros Hd Hp Hm. unfold cosines_for. rewrite bounds_eq by exact Hd.
  pose proof (fixed_directions d p (Some (use_mask (n_rows d) (n_cols d) mask)) Hd Hp ltac:(intros m E; injection E as <-; now apply use_mask_length)) as F.
  cbv iota in F. unfold n_rows, n_cols in *. rewrite F. apply all_some_map.
Qed.

(** ** Two patterns that are affine functions of one have the same coefficient with a third *)
Lemma ncc_objective rescale (e s g : list R) a b : 0 < a -> s = map (fun x => a * x + b) g -> ~ PatternProofs.constant e ->
  1 - (let (exp, n2) := Similarity.prepare_pattern rescale e in 1 - Similarity.ncc_single exp s n2)
  = Pattern.dot (Similarity.zero_mean_normalize e) (Similarity.zero_mean_normalize g).
Proof.
  intros Ha -> He. change (let (exp, n2) := Similarity.prepare_pattern rescale e in 1 - Similarity.ncc_single exp (map (fun x => a * x + b) g) n2)
    with (Similarity.objective rescale e (map (fun x => a * x + b) g)).
  destruct rescale; [rewrite SimilarityProofs.objective_rescale by exact He|rewrite SimilarityProofs.objective_no_rescale];
    rewrite SimilarityProofs.zero_mean_normalize_affine_pos by exact Ha; ring.
Qed.
