From Coq Require Import List Arith ZArith Reals Lra Lia Psatz.
From Verif Require Import Model.Detector Model.Rotations Model.Lambert Model.Simulation Spec.DetectorGeometry
  Proofs.DetectorProofs Proofs.DetectorTilt Proofs.LambertProofs Proofs.ListLemmas.
From Verif Require Model.Chunking Proofs.ChunkingProofs.
Import ListNotations.
Local Open Scope R_scope.

Lemma ceil_INR n : ceil (INR n) = Z.of_nat n.
Proof.
  unfold ceil. rewrite INR_IZR_INZ, <- opp_IZR. set (z := (- Z.of_nat n)%Z).
  assert (E : up (IZR z) = (z + 1)%Z) by (symmetry; apply tech_up; rewrite plus_IZR; lra). rewrite E. unfold z. lia.
Qed.
Lemma arange_at start stop n k : (k < n)%nat -> stop <> start ->
  arange start stop ((stop - start) / INR n) k = Some (start + INR k * ((stop - start) / INR n)).
Proof.
  intros Hk Hne. unfold arange. assert (INR n <> 0) by (apply not_0_INR; lia).
  replace ((stop - start) / ((stop - start) / INR n)) with (INR n) by (field; split; lra). rewrite ceil_INR.
  destruct (Z.ltb_spec (Z.of_nat k) (Z.of_nat n)); [reflexivity|lia].
Qed.

(** ** Matrices *)
Definition mat_times (m : mat) (v : vec) : vec := Vec (dot (r0 m) v) (dot (r1 m) v) (dot (r2 m) v).
Lemma transposed_involutive m : transposed (transposed m) = m.
Proof. destruct m as [[a b c] [d e f] [g h i]]. reflexivity. Qed.
Lemma undo m v : orthonormal m -> mat_times m (row_times v m) = v.
Proof.
  destruct m as [[a b c] [d e f] [g h i]], v as [x y z]. unfold orthonormal, mat_times, row_times, dot. cbn [r0 r1 r2 vx vy vz].
  intros (H0 & H1 & H2 & H3 & H4 & H5 & _). apply vec_ext; cbn [vx vy vz].
  - transitivity (x * (a * a + b * b + c * c) + y * (a * d + b * e + c * f) + z * (a * g + b * h + c * i)); [ring|]. rewrite H0, H3, H4. ring.
  - transitivity (x * (a * d + b * e + c * f) + y * (d * d + e * e + f * f) + z * (d * g + e * h + f * i)); [ring|]. rewrite H1, H3, H5. ring.
  - transitivity (x * (a * g + b * h + c * i) + y * (d * g + e * h + f * i) + z * (g * g + h * h + i * i)); [ring|]. rewrite H2, H4, H5. ring.
Qed.
Lemma row_times_norm m v : orthonormal m -> norm (row_times v m) = norm v.
Proof.
  destruct m as [[a b c] [d e f] [g h i]], v as [x y z]. unfold orthonormal, row_times, norm, dot. cbn [r0 r1 r2 vx vy vz].
  intros (H0 & H1 & H2 & H3 & H4 & H5 & _). f_equal.
  transitivity (x * x * (a * a + b * b + c * c) + y * y * (d * d + e * e + f * f) + z * z * (g * g + h * h + i * i)
    + 2 * x * y * (a * d + b * e + c * f) + 2 * x * z * (a * g + b * h + c * i) + 2 * y * z * (d * g + e * h + f * i)); [ring|].
  rewrite H0, H1, H2, H3, H4, H5. ring.
Qed.
Lemma mat_times_scale m k v : mat_times m (Vec (k * vx v) (k * vy v) (k * vz v)) = let w := mat_times m v in Vec (k * vx w) (k * vy w) (k * vz w).
Proof. unfold mat_times, dot. cbn [vx vy vz]. apply vec_ext; cbn [vx vy vz]; ring. Qed.

(** ** One pixel *)

Section Pixel.
Variables (d : detector) (p : pc3).
Hypothesis Hd : valid d. Hypothesis Hp : 0 < pcz p.
Let ny := Z.to_nat (d_ny d). Let nx := Z.to_nat (d_nx d).
Let pitch := d_px_size d * d_binning d.

Lemma nx_pos : (1 <= nx)%nat /\ (1 <= ny)%nat /\ INR nx = ncols d /\ INR ny = nrows d /\ 0 < ncols d /\ 0 < nrows d /\ 0 < pitch.
Proof using Hd.
  destruct (valid_pos d Hd). destruct Hd as (H1 & H2 & H3 & H4). unfold nx, ny, ncols, nrows, pitch in *.
  split; [lia|]. split; [lia|]. rewrite !INR_IZR_INZ, !Z2Nat.id by lia.
  repeat split; try lra. now apply Rmult_lt_0_compat.
Qed.

(** What the code computes for pixel number idx. *)
Definition raw (idx : nat) : vec :=
  let xs := (x_max d p - x_min d p) / INR nx in
  let ys := (y_max d p - y_min d p) / INR ny in
  Vec ((x_min d p + INR (idx mod nx) * xs + xs / 2) * pcz p) ((y_max d p + INR (idx / nx) * (- ys) - ys / 2) * pcz p) (pcz p).

Lemma spans : x_max d p <> x_min d p /\ y_min d p <> y_max d p.
Proof using Hd Hp.
  pose proof (gn_span_x d p Hd ltac:(lra)) as X. pose proof (gn_span_y d p ltac:(lra)) as Y. pose proof (aspect_pos d Hd).
  assert (0 < aspect_ratio d / pcz p) by (apply Rdiv_lt_0_compat; auto). assert (0 < / pcz p) by now apply Rinv_0_lt_compat.
  split; lra.
Qed.
Lemma x_arange c : (c < nx)%nat ->
  arange (x_min d p) (x_max d p) ((x_max d p - x_min d p) / INR nx) c = Some (x_min d p + INR c * ((x_max d p - x_min d p) / INR nx)).
Proof using Hd Hp. intros H. apply arange_at; [exact H|apply spans]. Qed.
Lemma y_arange r : (r < ny)%nat ->
  arange (y_max d p) (y_min d p) (- ((y_max d p - y_min d p) / INR ny)) r = Some (y_max d p + INR r * (- ((y_max d p - y_min d p) / INR ny))).
Proof using Hd Hp.
  intros H. destruct nx_pos as (_ & Hy & _). assert (INR ny <> 0) by (apply not_0_INR; lia).
  replace (- ((y_max d p - y_min d p) / INR ny)) with ((y_min d p - y_max d p) / INR ny) by (field; auto).
  apply arange_at; [exact H|apply spans].
Qed.

Lemma raw_geometry idx : let k := / (nrows d * pitch) in
  0 < k /\ raw idx =
  Vec (k * ((INR (idx mod nx) + 1 / 2) * pitch - pcx p * ncols d * pitch))
      (k * (pcy p * nrows d * pitch - (INR (idx / nx) + 1 / 2) * pitch)) (k * (pcz p * nrows d * pitch)).
Proof using Hd Hp.
  cbv zeta. destruct nx_pos as (_ & _ & Ex & Ey & Px & Py & Pp). split; [apply Rinv_0_lt_compat; now apply Rmult_lt_0_compat|].
  unfold raw. rewrite Ex, Ey. unfold x_max, x_min, y_max, y_min, aspect_ratio. apply vec_ext; cbn [vx vy vz]; field; repeat split; lra.
Qed.
Lemma raw_nonzero idx : nonzero (raw idx).
Proof using Hp. right. right. cbn [vz raw]. lra. Qed.
End Pixel.

(** ** Selecting pixels *)
Lemma select_nth {A} (mask : list bool) : forall (l : list A), length mask = length l ->
  select mask l = map snd (filter (fun bi => fst bi) (combine mask l)).
Proof.
  induction mask as [|b m IH]; intros [|x l]; simpl; try discriminate; [reflexivity|].
  intros H. injection H as H. destruct b; simpl; now rewrite IH.
Qed.
Lemma select_filter mask : forall a, select mask (seq a (length mask)) = filter (fun i => nth (i - a) mask false) (seq a (length mask)).
Proof.
  induction mask as [|b m IH]; intros a; [reflexivity|]. cbn [length seq select filter].
  replace (nth (a - a) (b :: m) false) with b by (rewrite Nat.sub_diag; reflexivity).
  assert (E : filter (fun i => nth (i - a) (b :: m) false) (seq (S a) (length m)) = filter (fun i => nth (i - S a) m false) (seq (S a) (length m))).
  { apply filter_ext_in. intros i Hi. apply in_seq in Hi. replace (i - a)%nat with (S (i - S a)) by lia. reflexivity. }
  rewrite E, IH. reflexivity.
Qed.
Lemma select_all {A} (l : list A) : select (repeat true (length l)) l = l.
Proof. induction l as [|x l IH]; simpl; [reflexivity|now rewrite IH]. Qed.

Lemma fixed_eq d p mask : valid d -> 0 < pcz p -> length mask = (Z.to_nat (d_ny d) * Z.to_nat (d_nx d))%nat ->
  direction_cosines_fixed (gnomonic_bounds d p) (pcz p) (Z.to_nat (d_ny d)) (Z.to_nat (d_nx d)) (transposed (sample_to_detector d)) mask
  = map (fun idx => Some (normalise (row_times (raw d p idx) (sample_to_detector d))))
      (filter (fun i => nth i mask false) (seq 0 (Z.to_nat (d_ny d) * Z.to_nat (d_nx d)))).
Proof.
  intros Hd Hp Hm. unfold direction_cosines_fixed, idx_1d. cbn [gnomonic_bounds b_xmin b_xmax b_ymin b_ymax].
  rewrite <- Hm, select_filter, transposed_involutive.
  rewrite (filter_ext (fun i => nth (i - 0) mask false) (fun i => nth i mask false)) by (intros i; now rewrite Nat.sub_0_r).
  apply map_ext_in. intros idx Hi. apply filter_In in Hi. destruct Hi as [Hi _]. apply in_seq in Hi. rewrite Hm in Hi.
  destruct (nx_pos d Hd) as (Hx & Hy & _).
  rewrite x_arange by (auto; apply Nat.mod_upper_bound; lia). rewrite y_arange; auto.
  apply Nat.div_lt_upper_bound; lia.
Qed.
Lemma varying_eq d ps mask : valid d -> Forall (fun p => 0 < pcz p) ps -> length mask = (Z.to_nat (d_ny d) * Z.to_nat (d_nx d))%nat ->
  direction_cosines_varying (map (gnomonic_bounds d) ps) (map pcz ps) (Z.to_nat (d_ny d)) (Z.to_nat (d_nx d)) (transposed (sample_to_detector d)) mask
  = map (fun p => direction_cosines_fixed (gnomonic_bounds d p) (pcz p) (Z.to_nat (d_ny d)) (Z.to_nat (d_nx d)) (transposed (sample_to_detector d)) mask) ps.
Proof.
  intros Hd Hp Hm. unfold direction_cosines_varying. rewrite map_length, map_map.
  assert (E : forall k, map (fun i => nth_error ps (i - k)) (seq k (length ps)) = map Some ps).
  { clear. induction ps as [|p ps IH]; intros k; [reflexivity|]. cbn [length seq map]. rewrite Nat.sub_diag. cbn [nth_error]. f_equal.
    rewrite <- (IH (S k)). apply map_ext_in. intros i Hi. apply in_seq in Hi. replace (i - k)%nat with (S (i - S k)) by lia. reflexivity. }
  specialize (E 0%nat).
  set (f := fun p => direction_cosines_fixed (gnomonic_bounds d p) (pcz p) (Z.to_nat (d_ny d)) (Z.to_nat (d_nx d)) (transposed (sample_to_detector d)) mask).
  transitivity (map (fun o => match o with Some p => f p | None => map (option_map normalise) (map (fun _ => None) (idx_1d (Z.to_nat (d_ny d)) (Z.to_nat (d_nx d)) mask)) end) (map (fun i => nth_error ps (i - 0)) (seq 0 (length ps)))).
  - rewrite map_map. apply map_ext. intros i. rewrite Nat.sub_0_r, !nth_error_map. destruct (nth_error ps i) as [p|]; cbn [option_map]; [|reflexivity].
    unfold f, direction_cosines_fixed. rewrite map_map. apply map_ext. intros j.
    destruct (arange _ _ _ (j mod _)); [|reflexivity]. destruct (arange _ _ _ (j / _)); reflexivity.
  - rewrite E, map_map. reflexivity.
Qed.

(** ** Blocks *)
Lemma blocks_concat {A} cs : forall l : list A, length l = Chunking.axis_length cs -> concat (blocks cs l) = l.
Proof.
  induction cs as [|c r IH]; intros l Hl; cbn [blocks concat].
  - destruct l; [reflexivity|discriminate].
  - change (Chunking.axis_length (c :: r)) with (c + Chunking.axis_length r)%nat in Hl.
    rewrite IH; [apply firstn_skipn|]. rewrite skipn_length. lia.
Qed.
Lemma blocks_map_concat {A B} (f : A -> B) cs (l : list A) : length l = Chunking.axis_length cs ->
  concat (map (map f) (blocks cs l)) = map f l.
Proof. intros H. rewrite <- concat_map, blocks_concat; auto. Qed.

Definition zip_opt {A B C} (f : A -> B -> option C) (l : list A) (m : list B) : list (option C) :=
  map (fun i => match nth_error l i, nth_error m i with Some a, Some b => f a b | _, _ => None end) (seq 0 (length l)).
Lemma zip_opt_cons {A B C} (f : A -> B -> option C) a l m :
  zip_opt f (a :: l) m = match m with b :: _ => f a b | [] => None end :: zip_opt f l (tl m).
Proof.
  unfold zip_opt. cbn [length seq map]. f_equal; [now destruct m|]. rewrite <- seq_shift, map_map. apply map_ext. intros i.
  destruct m; [|reflexivity]. cbn [nth_error tl]. destruct (nth_error l i), i; reflexivity.
Qed.
Lemma zip_opt_app {A B C} (f : A -> B -> option C) l1 : forall l2 m, zip_opt f (l1 ++ l2) m = zip_opt f l1 (firstn (length l1) m) ++ zip_opt f l2 (skipn (length l1) m).
Proof.
  induction l1 as [|a l1 IH]; intros l2 m; [reflexivity|]. cbn [app]. rewrite !zip_opt_cons, IH. cbn [app]. f_equal.
  - now destruct m.
  - destruct m; cbn [tl length firstn skipn]; [|reflexivity]. rewrite firstn_nil, skipn_nil. reflexivity.
Qed.
Lemma zip_opt_blocks {A B C} (f : A -> B -> option C) cs : forall (l : list A) (m : list B), length l = Chunking.axis_length cs ->
  concat (map (fun lm => zip_opt f (fst lm) (snd lm)) (combine (blocks cs l) (blocks cs m))) = zip_opt f l m.
Proof.
  induction cs as [|c r IH]; intros l m Hl; cbn [blocks combine map concat].
  - destruct l; [reflexivity|discriminate].
  - change (Chunking.axis_length (c :: r)) with (c + Chunking.axis_length r)%nat in Hl. cbn [fst snd].
    rewrite IH by (rewrite skipn_length; lia). rewrite <- (firstn_skipn c l) at 3. rewrite zip_opt_app, firstn_length, Nat.min_l by lia. reflexivity.
Qed.
Lemma zip_opt_nth {A B C} (f : A -> B -> option C) l m i a b : nth_error l i = Some a -> nth_error m i = Some b ->
  nth_error (zip_opt f l m) i = Some (f a b).
Proof.
  intros Ha Hb. assert (Hi : (i < length l)%nat) by (apply nth_error_Some; congruence).
  unfold zip_opt. rewrite nth_error_map, nth_error_seq by exact Hi. cbn [option_map Nat.add]. now rewrite Ha, Hb.
Qed.
Lemma zip_opt_out {A B C} (f : A -> B -> option C) l m i a : nth_error l i = Some a -> nth_error m i = None ->
  nth_error (zip_opt f l m) i = Some None.
Proof.
  intros Ha Hb. assert (Hi : (i < length l)%nat) by (apply nth_error_Some; congruence).
  unfold zip_opt. rewrite nth_error_map, nth_error_seq by exact Hi. cbn [option_map Nat.add]. now rewrite Ha, Hb.
Qed.
Lemma all_some_map {A B} (f : A -> B) l : all_some (map (fun x => Some (f x)) l) = Some (map f l).
Proof. induction l as [|x l IH]; simpl; [reflexivity|]. now rewrite IH. Qed.
