(** Refinement scores and simulated patterns: property C60. *)
From Coq Require Import List Arith Bool ZArith Reals Lra Lia.
From Verif Require Import Model.Detector Model.Rotations Model.Lambert Model.Simulation Model.RefinementObjective
  Proofs.DetectorProofs Proofs.DetectorTilt Proofs.LambertProofs Proofs.SimulationProofs Proofs.RefinementObjectiveProofs Spec.Correlation
  Props.Rotations Props.Simulation.
From Verif Require Model.Pattern Model.Intensity Model.Similarity Proofs.PatternProofs Proofs.SimilarityProofs Proofs.IntensityProofs.
Import ListNotations.
Local Open Scope R_scope.

(** ** Specification *)

(** An optimiser reports the value of the objective at the parameters it returns. *)
Definition faithful {X V} (minimise : (X -> V) -> X -> V * X) : Prop := forall f x0, fst (minimise f x0) = f (snd (minimise f x0)).
(** lo and hi are the lowest and highest intensities of a hemisphere of n x n pixels. *)
Definition has_range (n : Z) (h : Z -> Z -> R) (lo hi : R) : Prop :=
  (forall r c, (0 <= r < n)%Z -> (0 <= c < n)%Z -> lo <= h r c <= hi)
  /\ (exists r c, (0 <= r < n)%Z /\ (0 <= c < n)%Z /\ h r c = lo) /\ (exists r c, (0 <= r < n)%Z /\ (0 <= c < n)%Z /\ h r c = hi).
(** Master patterns of 32-bit floats, and those with equally bright hemispheres. *)
Definition float32_or_equally_bright (mp : master) : Prop :=
  mp_dtype mp = Intensity.Float32
  \/ exists lo hi, lo < hi /\ has_range (npx mp) (upper mp) lo hi /\ has_range (npx mp) (lower mp) lo hi.
(** pat is the pattern that EBSDMasterPattern.get_patterns() returns, with data type t, for one rotation and one PC. *)
Definition simulated_by_get_patterns (mp : master) (t : Intensity.dtype) (d : detector) (q : quat) (p : pc3) (pat : list R) : Prop :=
  exists auto chunk_shape sh, (forall specs s i, (1 <= auto specs s i)%nat)
    /\ get_patterns auto mp [1%nat] [q] (with_pc d (PCArray [1%nat] [p])) t chunk_shape = Some (sh, [Some pat]).
Definition not_constant (p : list R) : Prop := exists x y, In x p /\ In y p /\ x <> y.

(** ** Proofs *)

Lemma not_constant_ok p : not_constant p -> ~ PatternProofs.constant p.
Proof. intros (x & y & Hx & Hy & N) C. apply N. now apply C. Qed.

Lemma flat_range n h lo hi : has_range n h lo hi -> Pattern.vmin (flat n h) = lo /\ Pattern.vmax (flat n h) = hi.
Proof.
  intros (B & (r1 & c1 & H1 & H2 & H3) & (r2 & c2 & H4 & H5 & H6)). split.
  - apply IntensityProofs.vmin_unique; [apply flat_in; eauto|]. intros x Hx. apply flat_in in Hx. destruct Hx as (r & c & ? & ? & <-). now apply B.
  - apply IntensityProofs.vmax_unique; [apply flat_in; eauto|]. intros x Hx. apply flat_in in Hx. destruct Hx as (r & c & ? & ? & <-). now apply B.
Qed.
Lemma master_data_affine mp : (1 <= npx mp)%Z -> float32_or_equally_bright mp -> npx (master_pattern_data mp) = npx mp
  /\ exists a b, 0 < a /\ forall r c, (0 <= r < npx mp)%Z -> (0 <= c < npx mp)%Z ->
       upper (master_pattern_data mp) r c = a * upper mp r c + b /\ lower (master_pattern_data mp) r c = a * lower mp r c + b.
Proof.
  intros Hn H. unfold master_pattern_data. destruct (dtype_eqb (mp_dtype mp) Intensity.Float32) eqn:E.
  - split; [reflexivity|]. exists 1, 0. split; [lra|]. intros. split; ring.
  - split; [reflexivity|]. destruct H as [H|(lo & hi & Hlt & Hu & Hl)]; [rewrite H in E; discriminate|].
    exists (2 / (hi - lo)), (-1 - lo * 2 / (hi - lo)). split; [apply Rdiv_lt_0_compat; lra|]. intros r c Hr Hc. cbn [upper lower].
    unfold Intensity.rescale_intensity, Pattern.rescale_with_min_max. rewrite !map_map. rewrite !unflat_map by assumption.
    rewrite (proj1 (flat_range _ _ _ _ Hu)), (proj2 (flat_range _ _ _ _ Hu)), (proj1 (flat_range _ _ _ _ Hl)), (proj2 (flat_range _ _ _ _ Hl)).
    unfold Intensity.cast, Intensity.dtype_min, Intensity.dtype_max. cbn [Intensity.is_float Intensity.dtype_range fst snd]. split; field; lra.
Qed.

Section Score.
Variables (mp : master) (d : detector) (mask : option (list bool)) (t : Intensity.dtype) (rescale : bool) (e pat : list R) (q : quat) (p : pc3).
Hypothesis Hn : (1 <= npx mp)%Z.
Hypothesis Hmp : float32_or_equally_bright mp.
Hypothesis Hd : valid d.
Hypothesis Hmask : forall m, mask = Some m -> length m = (n_rows d * n_cols d)%nat.
Hypothesis He : length e = (n_rows d * n_cols d)%nat.
Hypothesis Ht : Intensity.is_float t = true.
Hypothesis Hq : qa q * qa q + qb q * qb q + qc q * qc q + qd q * qd q = 1.
Hypothesis Hp : 0 < pcz p.
Hypothesis Hpat : simulated_by_get_patterns mp t d q p pat.
Hypothesis Hec : not_constant (used mask e).
Hypothesis Hpc : not_constant (used mask pat).

Let intensity idx := pixel_from_master_pattern (upper mp) (lower mp) (npx mp) (rotate_vector q (direction d p idx)).

Lemma pattern_form : let I := map intensity (pixels d None) in
  pat = map (Intensity.cast t) (if dtype_eqb t (mp_dtype mp) then I
    else Pattern.rescale_with_min_max (Pattern.vmin I) (Pattern.vmax I) (Intensity.dtype_min t) (Intensity.dtype_max t) I).
Proof using Hd Hp Hpat.
  clear Hmask He Hec Hpc Hn Hmp Hq. destruct Hpat as (auto & cs & sh & Ha & G).
  assert (W : with_pcs (with_pc d (PCArray [1%nat] [p]))) by (split; [exact Hd|split; [repeat constructor; exact Hp|reflexivity]]).
  destruct (C39_common_pc auto mp [1%nat] [q] (with_pc d (PCArray [1%nat] [p])) t cs Ha W eq_refl sh [Some pat] 0 q p eq_refl G eq_refl eq_refl)
    as (_ & _ & pat' & N & vs & F & E). injection N as <-.
  assert (V : vs = map (direction d p) (pixels d None)).
  { change (pixels (with_pc d (PCArray [1%nat] [p])) None) with (pixels d None) in F. clear - F Hd Hp.
    revert vs F. induction (pixels d None) as [|i l IH]; intros vs F; inversion F; subst; [reflexivity|]. cbn [map]. f_equal; [|auto].
    apply (C38_direction_unique d p i); [assumption|]. now apply direction_points. }
  cbv zeta in E. rewrite V, map_map in E. exact E.
Qed.
Lemma pattern_affine : exists a b, 0 < a /\ pat = map (fun x => a * x + b) (map intensity (pixels d None)).
Proof using Hd Ht Hp Hpat Hpc.
  clear Hmask He Hec Hn Hmp Hq. pose proof pattern_form as E. cbv zeta in E.
  set (I := map intensity (pixels d None)) in *.
  assert (Ec : forall l, map (Intensity.cast t) l = l).
  { intros l. rewrite <- (map_id l) at 2. apply map_ext. intros x. unfold Intensity.cast. now rewrite Ht. }
  rewrite Ec in E. destruct (dtype_eqb t (mp_dtype mp)).
  - exists 1, 0. split; [lra|]. rewrite E. rewrite <- (map_id I) at 1. apply map_ext. intros; ring.
  - assert (NC : ~ PatternProofs.constant I).
    { intros C. destruct Hpc as (x & y & Hx & Hy & N). apply N.
      assert (S : forall z, In z (used mask pat) -> In z pat).
      { intros z Hz. destruct mask as [m|]; [|exact Hz]. unfold used in Hz. apply in_map_iff in Hz. destruct Hz as ((b, z') & <- & Hz).
        apply filter_In in Hz. destruct Hz as [Hz _]. now apply in_combine_r in Hz. }
      apply S in Hx, Hy. rewrite E in Hx, Hy. apply in_map_iff in Hx, Hy. destruct Hx as (u & <- & Hu), Hy as (v & <- & Hv). now rewrite (C u v Hu Hv). }
    apply PatternProofs.vmin_lt_vmax in NC. rewrite E, PatternProofs.rescale_affine by lra.
    eexists. eexists. split; [|reflexivity]. apply Rdiv_lt_0_compat; [|lra].
    destruct t; try discriminate; unfold Intensity.dtype_min, Intensity.dtype_max; cbn [Intensity.dtype_range fst snd]; lra.
Qed.
Lemma score_is_pearson :
  1 - (let (exp, n2) := Similarity.prepare_pattern rescale (used_pixels mask e) in
       1 - Similarity.ncc_single exp (simulate (master_pattern_data mp) q (map (direction d p) (pixels d (Some (use_mask (n_rows d) (n_cols d) mask))))) n2)
  = pearson (length (used mask e)) (px (used mask e)) (px (used mask pat)).
Proof using Hn Hmp Hd Hmask He Ht Hq Hp Hpat Hec Hpc.
  destruct pattern_affine as (a' & b' & Ha' & Ep).
  destruct (master_data_affine mp Hn Hmp) as (Hnn & a & b & Ha & Hab).
  assert (Es : simulate (master_pattern_data mp) q (map (direction d p) (pixels d (Some (use_mask (n_rows d) (n_cols d) mask))))
               = map (fun x => a * x + b) (map intensity (pixels d (Some (use_mask (n_rows d) (n_cols d) mask))))).
  { unfold simulate, project_single. rewrite !map_map. apply map_ext. intros idx. unfold Intensity.cast. cbn [Intensity.is_float]. rewrite Hnn.
    apply pixel_affine; [exact Hn| |exact Hab]. apply rotated_nonzero; [exact Hq|]. now apply direction_norm. }
  replace (used_pixels mask e) with (used mask e) by (symmetry; apply used_pixels_used). rewrite (ncc_objective rescale (used mask e) _ _ a b Ha Es (not_constant_ok _ Hec)).
  assert (Eu : used mask pat = map (fun x => a' * x + b') (map intensity (pixels d (Some (use_mask (n_rows d) (n_cols d) mask))))).
  { rewrite Ep, !map_map. exact (used_map d mask (fun x => a' * intensity x + b') Hmask). }
  transitivity (Pattern.dot (Similarity.zero_mean_normalize (used mask e)) (Similarity.zero_mean_normalize (used mask pat)));
    [now rewrite Eu, SimilarityProofs.zero_mean_normalize_affine_pos by exact Ha'|]. unfold px.
  apply SimilarityProofs.ncc_is_pearson.
  assert (L : length pat = length e) by (rewrite Ep, !map_length, He; unfold pixels; apply seq_length).
  rewrite <- !used_pixels_used. destruct mask as [m|]; cbn [used_pixels]; [|now symmetry]. generalize (map negb m) as k. clear - L. revert pat L.
  induction e as [|x l IH]; intros [|y l'] L [|[|] k]; cbn [length select] in *; try reflexivity; try discriminate; rewrite ?(IH l') by congruence; reflexivity.
Qed.
End Score.

(** ** C60 *)

(** Refinement of an orientation, with one common PC or one PC per pattern: the score reported for a pattern is Pearson's
    coefficient, over the pixels that are not masked out, of this pattern and the one simulated with the refined orientation
    and the PC, for a master pattern of 32-bit floats or with equally bright hemispheres. *)
Theorem C60_orientation_score_partial mp d mask te t minimise e start p score x pat :
  (1 <= npx mp)%Z -> float32_or_equally_bright mp -> valid d -> 0 < pcz p ->
  (d_pc d = PCArray [1%nat] [p] \/ (1 < length (pcs (d_pc d)))%nat) ->
  (forall m, mask = Some m -> length m = (n_rows d * n_cols d)%nat) -> length e = (n_rows d * n_cols d)%nat ->
  Intensity.is_float t = true -> faithful minimise ->
  solve_orientation mp d mask te minimise e start p = Some (score, x) ->
  simulated_by_get_patterns mp t d (rotation_from_euler (fst (fst x)) (snd (fst x)) (snd x)) p pat ->
  not_constant (used mask e) -> not_constant (used mask pat) ->
  score = pearson (length (used mask e)) (px (used mask e)) (px (used mask pat)).
Proof.
  intros Hn Hmp Hd Hp Hpcs Hm He Ht Hf Hs Hpat Hec Hpc.
  pose proof (C46_euler_unit_quaternion (fst (fst x)) (snd (fst x)) (snd x)) as Hq. cbv zeta in Hq. destruct Hq as [Hq _].
  rewrite <- (score_is_pearson mp d mask t (dtype_eqb te Intensity.Float32) e pat _ p Hn Hmp Hd Hm He Ht Hq Hp Hpat Hec Hpc).
  unfold solve_orientation in Hs. destruct (Similarity.prepare_pattern _ _) as [exp n2].
  assert (Ed : (if (1 <? length (pcs (d_pc d)))%nat
         then cosines_for (Z.to_nat (d_ny d)) (Z.to_nat (d_nx d)) (transposed (sample_to_detector d)) (use_mask (Z.to_nat (d_ny d)) (Z.to_nat (d_nx d)) mask) p
         else match direction_cosines d (Some (use_mask (Z.to_nat (d_ny d)) (Z.to_nat (d_nx d)) mask)) with OneSet dc => all_some dc | PerPC _ => None end)
         = Some (map (direction d p) (pixels d (Some (use_mask (n_rows d) (n_cols d) mask))))).
  { destruct Hpcs as [Hpcs|Hpcs].
    - rewrite Hpcs. cbn [pcs length Nat.ltb Nat.leb]. unfold direction_cosines. rewrite Hpcs. cbn [nav_shape pcs].
      pose proof (fixed_directions d p (Some (use_mask (n_rows d) (n_cols d) mask)) Hd Hp ltac:(intros m E; injection E as <-; now apply use_mask_length)) as F.
      cbv iota in F. unfold n_rows, n_cols in *. rewrite F. apply all_some_map.
    - destruct (Nat.ltb_spec 1 (length (pcs (d_pc d)))); [|lia]. now apply cosines_for_eq. }
  rewrite Ed in Hs. cbn [option_map] in Hs.
  set (f := orientation_objective _ _ _ _) in Hs. pose proof (Hf f start) as Hv. destruct (minimise f start) as [v y]. cbn [fst snd] in Hv.
  injection Hs as <- ->. rewrite Hv. reflexivity.
Qed.
(** Refinement of the PC: the pattern simulated with the given orientation and the refined PC. *)
Theorem C60_pc_score_partial mp d mask te t minimise e q p score x pat :
  (1 <= npx mp)%Z -> float32_or_equally_bright mp -> valid d -> qa q * qa q + qb q * qb q + qc q * qc q + qd q * qd q = 1 -> 0 < pcz x ->
  (forall m, mask = Some m -> length m = (n_rows d * n_cols d)%nat) -> length e = (n_rows d * n_cols d)%nat ->
  Intensity.is_float t = true -> faithful minimise ->
  solve_pc mp d mask te minimise e q p = Some (score, x) ->
  simulated_by_get_patterns mp t d q x pat ->
  not_constant (used mask e) -> not_constant (used mask pat) ->
  score = pearson (length (used mask e)) (px (used mask e)) (px (used mask pat)).
Proof.
  intros Hn Hmp Hd Hq Hp Hm He Ht Hf Hs Hpat Hec Hpc.
  rewrite <- (score_is_pearson mp d mask t (dtype_eqb te Intensity.Float32) e pat _ x Hn Hmp Hd Hm He Ht Hq Hp Hpat Hec Hpc).
  unfold solve_pc in Hs. destruct (Similarity.prepare_pattern _ _) as [exp n2].
  set (f := pc_objective _ _ _ _ _ _ _ _) in Hs. pose proof (Hf f p) as Hv. destruct (minimise f p) as [v y]. cbn [fst snd] in Hv.
  destruct v as [v|]; [|discriminate]. cbn [option_map] in Hs. injection Hs as <- ->. unfold f, pc_objective in Hv. rewrite cosines_for_eq in Hv by assumption.
  cbn [option_map] in Hv. injection Hv as ->. reflexivity.
Qed.
(** Refinement of both. *)
Theorem C60_orientation_pc_score_partial mp d mask te t minimise e start p score x xp pat :
  (1 <= npx mp)%Z -> float32_or_equally_bright mp -> valid d -> 0 < pcz xp ->
  (forall m, mask = Some m -> length m = (n_rows d * n_cols d)%nat) -> length e = (n_rows d * n_cols d)%nat ->
  Intensity.is_float t = true -> faithful minimise ->
  solve_orientation_pc mp d mask te minimise e start p = Some (score, (x, xp)) ->
  simulated_by_get_patterns mp t d (rotation_from_euler (fst (fst x)) (snd (fst x)) (snd x)) xp pat ->
  not_constant (used mask e) -> not_constant (used mask pat) ->
  score = pearson (length (used mask e)) (px (used mask e)) (px (used mask pat)).
Proof.
  intros Hn Hmp Hd Hp Hm He Ht Hf Hs Hpat Hec Hpc.
  pose proof (C46_euler_unit_quaternion (fst (fst x)) (snd (fst x)) (snd x)) as Hq. cbv zeta in Hq. destruct Hq as [Hq _].
  rewrite <- (score_is_pearson mp d mask t (dtype_eqb te Intensity.Float32) e pat _ xp Hn Hmp Hd Hm He Ht Hq Hp Hpat Hec Hpc).
  unfold solve_orientation_pc in Hs. destruct (Similarity.prepare_pattern _ _) as [exp n2].
  set (f := orientation_pc_objective _ _ _ _ _ _ _) in Hs. pose proof (Hf f (start, p)) as Hv. destruct (minimise f (start, p)) as [v y]. cbn [fst snd] in Hv.
  destruct v as [v|]; [|discriminate]. cbn [option_map] in Hs. injection Hs as <- ->. unfold f, orientation_pc_objective in Hv. cbn [fst snd] in Hv.
  rewrite cosines_for_eq in Hv by assumption. cbn [option_map] in Hv. injection Hv as ->. reflexivity.
Qed.
(** A crystal with inversion symmetry has one hemisphere for both: the hypothesis on the master pattern holds for any data
    type, unless the master pattern is constant. *)
Theorem C60_one_hemisphere_for_both h n t : (1 <= n)%Z -> not_constant (flat n h) -> float32_or_equally_bright (Master h h n t).
Proof.
  intros Hn H. right. exists (Pattern.vmin (flat n h)), (Pattern.vmax (flat n h)). cbn [npx upper lower].
  assert (Ne : flat n h <> []). { destruct H as (x & _ & Hx & _). intros E. rewrite E in Hx. destruct Hx. }
  split; [apply PatternProofs.vmin_lt_vmax; now apply not_constant_ok|].
  assert (R : has_range n h (Pattern.vmin (flat n h)) (Pattern.vmax (flat n h))); [|split; exact R].
  split; [|split].
  - intros r c Hr Hc. assert (In (h r c) (flat n h)) by (apply flat_in; eauto). split; [now apply PatternProofs.vmin_le|now apply PatternProofs.vmax_ge].
  - pose proof (PatternProofs.vmin_in _ Ne) as I. now apply flat_in in I.
  - pose proof (PatternProofs.vmax_in _ Ne) as I. now apply flat_in in I.
Qed.
(** There is such a simulated pattern for every rotation and PC. *)
Theorem C60_simulated_pattern_exists mp t d q p : valid d -> 0 < pcz p -> exists pat, simulated_by_get_patterns mp t d q p pat.
Proof.
  intros Hd Hp. set (auto := fun (_ : list Chunking.spec) (_ : list nat) (_ : nat) => 1%nat).
  destruct (C39_accepted auto mp [1%nat] [q] (with_pc d (PCArray [1%nat] [p])) t None) as (sh & l & E); [left; reflexivity|simpl; lia|discriminate|].
  assert (W : with_pcs (with_pc d (PCArray [1%nat] [p]))) by (split; [exact Hd|split; [repeat constructor; exact Hp|reflexivity]]).
  destruct (C39_common_pc auto mp [1%nat] [q] (with_pc d (PCArray [1%nat] [p])) t None ltac:(intros; unfold auto; lia) W eq_refl sh l 0 q p eq_refl E eq_refl eq_refl)
    as (_ & Ll & pat & N & _).
  destruct l as [|o [|]]; try discriminate. cbn [nth_error] in N. injection N as ->. exists pat, auto, None, sh. split; [intros; unfold auto; lia|exact E].
Qed.

(** ** Differently bright hemispheres *)

(** Rows 1 and 2 of a 3 x 3 hemisphere are read for directions in the plane y = 0. *)
Lemma plane_lookup u l a b x z : x <> 0 -> (forall r c, (1 <= r < 3)%Z -> (0 <= c < 3)%Z -> u r c = a /\ l r c = b) ->
  pixel_from_master_pattern u l 3 (Vec x 0 z) = if Rle_dec 0 z then a else b.
Proof.
  intros Hx H. unfold pixel_from_master_pattern. cbn [vz].
  pose proof (Lambert.C37_reads_inside_with_valid_weights 3 ltac:(lia) (Vec x 0 z) ltac:(auto)) as C. cbv zeta in C. revert C.
  replace ((3 - 1) / 2) with 1 by field.
  assert (Y : snd (vector2lambert (Vec x 0 z)) = 0).
  { unfold vector2lambert, normalise. cbn [vx vy vz]. unfold Rdiv at 2 4 6 8. rewrite !Rmult_0_l.
    destruct (Req_EM_T _ 1); [reflexivity|]. destruct (Rle_dec (Rabs 0) _) as [L|L].
    - cbn [snd]. match goal with |- context [atan ?t] => replace t with 0 by (unfold Rdiv; ring) end. rewrite atan_0. ring.
    - exfalso. apply L. rewrite Rabs_R0. apply Rabs_pos. }
  unfold interpolation_parameters. destruct (vector2lambert (Vec x 0 z)) as [lx ly]. cbn [snd] in Y. subst ly. cbv zeta.
  replace (1 * 0 / sqrt (PI / 2) + 1) with (IZR 1) by (unfold Rdiv; ring). rewrite trunc_IZR.
  change (3 <=? 1 + 1)%Z with false. change (1 <? 0)%Z with false. cbn [nii niip nij nijp di dj]. intros (_ & C2 & _ & C4 & _). unfold interpolate. cbn [nii niip nij nijp di dj].
  rewrite (proj1 (H 1%Z _ ltac:(lia) C2)), (proj2 (H 1%Z _ ltac:(lia) C2)), (proj1 (H 1%Z _ ltac:(lia) C4)), (proj2 (H 1%Z _ ltac:(lia) C4)).
  change (1 + 1)%Z with 2%Z.
  rewrite (proj1 (H 2%Z _ ltac:(lia) C2)), (proj2 (H 2%Z _ ltac:(lia) C2)), (proj1 (H 2%Z _ ltac:(lia) C4)), (proj2 (H 2%Z _ ltac:(lia) C4)).
  destruct (Rle_dec 0 z); ring.
Qed.
Definition bright_lower : master := Master (fun r c => if (r =? 0)%Z then 0 else 10) (fun r c => if (r =? 0)%Z then 200 else 100) 3 Intensity.UInt8.
Definition two_pixels : detector := Det 2 1 1 1 0 0 0 0 (PCArray [1%nat] [PC (1/2) (1/2) 1]).

Lemma two_pixels_directions : let p := PC (1/2) (1/2) 1 in exists n, 0 < n
  /\ direction two_pixels p 0 = Vec (1 / n) 0 (1 / 4 / n) /\ direction two_pixels p 1 = Vec (1 / n) 0 (- (1 / 4) / n).
Proof.
  cbv zeta. set (p := PC (1/2) (1/2) 1). assert (Hd : valid two_pixels) by (repeat split; cbn [two_pixels d_ny d_nx d_px_size d_binning]; try lia; lra).
  assert (Hp : 0 < pcz p) by (cbn; lra).
  destruct (raw_geometry two_pixels p Hd Hp 0) as [_ E0]. destruct (raw_geometry two_pixels p Hd Hp 1) as [_ E1]. cbv zeta in E0, E1.
  unfold nrows, ncols in E0, E1. cbn [two_pixels d_ny d_nx d_px_size d_binning p pcx pcy pcz] in E0, E1.
  change (Z.to_nat 1) with 1%nat in E0, E1. change (0 mod 1)%nat with 0%nat in E0. change (0 / 1)%nat with 0%nat in E0.
  change (1 mod 1)%nat with 0%nat in E1. change (1 / 1)%nat with 1%nat in E1. cbn [INR] in E0, E1.
  assert (M : sample_to_detector two_pixels = Mat (Vec 0 1 0) (Vec 0 0 1) (Vec 1 0 0)).
  { unfold sample_to_detector. cbn [two_pixels d_sample_tilt d_tilt d_azimuthal d_twist]. 
    replace (deg2rad 0) with 0 by (unfold deg2rad, Rdiv; ring). rewrite matrix_no_azimuthal_twist, Rminus_0_r, sin_0, cos_0, Ropp_0. reflexivity. }
  fold p in E0, E1. 
  set (n := norm (Vec 1 0 (1 / 4))). exists n.
  assert (Hn : 0 < n). { unfold n, norm, dot. cbn [vx vy vz]. apply sqrt_lt_R0. lra. }
  assert (Hn' : norm (Vec 1 0 (- (1 / 4))) = n). { unfold n, norm, dot. cbn [vx vy vz]. f_equal. ring. }
  split; [exact Hn|]. unfold direction. rewrite E0, E1, M. unfold row_times. cbn [vx vy vz r0 r1 r2]. split.
  - match goal with |- normalise ?v = _ => replace v with (Vec 1 0 (1 / 4)) by (apply vec_ext; cbn [vx vy vz]; field) end.
    unfold normalise. fold n. cbn [vx vy vz]. f_equal. unfold Rdiv. ring.
  - match goal with |- normalise ?v = _ => replace v with (Vec 1 0 (- (1 / 4))) by (apply vec_ext; cbn [vx vy vz]; field) end.
    unfold normalise. rewrite Hn'. cbn [vx vy vz]. f_equal. unfold Rdiv. ring.
Qed.
Lemma rotation_zero : rotation_from_euler 0 0 0 = Quat 1 0 0 0.
Proof.
  unfold rotation_from_euler. rewrite Rplus_0_r, Rminus_0_r, !Rmult_0_r, sin_0, cos_0. cbn [qa].
  destruct (Rlt_dec (1 * 1) 0); [lra|]. f_equal; ring.
Qed.
Lemma rotate_zero x y z : rotate_vector (Quat 1 0 0 0) (Vec x y z) = Vec x y z.
Proof. unfold rotate_vector. f_equal; ring. Qed.
Lemma two_pixels_pattern (u l : Z -> Z -> R) a b : (forall r c, (1 <= r < 3)%Z -> (0 <= c < 3)%Z -> u r c = a /\ l r c = b) ->
  map (fun idx => pixel_from_master_pattern u l 3 (rotate_vector (Quat 1 0 0 0) (direction two_pixels (PC (1/2) (1/2) 1) idx))) [0%nat; 1%nat] = [a; b].
Proof.
  intros H. destruct two_pixels_directions as (n & Hn & E0 & E1). assert (Hx : 1 / n <> 0) by (apply Rgt_not_eq, Rdiv_lt_0_compat; lra).
  cbn [map]. rewrite E0, E1, !rotate_zero, !(plane_lookup u l a b) by assumption.
  assert (0 < 1 / 4 / n) by (apply Rdiv_lt_0_compat; lra). replace (- (1 / 4) / n) with (- (1 / 4 / n)) by (unfold Rdiv; ring).
  destruct (Rle_dec 0 (1 / 4 / n)); [|lra]. destruct (Rle_dec 0 (- (1 / 4 / n))); [lra|]. reflexivity.
Qed.
(** The claim is false for other master patterns whose hemispheres differ in brightness: here an 8-bit master pattern, a
    detector of two pixels that see one hemisphere each, and a pattern equal to the simulated one up to contrast and
    brightness. Refinement reports the score -1 for it, the coefficient is 1. *)
Theorem C60_differently_bright_hemispheres_refuted : exists mp d p e minimise x pat,
  mp_dtype mp = Intensity.UInt8 /\ valid d /\ d_pc d = PCArray [1%nat] [p] /\ 0 < pcz p /\ faithful minimise
  /\ length e = (n_rows d * n_cols d)%nat
  /\ solve_orientation mp d None Intensity.UInt8 minimise e x p = Some (-1, x)
  /\ simulated_by_get_patterns mp Intensity.Float32 d (rotation_from_euler (fst (fst x)) (snd (fst x)) (snd x)) p pat
  /\ pearson (length e) (px e) (px pat) = 1.
Proof.
  set (p := PC (1/2) (1/2) 1). assert (Hd : valid two_pixels) by (repeat split; cbn [two_pixels d_ny d_nx d_px_size d_binning]; try lia; lra).
  assert (Hp : 0 < pcz p) by (cbn; lra). set (x := (0, 0, 0) : R * R * R).
  destruct (C60_simulated_pattern_exists bright_lower Intensity.Float32 two_pixels (Quat 1 0 0 0) p Hd Hp) as [pat Hpat].
  exists bright_lower, two_pixels, p, [0; 1], (fun f x0 => (f x0, x0)), x, pat.
  split; [reflexivity|]. split; [exact Hd|]. split; [reflexivity|]. split; [exact Hp|]. split; [intros f x0; reflexivity|]. split; [reflexivity|].
  split; [|split].
  - unfold solve_orientation. 
    assert (Ed : direction_cosines two_pixels (Some (use_mask (Z.to_nat (d_ny two_pixels)) (Z.to_nat (d_nx two_pixels)) None))
                 = OneSet (map (fun idx => Some (direction two_pixels p idx)) [0%nat; 1%nat])).
    { unfold direction_cosines. cbn [two_pixels d_pc nav_shape pcs]. f_equal. 
      exact (fixed_directions two_pixels p (Some [true; true]) Hd Hp ltac:(intros m E; injection E as <-; reflexivity)). }
    rewrite Ed. cbn [two_pixels d_pc pcs length Nat.ltb Nat.leb dtype_eqb used_pixels]. rewrite all_some_map. cbn [option_map].
    unfold Similarity.prepare_pattern. set (f := orientation_objective _ _ _ _).
    assert (Ef : f x = 2); [|rewrite Ef; f_equal; f_equal; lra].
    unfold f, orientation_objective, simulate, project_single, euler_rotation. cbn [x fst snd]. rewrite rotation_zero, !map_map.
    assert (Es : map (fun idx => Intensity.cast Intensity.Float32 (pixel_from_master_pattern (upper (master_pattern_data bright_lower)) (lower (master_pattern_data bright_lower))
        (npx (master_pattern_data bright_lower)) (rotate_vector (Quat 1 0 0 0) (direction two_pixels p idx)))) [0%nat; 1%nat] = [1; -1]).
    { change (npx (master_pattern_data bright_lower)) with 3%Z. apply (two_pixels_pattern (upper (master_pattern_data bright_lower)) (lower (master_pattern_data bright_lower))).
      intros r c Hr Hc. unfold master_pattern_data. cbn [bright_lower mp_dtype dtype_eqb upper lower npx].
      unfold Intensity.rescale_intensity, Pattern.rescale_with_min_max. rewrite !map_map. rewrite !unflat_map by lia.
      destruct (Z.eqb_spec r 0); [lia|]. unfold Intensity.cast, Intensity.dtype_min, Intensity.dtype_max. cbn [Intensity.is_float Intensity.dtype_range fst snd].
      assert (U : forall lo hi, has_range 3 (fun r _ => if (r =? 0)%Z then lo else hi) (Rmin lo hi) (Rmax lo hi)).
      { intros lo hi. split; [|split].
        - intros r' c' _ _. destruct (r' =? 0)%Z; split; auto using Rmin_l, Rmin_r, Rmax_l, Rmax_r.
        - destruct (Rle_dec lo hi); [exists 0%Z, 0%Z; rewrite Rmin_left by lra|exists 1%Z, 0%Z; rewrite Rmin_right by lra]; repeat split; lia.
        - destruct (Rle_dec lo hi); [exists 1%Z, 0%Z; rewrite Rmax_right by lra|exists 0%Z, 0%Z; rewrite Rmax_left by lra]; repeat split; lia. }
      rewrite (proj1 (flat_range _ _ _ _ (U 0 10))), (proj2 (flat_range _ _ _ _ (U 0 10))), (proj1 (flat_range _ _ _ _ (U 200 100))), (proj2 (flat_range _ _ _ _ (U 200 100))).
      rewrite (Rmin_left 0 10), (Rmax_right 0 10), (Rmin_right 200 100), (Rmax_left 200 100) by lra. split; field. }
    rewrite Es. unfold Similarity.ncc_single, Pattern.zero_mean, Pattern.vmean, Pattern.vsum. cbn [map fold_right length Pattern.dot INR].
    match goal with |- context [sqrt ?t] => replace t with 1 by field end. rewrite sqrt_1. field.
  - cbn [x fst snd]. now rewrite rotation_zero.
  - pose proof (pattern_form bright_lower two_pixels Intensity.Float32 pat (Quat 1 0 0 0) p Hd Hp Hpat) as F. cbv zeta in F.
    change (pixels two_pixels None) with [0%nat; 1%nat] in F. change (npx bright_lower) with 3%Z in F. unfold p in F.
    rewrite (two_pixels_pattern (upper bright_lower) (lower bright_lower) 10 100) in F.
    2:{ intros r c Hr Hc. cbn [bright_lower upper lower]. destruct (Z.eqb_spec r 0); [lia|auto]. }
    cbn [bright_lower mp_dtype dtype_eqb] in F. unfold Pattern.vmin, Pattern.vmax, Pattern.rescale_with_min_max in F. cbn [fold_right map] in F.
    rewrite Rmin_right, Rmax_left in F by lra. unfold Intensity.cast, Intensity.dtype_min, Intensity.dtype_max in F. cbn [Intensity.is_float Intensity.dtype_range fst snd] in F.
    replace ((10 - 10) / (100 - 10) * (1 - -1) + -1) with (-1) in F by field. replace ((100 - 10) / (100 - 10) * (1 - -1) + -1) with 1 in F by field.
    rewrite F. unfold pearson, average, Sum, px. cbn [length nth INR].
    match goal with |- _ / (sqrt ?s * sqrt ?t) = _ => replace s with (1 / 2) by field; replace t with 2 by field end.
    rewrite <- sqrt_mult by lra. replace (1 / 2 * 2) with 1 by field. rewrite sqrt_1. field.
Qed.
(** Refinement only starts with a detector of the shape of the patterns and with one PC, or one PC per pattern in
    the navigation shape of the signal. *)
Theorem C60_detector_fits_the_signal d nav sig :
  length (pcs (d_pc d)) = fold_right Nat.mul 1%nat (nav_shape (d_pc d)) ->
  detector_is_compatible d nav sig = true ->
  sig = [n_rows d; n_cols d]
  /\ (length (pcs (d_pc d)) = 1%nat
      \/ (length (pcs (d_pc d)) = fold_right Nat.mul 1%nat nav /\ nav_shape (d_pc d) = nav)).
Proof.
  intros E H. unfold detector_is_compatible in H. apply andb_true_iff in H. destruct H as [H1 H2].
  destruct (list_eq_dec Nat.eq_dec sig _) as [->|]; [|discriminate]. split; [reflexivity|].
  apply orb_true_iff in H2. destruct H2 as [H2|H2]; destruct (list_eq_dec Nat.eq_dec _ _) as [F|]; try discriminate.
  - left. rewrite E, F. reflexivity.
  - right. split; [rewrite E, F; reflexivity|exact F].
Qed.
Example C60_case_detector : let d := Det 4 6 1 1 0 0 0 70 (PCArray [2; 1]%nat [PC (1/2) (1/2) 1; PC (1/2) (1/2) 1]) in
  length (pcs (d_pc d)) = fold_right Nat.mul 1%nat (nav_shape (d_pc d)) /\ detector_is_compatible d [2; 1]%nat [4; 6]%nat = true
  /\ detector_is_compatible d [1; 2]%nat [4; 6]%nat = false.
Proof. repeat split. Qed.
(** A detector with one PC in navigation shape (1, 1), as of a signal with one pattern in two navigation axes, is accepted,
    but refinement of the orientation fails (refinement of the PC does not). *)
Theorem C60_single_pattern_of_2d_signal_refuted mp d p mask te minimise e start :
  d_pc d = PCArray [1%nat; 1%nat] [p] ->
  detector_is_compatible d [1%nat; 1%nat] [n_rows d; n_cols d] = true
  /\ solve_orientation mp d mask te minimise e start p = None.
Proof.
  intros E. split.
  - unfold detector_is_compatible. rewrite E. cbn [nav_shape]. fold (n_rows d) (n_cols d).
    destruct (list_eq_dec Nat.eq_dec [n_rows d; n_cols d] [n_rows d; n_cols d]) as [_|N]; [reflexivity|now contradiction N].
  - unfold solve_orientation. destruct (Similarity.prepare_pattern _ _) as [exp n2]. unfold direction_cosines. rewrite E. reflexivity.
Qed.

(** The hypotheses hold, for an optimiser that stays where it starts: a float32 master pattern whose hemispheres differ. *)
Definition float_master : master := Master (fun r c => if (r =? 0)%Z then 0 else 10) (fun r c => if (r =? 0)%Z then 200 else 100) 3 Intensity.Float32.
Example C60_case : exists score pat,
  solve_orientation float_master two_pixels None Intensity.UInt8 (fun f x => (f x, x)) [0; 1] (0, 0, 0) (PC (1/2) (1/2) 1) = Some (score, (0, 0, 0))
  /\ simulated_by_get_patterns float_master Intensity.Float32 two_pixels (rotation_from_euler 0 0 0) (PC (1/2) (1/2) 1) pat
  /\ not_constant (used None pat) /\ float32_or_equally_bright float_master /\ faithful (fun (f : R * R * R -> R) x => (f x, x)).
Proof.
  set (p := PC (1/2) (1/2) 1). assert (Hd : valid two_pixels) by (repeat split; cbn [two_pixels d_ny d_nx d_px_size d_binning]; try lia; lra).
  assert (Hp : 0 < pcz p) by (cbn; lra).
  destruct (C60_simulated_pattern_exists float_master Intensity.Float32 two_pixels (rotation_from_euler 0 0 0) p Hd Hp) as [pat Hpat].
  eexists. exists pat. split; [|split; [exact Hpat|split; [|split; [left; reflexivity|intros f x0; reflexivity]]]].
  - unfold solve_orientation, Similarity.prepare_pattern. cbn [two_pixels d_pc pcs length Nat.ltb Nat.leb dtype_eqb used_pixels].
    change (Det 2 1 1 1 0 0 0 0 (PCArray [1%nat] [PC (1/2) (1/2) 1])) with two_pixels.
    assert (Ed : direction_cosines two_pixels (Some (use_mask (Z.to_nat (d_ny two_pixels)) (Z.to_nat (d_nx two_pixels)) None))
                 = OneSet (map (fun idx => Some (direction two_pixels p idx)) [0%nat; 1%nat])).
    { unfold direction_cosines. cbn [two_pixels d_pc nav_shape pcs]. f_equal.
      exact (fixed_directions two_pixels p (Some [true; true]) Hd Hp ltac:(intros m E; injection E as <-; reflexivity)). }
    rewrite Ed, all_some_map. reflexivity.
  - rewrite rotation_zero in Hpat. pose proof (pattern_form float_master two_pixels Intensity.Float32 pat (Quat 1 0 0 0) p Hd Hp Hpat) as F. cbv zeta in F.
    change (pixels two_pixels None) with [0%nat; 1%nat] in F. change (npx float_master) with 3%Z in F. unfold p in F.
    rewrite (two_pixels_pattern (upper float_master) (lower float_master) 10 100) in F.
    2:{ intros r c Hr Hc. cbn [float_master upper lower]. destruct (Z.eqb_spec r 0); [lia|auto]. }
    cbn [float_master mp_dtype dtype_eqb map] in F. unfold Intensity.cast in F. cbn [Intensity.is_float] in F. rewrite F.
    exists 10, 100. cbn [used In]. repeat split; auto. lra.
Qed.

Print Assumptions C60_orientation_score_partial.
Print Assumptions C60_pc_score_partial.
Print Assumptions C60_orientation_pc_score_partial.
Print Assumptions C60_differently_bright_hemispheres_refuted.
